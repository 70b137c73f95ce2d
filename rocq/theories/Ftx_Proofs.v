(** Operations on the values of the numbers, in units of 2^c. *)
From Verif Require Import Base Flt_Model Flt_Spec Flt_Proofs Flt_Proofs2 Ftx_Model Ftx_Spec.
From Coq Require Import Lia ZArith Bool List.
Import ListNotations.
Open Scope Z_scope.

Definition isv (f : fmt) (c : Z) (x : fl) (v : Z) : Prop := exists m e, x = Fin m e /\ finite f m e /\ at_unit c m e = v.
(** c is small enough for a product of two numbers and for a quotient *)
Definition low (f : fmt) (c : Z) : Prop := c <= 2 * emin f - 1000.
Lemma low_facts f c : is_format f -> low f c -> c <= emin f /\ c <= -1000 /\ c <= 2 * emin f /\ emin f <= -100 /\ c <= emax f - prec f.
Proof. intros [->| ->] H; unfold low, emin in *; cbn [prec emax binary32 binary64] in *; lia. Qed.

Lemma isv_fin f c x v : isv f c x v -> is_fin x = true.
Proof. intros [m [e [-> _]]]. reflexivity. Qed.
Lemma isv_inj f c x v v' : isv f c x v -> isv f c x v' -> v = v'.
Proof. intros [m [e [-> [_ A]]]] [m' [e' [B [_ C]]]]. injection B as <- <-. congruence. Qed.

(** ** Rounding in units *)
Lemma rnd_isv f c m e y Y : is_format f -> low f c -> c <= e -> isv f c y Y -> Z.abs (at_unit c m e) <= Y ->
  exists v, isv f c (rnd f m e) v /\ Z.abs v <= Y.
Proof.
  intros Hf Hl He [my [ey [-> [Fy Vy]]]] B. pose proof (is_good f Hf) as G. destruct (low_facts f c Hf Hl) as [L1 [L2 [L3 [L4 L5]]]].
  pose proof Fy as [_ [Ey _]].
  destruct (no_overflow f m e c G He L5) as [m1 [e1 E]].
  { pose proof (finite_le f my ey c G Fy ltac:(lia) L5). rewrite Vy in H. lia. }
  destruct (rnd_cases f m e G) as [[E2 F2]|[s [E2 _]]]; [|congruence].
  set (m' := rne m (shift_of f m e)) in *. set (e' := e + shift_of f m e) in *.
  assert (e <= e') by (unfold e', shift_of; lia).
  exists (at_unit c m' e'). split; [exists m', e'; auto|].
  assert (Fy' : finite f (- my) ey).
  { destruct Fy as [A1 [A2 A3]]. repeat split; [lia|lia|]. destruct A3 as [A3|A3]; [left; lia|right]. unfold bits in *. rewrite Z.abs_opp.
    destruct (Z.eqb_spec my 0), (Z.eqb_spec (- my) 0); lia. }
  pose proof (rnd_near f m e my ey G Fy) as N1. pose proof (rnd_near f m e (- my) ey G Fy') as N2.
  fold m' e' in N1, N2. apply (nearer_unit c) in N1; [|lia|lia|lia]. apply (nearer_unit c) in N2; [|lia|lia|lia].
  replace (at_unit c (- my) ey) with (- Y) in N2 by (rewrite <- Vy; unfold at_unit; ring). rewrite Vy in N1. lia.
Qed.
Lemma rnd_above f c m e y Y v : is_format f -> low f c -> c <= e -> isv f c y Y -> Y <= at_unit c m e -> isv f c (rnd f m e) v -> Y <= v.
Proof.
  intros Hf Hl He [my [ey [-> [Fy Vy]]]] B [m1 [e1 [E [F V]]]]. pose proof (is_good f Hf) as G. destruct (low_facts f c Hf Hl) as [L1 _].
  pose proof Fy as [_ [Ey _]]. pose proof F as [_ [E1 _]].
  pose proof (rnd_near f m e my ey G Fy) as N.
  destruct (rnd_cases f m e G) as [[E2 _]|[s [E2 _]]]; [|congruence]. rewrite E in E2. injection E2 as -> ->.
  apply (nearer_unit c) in N; [|lia|lia|lia]. rewrite Vy, V in N. lia.
Qed.
Lemma rnd_below f c m e y Y v : is_format f -> low f c -> c <= e -> isv f c y Y -> at_unit c m e <= Y -> isv f c (rnd f m e) v -> v <= Y.
Proof.
  intros Hf Hl He [my [ey [-> [Fy Vy]]]] B [m1 [e1 [E [F V]]]]. pose proof (is_good f Hf) as G. destruct (low_facts f c Hf Hl) as [L1 _].
  pose proof Fy as [_ [Ey _]]. pose proof F as [_ [E1 _]].
  pose proof (rnd_near f m e my ey G Fy) as N.
  destruct (rnd_cases f m e G) as [[E2 _]|[s [E2 _]]]; [|congruence]. rewrite E in E2. injection E2 as -> ->.
  apply (nearer_unit c) in N; [|lia|lia|lia]. rewrite Vy, V in N. lia.
Qed.
(** the value of a number of the format is kept *)
Lemma rnd_same f c m e y : is_format f -> low f c -> c <= e -> isv f c y (at_unit c m e) -> isv f c (rnd f m e) (at_unit c m e).
Proof.
  intros Hf Hl He [my [ey [-> [Fy Vy]]]]. pose proof (is_good f Hf) as G. destruct (low_facts f c Hf Hl) as [L1 _]. pose proof Fy as [_ [Ey _]].
  destruct (rnd_exact f m e my ey c G Fy He ltac:(lia) (eq_sym Vy)) as [m1 [e1 [A [_ [B C]]]]]. exists m1, e1. auto.
Qed.
(** half of the last digit *)
Lemma rnd_error f c m e v b : is_format f -> low f c -> c <= e -> emin f <= b - prec f -> isv f c (rnd f m e) v -> Z.abs (at_unit c m e) < 2 ^ (b - c) ->
  2 * Z.abs (v - at_unit c m e) <= 2 ^ (b - prec f - c).
Proof.
  intros Hf Hl He Hb [m1 [e1 [E [F V]]]] B. pose proof (is_good f Hf) as G. destruct (low_facts f c Hf Hl) as [L1 [L2 [L3 [L4 L5]]]].
  destruct (rnd_cases f m e G) as [[E2 _]|[s [E2 _]]]; [|congruence]. rewrite E in E2. injection E2 as -> ->.
  set (k := shift_of f m e) in *. assert (Hk : 0 <= k) by (unfold k, shift_of; lia).
  destruct (Z.eq_dec k 0) as [K0|K0].
  { rewrite K0 in V. pose proof (rne_near m 0 m ltac:(lia)) as N. rewrite Z.pow_0_r, !Z.mul_1_r in N. assert (rne m 0 = m) by lia.
    rewrite H in V. rewrite Z.add_0_r in V. rewrite <- V, Z.sub_diag. cbn [Z.abs Z.mul]. apply Z.lt_le_incl, p2pos. lia. }
  assert (W : v = rne m k * 2 ^ k * 2 ^ (e - c)).
  { rewrite <- V. unfold at_unit. rewrite <- Z.mul_assoc, <- p2add by lia. do 2 f_equal. lia. }
  assert (H2 : 2 * Z.abs (m - rne m k * 2 ^ k) <= 2 ^ k).
  { pose proof (rne_near m k (m / 2 ^ k) Hk) as N1. pose proof (rne_near m k (m / 2 ^ k + 1) Hk) as N2.
    pose proof (p2pos k Hk) as Pk. pose proof (Z.div_mod m (2 ^ k) ltac:(lia)) as D. pose proof (Z.mod_pos_bound m (2 ^ k) Pk) as R.
    set (q := m / 2 ^ k) in *. set (r := m mod 2 ^ k) in *. replace (m - q * 2 ^ k) with r in N1 by lia. replace (m - (q + 1) * 2 ^ k) with (r - 2 ^ k) in N2 by lia. lia. }
  rewrite W. unfold at_unit. rewrite <- Z.mul_sub_distr_r, Z.abs_mul. pose proof (p2pos (e - c) ltac:(lia)) as Pe.
  rewrite (Z.abs_eq (2 ^ (e - c))) by lia.
  apply Z.le_trans with (2 ^ k * 2 ^ (e - c)).
  - rewrite Z.mul_assoc. apply Z.mul_le_mono_nonneg_r; lia.
  - rewrite <- p2add by lia. apply p2le. unfold k, shift_of in *.
    assert (bits m + e <= b \/ m = 0).
    { destruct (Z.eq_dec m 0) as [M0|M0]; [right; exact M0|left]. pose proof (bits_pos m M0) as [B1 B2].
      unfold at_unit in B. rewrite Z.abs_mul, (Z.abs_eq (2 ^ (e - c))) in B by lia.
      assert (2 ^ (bits m - 1 + (e - c)) < 2 ^ (b - c)).
      { rewrite p2add by lia. apply Z.le_lt_trans with (Z.abs m * 2 ^ (e - c)); [apply Z.mul_le_mono_nonneg_r; lia|exact B]. }
      destruct (Z_le_gt_dec (bits m + e) b); [lia|]. pose proof (p2le (b - c) (bits m - 1 + (e - c)) ltac:(lia)). lia. }
    destruct H as [H|H]; [lia|]. subst m. unfold bits in *. cbn in *. destruct G. lia.
Qed.

(** ** Numbers with a known value *)
Lemma isv_fin_mk f c m e : finite f m e -> isv f c (Fin m e) (at_unit c m e).
Proof. intros F. exists m, e. auto. Qed.
Lemma pow_isv f c m b : is_format f -> 0 < m < 2 ^ 4 -> emin f <= b -> b + 4 <= emax f -> isv f c (Fin m b) (m * 2 ^ (b - c)).
Proof.
  intros Hf Hm H1 H2. exists m, b. split; [reflexivity|]. split; [|reflexivity].
  destruct (format_emax f Hf) as [A [B C]]. repeat split; [|lia|right].
  - pose proof (p2le 4 (prec f) ltac:(lia)). lia.
  - pose proof (bits_le m 4 ltac:(lia) ltac:(lia)). lia.
Qed.
Lemma int_isv f c n : is_format f -> Z.abs n <= 2 ^ prec f -> isv f c (Fin n 0) (n * 2 ^ (- c)).
Proof.
  intros Hf H. exists n, 0. split; [reflexivity|]. split; [|unfold at_unit; do 2 f_equal]. destruct (format_emax f Hf) as [A [B C]].
  pose proof (format_emin f Hf). repeat split; [exact H|lia|]. destruct (Z.eq_dec n 0) as [N|N]; [left; exact N|right].
  pose proof (bits_le n (prec f + 1) ltac:(lia)) as L. assert (2 ^ prec f < 2 ^ (prec f + 1)) by (apply Z.pow_lt_mono_r; lia). specialize (L ltac:(lia)). lia.
Qed.
Lemma ten_eq f : is_format f -> ten f = Fin 10 0.
Proof. intros [->| ->]; reflexivity. Qed.
Lemma digit_eq f d : is_format f -> 0 <= d <= 9 -> of_int f d = Fin d 0.
Proof.
  intros Hf Hd. assert (C : d = 0 \/ d = 1 \/ d = 2 \/ d = 3 \/ d = 4 \/ d = 5 \/ d = 6 \/ d = 7 \/ d = 8 \/ d = 9) by lia.
  destruct Hf as [->| ->]; repeat (destruct C as [->|C]; [reflexivity|]); subst; reflexivity.
Qed.
Lemma zero_isv f c : is_format f -> isv f c zero 0.
Proof. intros Hf. apply (int_isv f c 0 Hf). cbn. apply Z.pow_nonneg. lia. Qed.

(** ** Sums and products *)
Lemma fadd_exact f c x y X Y : is_format f -> low f c -> isv f c x X -> isv f c y Y ->
  exists m e, fadd f x y = rnd f m e /\ c <= e /\ at_unit c m e = X + Y.
Proof.
  intros Hf Hl [m1 [e1 [-> [F1 V1]]]] [m2 [e2 [-> [F2 V2]]]]. destruct (low_facts f c Hf Hl) as [L1 _].
  pose proof F1 as [_ [E1 _]]. pose proof F2 as [_ [E2 _]]. cbn [fadd]. cbv zeta. set (d := Z.min e1 e2).
  eexists; eexists. split; [reflexivity|]. split; [lia|]. rewrite <- V1, <- V2, (unit_change c d m1 e1), (unit_change c d m2 e2) by lia.
  unfold at_unit. ring.
Qed.
Lemma fmul_exact f c x y X Y : is_format f -> low f c -> isv f c x X -> isv f c y Y ->
  exists m e, fmul f x y = rnd f m e /\ c <= e /\ at_unit c m e * 2 ^ (- c) = X * Y.
Proof.
  intros Hf Hl [m1 [e1 [-> [F1 V1]]]] [m2 [e2 [-> [F2 V2]]]]. destruct (low_facts f c Hf Hl) as [L1 [L2 [L3 [L4 L5]]]].
  pose proof F1 as [_ [E1 _]]. pose proof F2 as [_ [E2 _]]. cbn [fmul].
  eexists; eexists. split; [reflexivity|]. split; [lia|]. rewrite <- V1, <- V2. unfold at_unit.
  replace (m1 * m2 * 2 ^ (e1 + e2 - c) * 2 ^ (- c)) with (m1 * m2 * (2 ^ (e1 + e2 - c) * 2 ^ (- c))) by ring.
  replace (m1 * 2 ^ (e1 - c) * (m2 * 2 ^ (e2 - c))) with (m1 * m2 * (2 ^ (e1 - c) * 2 ^ (e2 - c))) by ring.
  rewrite <- !p2add by lia. do 2 f_equal. lia.
Qed.
Lemma times_ten f c x X : is_format f -> low f c -> isv f c x X -> exists m e, fmul f x (ten f) = rnd f m e /\ c <= e /\ at_unit c m e = 10 * X.
Proof.
  intros Hf Hl H. rewrite (ten_eq f Hf).
  destruct (low_facts f c Hf Hl) as [L1 [L2 [L3 [L4 L5]]]]. destruct (format_emax f Hf) as [A [B C]].
  destruct (fmul_exact f c x (Fin 10 0) X (10 * 2 ^ (- c)) Hf Hl H) as [m [e [E [He V]]]].
  { apply int_isv; [exact Hf|]. pose proof (p2le 24 (prec f) B). change (Z.abs 10) with 10. lia. }
  exists m, e. split; [exact E|]. split; [exact He|]. pose proof (p2pos (- c) ltac:(lia)). nia.
Qed.
