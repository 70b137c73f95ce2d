(** Conversions of numbers to integers. *)
From Verif Require Import Base Flt_Model Flt_Spec Flt_Proofs.
From Coq Require Import Lia ZArith Bool.
Open Scope Z_scope.

Lemma fge_unit c m1 e1 m2 e2 : c <= e1 -> c <= e2 -> fge (Fin m1 e1) (Fin m2 e2) = (at_unit c m2 e2 <=? at_unit c m1 e1).
Proof.
  intros H1 H2. cbn [fge]. unfold cmp. cbv zeta. set (d := Z.min e1 e2).
  rewrite (unit_change c d m1 e1), (unit_change c d m2 e2) by lia. pose proof (p2pos (d - c) ltac:(lia)) as P.
  fold (at_unit d m1 e1). fold (at_unit d m2 e2).
  destruct (Z.compare_spec (at_unit d m1 e1) (at_unit d m2 e2)); symmetry; [apply Z.leb_le|apply Z.leb_gt|apply Z.leb_le]; nia.
Qed.

Definition exact_int (f : fmt) (x : fl) (n : Z) : Prop := exists a j, x = Fin a j /\ 0 <= j /\ at_unit 0 a j = n.
Lemma exact_unit f x n c : exact_int f x n -> c <= 0 -> exists a j, x = Fin a j /\ 0 <= j /\ at_unit c a j = n * 2 ^ (- c).
Proof. intros [a [j [E [J V]]]] Hc. exists a, j. repeat split; try assumption. rewrite (unit_change c 0 a j), V by lia. do 2 f_equal; lia. Qed.

Lemma of_int_small f n : good f -> Z.abs n <= 2 ^ prec f -> emin f <= 0 -> exact_int f (of_int f n) n.
Proof.
  intros G H E. unfold of_int.
  assert (F : finite f n 0).
  { repeat split; [exact H|exact E|]. destruct (Z.eq_dec n 0); [left; assumption|right]. destruct G as [G1 G2].
    pose proof (bits_pos n n0) as [B1 B2]. assert (2 ^ (bits n - 1) <= 2 ^ prec f) by lia.
    pose proof (pow_mono_inv (bits n - 1) (prec f) ltac:(lia) ltac:(lia)). lia. }
  destruct (rnd_exact f n 0 n 0 0 G F ltac:(lia) ltac:(lia) eq_refl) as [m1 [e1 [A [B [_ V]]]]].
  exists m1, e1. repeat split; try assumption. rewrite V. unfold at_unit. cbn [Z.sub Z.opp Z.add Z.pow]. lia.
Qed.
Lemma of_int_exact f n m e : good f -> finite f m e -> 0 <= e -> n = m * 2 ^ e -> exact_int f (of_int f n) n.
Proof.
  intros G F He V. unfold of_int.
  destruct (rnd_exact f n 0 m e 0 G F ltac:(lia) ltac:(lia)) as [m1 [e1 [A [B [_ C]]]]].
  { unfold at_unit. rewrite !Z.sub_0_r, Z.pow_0_r. lia. }
  exists m1, e1. repeat split; try assumption. rewrite C. unfold at_unit. rewrite Z.sub_0_r, Z.pow_0_r. lia.
Qed.

Lemma of_max f t : is_format f -> is_type t -> exists M, exact_int f (of_int f (imax t)) M /\ imax t <= M <= imax t + 1.
Proof.
  intros Hf Ht. destruct t as [[] w]; unfold is_type in Ht; cbn [wid] in Ht;
  destruct Hf as [->| ->]; destruct Ht as [->|[->|[->| ->]]];
  (eexists; split; [eexists; eexists; split; [vm_compute; reflexivity|split; [vm_compute; congruence|reflexivity]]|vm_compute; split; congruence]).
Qed.
Lemma of_min f t : is_format f -> is_type t -> exact_int f (of_int f (imin t)) (imin t).
Proof.
  intros Hf Ht. destruct t as [[] w]; unfold is_type in Ht; cbn [wid] in Ht;
  destruct Hf as [->| ->]; destruct Ht as [->|[->|[->| ->]]];
  (eexists; eexists; split; [vm_compute; reflexivity|split; [vm_compute; congruence|vm_compute; reflexivity]]).
Qed.
Lemma range_facts t : is_type t -> imin t <= 0 <= imax t /\ imax t + 1 <= 2 ^ 64 /\ - 2 ^ 64 <= imin t /\ (sgn t = false -> imin t = 0).
Proof. intros Ht. destruct t as [[] w]; unfold is_type in Ht; cbn [wid] in Ht; destruct Ht as [->|[->|[->| ->]]]; vm_compute; repeat split; congruence. Qed.

(** ** The nearest integer *)
Lemma nearest_scale n d z k : 0 < d -> 0 < k -> (nearest_integer (n * k) (d * k) z <-> nearest_integer n d z).
Proof.
  intros Hd Hk. unfold nearest_integer.
  replace (n * k - z * (d * k)) with ((n - z * d) * k) by ring. rewrite !Z.abs_mul, (Z.abs_eq k) by lia.
  set (u := Z.abs (n - z * d)). set (v := Z.abs n). set (w := Z.abs z). split; intros [A B]; (split; [nia|intros E; assert (2 * (u * k) = d * k) by nia || assert (2 * u = d) by nia; nia]).
Qed.
Lemma nearest_unique n d z z' : 0 < d -> nearest_integer n d z -> nearest_integer n d z' -> z = z'.
Proof.
  intros Hd [A B] [A' B']. assert (C : Z.abs (z - z') * d <= d) by nia.
  assert (C2 : Z.abs (z - z') <= 1) by nia. destruct (Z.eq_dec z z') as [E|E]; [assumption|exfalso].
  assert (D : z' = z + 1 \/ z = z' + 1) by lia. clear C C2 E.
  destruct D as [D|D].
  - subst z'. assert (E : 2 * (n - z * d) = d) by nia. assert (E1 : 2 * Z.abs (n - z * d) = d) by lia. assert (E2 : 2 * Z.abs (n - (z + 1) * d) = d) by lia.
    specialize (B E1). specialize (B' E2). nia.
  - subst z. assert (E : 2 * (n - z' * d) = d) by nia. assert (E1 : 2 * Z.abs (n - z' * d) = d) by lia. assert (E2 : 2 * Z.abs (n - (z' + 1) * d) = d) by lia.
    specialize (B E2). specialize (B' E1). nia.
Qed.
Definition away (n d : Z) : Z := let q := Z.quot n d in if d <=? 2 * (n - q * d) then q + 1 else if 2 * (n - q * d) <=? - d then q - 1 else q.
Lemma quot_facts n d : 0 < d -> let q := Z.quot n d in (0 <= n -> 0 <= q /\ 0 <= n - q * d < d) /\ (n <= 0 -> q <= 0 /\ - d < n - q * d <= 0).
Proof.
  intros Hd q. pose proof (Z.quot_rem' n d) as E. split; intros Hn.
  - pose proof (Z.rem_bound_pos n d Hn Hd). pose proof (Z.quot_pos n d Hn Hd). unfold q. nia.
  - pose proof (Z.rem_bound_pos (- n) d ltac:(lia) Hd) as B. rewrite Z.rem_opp_l in B by lia.
    pose proof (Z.quot_pos (- n) d ltac:(lia) Hd) as Q. rewrite Z.quot_opp_l in Q by lia. unfold q. nia.
Qed.
Lemma away_nearest n d : 0 < d -> nearest_integer n d (away n d).
Proof.
  intros Hd. unfold away. cbv zeta. pose proof (quot_facts n d Hd) as [P N]. cbv zeta in P, N. set (q := Z.quot n d) in *. clearbody q.
  destruct (Z_le_gt_dec 0 n) as [C|C].
  - specialize (P C). clear N. destruct P as [P1 P2].
    destruct (Z.leb_spec d (2 * (n - q * d))); [split; [nia|intros; nia]|].
    destruct (Z.leb_spec (2 * (n - q * d)) (- d)); [lia|]. split; [nia|intros; nia].
  - specialize (N ltac:(lia)). clear P. destruct N as [N1 N2].
    destruct (Z.leb_spec d (2 * (n - q * d))); [lia|].
    destruct (Z.leb_spec (2 * (n - q * d)) (- d)); split; try nia; intros; nia.
Qed.

(** ** The conversion *)
Lemma format_emin f : is_format f -> emin f <= -100.
Proof. intros [->| ->]; vm_compute; congruence. Qed.

Lemma trunc_quot m e c : c <= e -> c <= 0 -> trunc m e = Z.quot (at_unit c m e) (2 ^ (- c)).
Proof.
  intros H1 H2. unfold trunc, at_unit. pose proof (p2pos (- c) ltac:(lia)) as P. destruct (Z.leb_spec 0 e) as [L|L].
  - replace (e - c) with (e + - c) by lia. rewrite p2add, Z.mul_assoc, Z.quot_mul by lia. reflexivity.
  - replace (- c) with (- e + (e - c)) by lia. rewrite p2add by lia. pose proof (p2pos (e - c) ltac:(lia)). pose proof (p2pos (- e) ltac:(lia)).
    rewrite Z.quot_mul_cancel_r by lia. reflexivity.
Qed.

(** the difference between a number and its integer part is exact *)
Lemma diff_exact f m e n c : good f -> emin f <= 0 -> finite f m e -> n = trunc m e -> c <= e -> c <= 0 ->
  exact_int f (of_int f n) n /\ exists a j, fsub f (Fin m e) (of_int f n) = Fin a j /\ c <= j /\ at_unit c a j = at_unit c m e - n * 2 ^ (- c).
Proof.
  intros G E0 F Hn He Hc.
  assert (X : exact_int f (of_int f n) n).
  { unfold trunc in Hn. destruct (Z.leb_spec 0 e) as [L|L].
    - apply (of_int_exact f n m e G F L Hn).
    - apply of_int_small; [exact G| |exact E0]. destruct F as [F1 _]. pose proof (p2pos (- e) ltac:(lia)) as P.
      pose proof (quot_facts m (2 ^ (- e)) P) as [Q1 Q2]. cbv zeta in Q1, Q2. rewrite <- Hn in Q1, Q2.
      destruct (Z_le_gt_dec 0 m); [specialize (Q1 ltac:(lia))|specialize (Q2 ltac:(lia))]; nia. }
  split; [exact X|]. destruct X as [a [j [Ea [Hj Va]]]]. rewrite Ea. cbn [fsub]. cbv zeta. set (d := Z.min e j).
  fold (at_unit d m e). fold (at_unit d a j).
  assert (Vn : forall c, c <= 0 -> at_unit c a j = n * 2 ^ (- c)).
  { intros c0 H0. rewrite (unit_change c0 0 a j), Va by lia. reflexivity. }
  assert (S : exists m' e', finite f m' e' /\ d <= e' /\ at_unit d m' e' = at_unit d m e - at_unit d a j).
  { unfold trunc in Hn. destruct (Z.leb_spec 0 e) as [L|L].
    - exists 0, (Z.max d 0). split; [|split; [lia|]].
      + repeat split; [cbn; pose proof (p2pos (prec f) ltac:(destruct G; lia)); lia|lia|left; reflexivity].
      + assert (at_unit 0 m e = n) by (unfold at_unit; rewrite Z.sub_0_r; lia).
        assert (at_unit d m e * 2 ^ d = at_unit d a j * 2 ^ d).
        { transitivity (at_unit 0 m e); [symmetry|rewrite H, <- Va]; [rewrite (unit_change 0 d m e) by (unfold d; lia)|rewrite (unit_change 0 d a j) by (unfold d; lia)]; rewrite Z.sub_0_r; reflexivity. }
        pose proof (p2pos d ltac:(unfold d; lia)). unfold at_unit at 1. nia.
    - assert (D : d = e) by (unfold d; lia). rewrite D.
      rewrite (Vn e) by lia. exists (m - n * 2 ^ (- e)), e. destruct F as [F1 [F2 F3]].
      pose proof (p2pos (- e) ltac:(lia)) as P.
      assert (B : Z.abs (m - n * 2 ^ (- e)) <= Z.abs m).
      { pose proof (quot_facts m (2 ^ (- e)) P) as [Q1 Q2]. cbv zeta in Q1, Q2. rewrite <- Hn in Q1, Q2.
        destruct (Z_le_gt_dec 0 m); [specialize (Q1 ltac:(lia))|specialize (Q2 ltac:(lia))]; nia. }
      split; [|split; [lia|unfold at_unit; rewrite Z.sub_diag, Z.pow_0_r; lia]].
      repeat split; [lia|lia|]. destruct (Z.eq_dec (m - n * 2 ^ (- e)) 0); [left; assumption|right].
      destruct F3 as [F3|F3]; [subst m; cbn [Z.abs] in B; lia|].
      pose proof (bits_lt m (bits m) ltac:(lia)). pose proof (bits_le (m - n * 2 ^ (- e)) (bits m) (bits_nonneg m) ltac:(lia)). lia. }
  destruct S as [m' [e' [F' [He' V']]]].
  destruct (rnd_exact f (at_unit d m e - at_unit d a j) d m' e' d G F' ltac:(lia) He') as [m1 [e1 [R [R1 [_ R2]]]]].
  { rewrite V'. unfold at_unit at 1. rewrite Z.sub_diag, Z.pow_0_r. lia. }
  exists m1, e1. split; [exact R|]. split; [unfold d in R1; lia|].
  rewrite (unit_change c d m1 e1), R2 by (unfold d in *; lia). rewrite <- (Vn c Hc).
  rewrite (unit_change c d m e), (unit_change c d a j) by (unfold d in *; lia).
  unfold at_unit at 1. rewrite Z.sub_diag, Z.pow_0_r. ring.
Qed.

Theorem to_integer f t m e z : is_format f -> is_type t -> finite f m e -> nearest_integer (num m e) (den e) z ->
  float_to_integer f t (Fin m e) = Some (clamped t z).
Proof.
  intros Hf Ht F N. pose proof (is_good f Hf) as G. pose proof (format_emin f Hf) as E0.
  set (c := Z.min e (-1)). assert (C1 : c <= e) by (unfold c; lia). assert (C2 : c <= -1) by (unfold c; lia).
  set (X := at_unit c m e). set (U := 2 ^ (- c)).
  assert (PU : 0 < U) by (apply p2pos; lia).
  assert (HU : exists h, U = 2 * h /\ 0 < h).
  { exists (2 ^ (- c - 1)). split; [unfold U; change 2 with (2 ^ 1) at 2; rewrite <- p2add by lia; f_equal; lia|apply p2pos; lia]. }
  destruct HU as [h [HU Ph]].
  assert (NX : nearest_integer X U z).
  { assert (S1 : X = num m e * 2 ^ (Z.min e 0 - c)).
    { unfold X, num, at_unit. rewrite <- Z.mul_assoc, <- p2add by lia. do 2 f_equal. lia. }
    assert (S2 : U = den e * 2 ^ (Z.min e 0 - c)) by (unfold U, den; rewrite <- p2add by lia; f_equal; lia).
    rewrite S1, S2. apply nearest_scale; [apply p2pos; lia|apply p2pos; lia|exact N]. }
  pose proof (nearest_unique X U z (away X U) PU NX (away_nearest X U PU)) as Z0. clear N NX.
  destruct (range_facts t Ht) as [R1 [_ [_ R4]]].
  destruct (of_max f t Hf Ht) as [M [EM BM]]. destruct (exact_unit f _ M c EM ltac:(lia)) as [aM [jM [OM [JM VM]]]].
  pose proof (of_min f t Hf Ht) as Em. destruct (exact_unit f _ (imin t) c Em ltac:(lia)) as [am [jm [Om [Jm Vm]]]].
  unfold float_to_integer. cbv zeta.
  assert (P : fgt (Fin m e) zero = (0 <? X)).
  { unfold fgt, zero. rewrite (fge_unit c m e 0 0), (fge_unit c 0 0 m e) by lia. fold X. replace (at_unit c 0 0) with 0 by reflexivity.
    destruct (Z.leb_spec 0 X), (Z.leb_spec X 0), (Z.ltb_spec 0 X); cbn; try reflexivity; lia. }
  rewrite P, OM, Om.
  rewrite (fge_unit c m e aM jM), (fge_unit c am jm m e) by lia. rewrite VM, Vm. fold U. fold X.
  pose proof (quot_facts X U PU) as [Q1 Q2]. cbv zeta in Q1, Q2.
  destruct (sgn t || (0 <? X)) eqn:S.
  - assert (SX : 0 < X \/ sgn t = true) by (destruct (sgn t); [auto|left; cbn in S; apply Z.ltb_lt; exact S]).
    subst z. unfold away, clamped. cbv zeta. set (q := Z.quot X U) in *.
    assert (T : trunc m e = q) by (apply (trunc_quot m e c); lia).
    destruct (Z.leb_spec (M * U) X) as [L1|L1].
    { f_equal. specialize (Q1 ltac:(nia)). assert (imax t <= q) by nia.
      destruct (Z.leb_spec U (2 * (X - q * U))), (Z.leb_spec (2 * (X - q * U)) (- U)); lia. }
    destruct (Z.leb_spec X (imin t * U)) as [L2|L2].
    { f_equal. specialize (Q2 ltac:(nia)). assert (q <= imin t) by nia.
      destruct (Z.leb_spec U (2 * (X - q * U))), (Z.leb_spec (2 * (X - q * U)) (- U)); lia. }
    assert (B1 : q <= imax t) by (destruct (Z_le_gt_dec 0 X); [specialize (Q1 ltac:(lia)); nia|specialize (Q2 ltac:(lia)); nia]).
    assert (B2 : imin t <= q) by (destruct (Z_le_gt_dec 0 X); [specialize (Q1 ltac:(lia)); nia|specialize (Q2 ltac:(lia)); nia]).
    cbn [to_int]. rewrite T. cbv zeta.
    rewrite (proj2 (Z.leb_le _ _) B2), (proj2 (Z.leb_le _ _) B1). cbn [andb].
    destruct (diff_exact f m e q c G ltac:(lia) F (eq_sym T) C1 ltac:(lia)) as [_ [a [j [D [J V]]]]].
    rewrite D. unfold half, minus_half. rewrite (fge_unit c a j 1 (-1)), (fge_unit c (-1) (-1) a j) by lia. rewrite V. fold X. fold U.
    assert (H1 : at_unit c 1 (-1) = h).
    { unfold at_unit. rewrite Z.mul_1_l. assert (2 * 2 ^ (-1 - c) = 2 * h); [|lia]. rewrite <- HU. unfold U.
      change 2 with (2 ^ 1) at 1. rewrite <- p2add by lia. f_equal. lia. }
    assert (H2 : at_unit c (-1) (-1) = - h) by (unfold at_unit in *; rewrite <- H1; lia).
    rewrite H1, H2.
    destruct (Z.leb_spec h (X - q * U)), (Z.leb_spec U (2 * (X - q * U))); try lia; [f_equal; destruct (Z.ltb_spec q (imax t)); lia|].
    destruct (Z.leb_spec (X - q * U) (- h)), (Z.leb_spec (2 * (X - q * U)) (- U)); try lia; f_equal; [destruct (Z.ltb_spec (imin t) q); lia|lia].
  - apply orb_false_iff in S. destruct S as [S1 S2]. apply Z.ltb_ge in S2. f_equal. specialize (R4 S1). specialize (Q2 S2).
    subst z. unfold away, clamped. cbv zeta. set (q := Z.quot X U) in *. rewrite R4.
    destruct (Z.leb_spec U (2 * (X - q * U))), (Z.leb_spec (2 * (X - q * U)) (- U)); lia.
Qed.

(** ** The other direction *)
Lemma format_emax f : is_format f -> 128 <= emax f /\ 24 <= prec f /\ prec f + 40 <= emax f.
Proof. intros [->| ->]; vm_compute; repeat split; congruence. Qed.

Lemma rnd_nearest f m e : good f -> (exists m1 e1, rnd f m e = Fin m1 e1) -> nearest_float f m e (rnd f m e).
Proof.
  intros G [m1 [e1 E]]. destruct (rnd_cases f m e G) as [[E2 F2]|[s [E2 _]]]; [|congruence].
  exists (rne m (shift_of f m e)), (e + shift_of f m e). split; [exact E2|]. split; [exact F2|].
  intros. apply rnd_near; assumption.
Qed.
Lemma of_int_finite f n : is_format f -> Z.abs n <= 2 ^ 64 -> exists m1 e1, rnd f n 0 = Fin m1 e1.
Proof.
  intros Hf H. destruct (format_emax f Hf) as [A [B C]].
  apply (no_overflow f n 0 0 (is_good f Hf)); [lia|lia|]. unfold at_unit. rewrite !Z.sub_0_r, Z.pow_0_r, Z.mul_1_r.
  apply Z.le_trans with (2 ^ 64); [exact H|].
  apply Z.le_trans with (2 ^ (prec f - 1) * 2 ^ (emax f - prec f)).
  - rewrite <- p2add by lia. apply p2le. lia.
  - apply Z.mul_le_mono_nonneg_r; [apply Z.lt_le_incl, p2pos; lia|].
    assert (2 ^ prec f = 2 * 2 ^ (prec f - 1)) by (change 2 with (2 ^ 1) at 2; rewrite <- p2add by lia; f_equal; lia).
    pose proof (p2pos (prec f - 1) ltac:(lia)). lia.
Qed.
Theorem to_float f t n : is_format f -> is_type t -> imin t <= n <= imax t ->
  integer_to_float f n = (rnd f n 0, true) /\ nearest_float f n 0 (rnd f n 0).
Proof.
  intros Hf Ht H. destruct (range_facts t Ht) as [R1 [R2 [R3 _]]].
  pose proof (of_int_finite f n Hf ltac:(lia)) as E. split; [|apply rnd_nearest; [apply is_good; exact Hf|exact E]].
  unfold integer_to_float, of_int. destruct E as [m1 [e1 E]]. rewrite E. reflexivity.
Qed.

(** ** There and back *)
Lemma round_trip f t n : is_format f -> is_type t -> imin t <= n <= imax t -> Z.abs n <= 2 ^ prec f ->
  exists a j, integer_to_float f n = (Fin a j, true) /\ 0 <= j /\ a * 2 ^ j = n /\ float_to_integer f t (Fin a j) = Some n.
Proof.
  intros Hf Ht H P. pose proof (is_good f Hf) as G. pose proof (format_emin f Hf) as E0.
  destruct (to_float f t n Hf Ht H) as [E N]. destruct (of_int_small f n G P ltac:(lia)) as [a [j [A [J V]]]].
  unfold of_int in A. exists a, j. rewrite E, A. split; [reflexivity|]. split; [exact J|].
  assert (V' : a * 2 ^ j = n) by (unfold at_unit in V; rewrite Z.sub_0_r in V; exact V). split; [exact V'|].
  destruct N as [m1 [e1 [X [F _]]]]. rewrite A in X. injection X as <- <-.
  rewrite (to_integer f t a j n Hf Ht F).
  - unfold clamped. f_equal. lia.
  - unfold num, den. replace (Z.min j 0) with 0 by lia. rewrite Z.sub_0_r, V'. change (2 ^ (- 0)) with 1.
    split; lia.
Qed.

(** ** Between the formats *)
Theorem narrow m e : nearest_float binary32 m e (fst (to_float32 (Fin m e))) /\ snd (to_float32 (Fin m e)) = true.
Proof.
  pose proof (is_good binary32 (or_introl eq_refl)) as G. unfold to_float32, float_to_float.
  destruct (rnd_cases binary32 m e G) as [[E F]|[s [E [R O]]]].
  - rewrite E. cbn [fst snd]. split; [|reflexivity]. exists (rne m (shift_of binary32 m e)), (e + shift_of binary32 m e).
    split; [reflexivity|]. split; [exact F|]. intros. apply rnd_near; assumption.
  - rewrite E. cbn [fst snd]. split; [|reflexivity].
    set (c := Z.min e (-200)).
    assert (B : at_unit c (2 ^ 24 - 1) 104 < Z.abs (at_unit c m e)).
    { destruct (Z_lt_le_dec (at_unit c (2 ^ 24 - 1) 104) (Z.abs (at_unit c m e))) as [L|L]; [exact L|exfalso].
      destruct (no_overflow binary32 m e c G ltac:(unfold c; lia) ltac:(unfold c; cbn; lia) L) as [m1 [e1 X]]. congruence. }
    assert (P : fgt (Fin m e) zero = (0 <? at_unit c m e)).
    { unfold fgt, zero. rewrite (fge_unit c m e 0 0), (fge_unit c 0 0 m e) by (unfold c; lia). replace (at_unit c 0 0) with 0 by reflexivity.
      destruct (Z.leb_spec 0 (at_unit c m e)), (Z.leb_spec (at_unit c m e) 0), (Z.ltb_spec 0 (at_unit c m e)); cbn; try reflexivity; lia. }
    assert (Fl : forall s, (s = 1 \/ s = -1) -> finite binary32 (s * (2 ^ 24 - 1)) 104).
    { intros s' [->| ->]; (repeat split; [vm_compute; congruence|vm_compute; congruence|right; vm_compute; congruence]). }
    assert (PM : 0 < at_unit c (2 ^ 24 - 1) 104) by (unfold at_unit; pose proof (p2pos (104 - c) ltac:(unfold c; lia)); lia).
    assert (K : forall s, (s = 1 /\ 0 < at_unit c m e \/ s = -1 /\ at_unit c m e < 0) ->
      nearest_float binary32 m e (Fin (s * (2 ^ 24 - 1)) 104)).
    { intros s' Hs. exists (s' * (2 ^ 24 - 1)), 104. split; [reflexivity|]. split; [apply Fl; tauto|].
      intros m2 e2 F2. set (c2 := Z.min c e2). apply (nearer_unit c2); try (unfold c2, c; lia).
      pose proof (finite_le binary32 m2 e2 c2 G F2 ltac:(unfold c2; lia) ltac:(unfold c2, c; cbn; lia)) as L.
      change (emax binary32 - prec binary32) with 104 in L. change (prec binary32) with 24 in L.
      assert (S : at_unit c2 (s' * (2 ^ 24 - 1)) 104 = s' * at_unit c2 (2 ^ 24 - 1) 104) by (unfold at_unit; rewrite Z.mul_assoc; reflexivity).
      rewrite S. set (q := at_unit c2 (2 ^ 24 - 1) 104) in *.
      assert (Q : q = at_unit c (2 ^ 24 - 1) 104 * 2 ^ (c - c2)) by (apply unit_change; unfold c2, c; lia).
      assert (W : at_unit c2 m e = at_unit c m e * 2 ^ (c - c2)) by (apply unit_change; unfold c2, c; lia).
      pose proof (p2pos (c - c2) ltac:(unfold c2; lia)) as Pc.
      assert (B2 : q < Z.abs (at_unit c2 m e)).
      { rewrite W, Z.abs_mul, (Z.abs_eq (2 ^ (c - c2))) by lia. rewrite Q. apply Z.mul_lt_mono_pos_r; assumption. }
      destruct Hs as [[-> Hs]|[-> Hs]].
      + assert (0 < at_unit c2 m e) by (rewrite W; apply Z.mul_pos_pos; assumption). lia.
      + assert (at_unit c2 m e < 0) by (rewrite W; apply Z.mul_neg_pos; assumption). lia. }
    rewrite P. destruct (Z.ltb_spec 0 (at_unit c m e)) as [L|L].
    + change largest with (Fin (1 * (2 ^ 24 - 1)) 104). apply K. left. split; [reflexivity|exact L].
    + change smallest with (Fin (-1 * (2 ^ 24 - 1)) 104). apply K. right. split; [reflexivity|lia].
Qed.

Lemma finite_wider m e : finite binary32 m e -> finite binary64 m e.
Proof.
  intros [A [B C]]. cbn [prec emax binary32 binary64] in *. repeat split.
  - apply Z.le_trans with (2 ^ 24); [exact A|vm_compute; congruence].
  - unfold emin in *. cbn [prec emax binary32 binary64] in *. lia.
  - destruct C; [left; assumption|right]. cbn [prec emax binary32 binary64] in *. lia.
Qed.
Theorem widen m e : finite binary32 m e -> exists m1 e1, to_float64 (Fin m e) = (Fin m1 e1, true) /\ finite binary64 m1 e1 /\ e <= e1 /\ m1 * 2 ^ (e1 - e) = m
  /\ exists m2 e2, to_float32 (Fin m1 e1) = (Fin m2 e2, true) /\ e <= e2 /\ m2 * 2 ^ (e2 - e) = m.
Proof.
  intros F. pose proof (is_good binary64 (or_intror eq_refl)) as G. pose proof (is_good binary32 (or_introl eq_refl)) as G1.
  destruct (rnd_exact binary64 m e m e e G (finite_wider m e F) ltac:(lia) ltac:(lia) eq_refl) as [m1 [e1 [E [L [F1 V]]]]].
  exists m1, e1. unfold to_float64, to_float32, float_to_float. rewrite E. split; [reflexivity|]. split; [exact F1|]. split; [exact L|].
  assert (V1 : m1 * 2 ^ (e1 - e) = m) by (unfold at_unit in V; rewrite Z.sub_diag, Z.pow_0_r, Z.mul_1_r in V; exact V). split; [exact V1|].
  destruct (rnd_exact binary32 m1 e1 m e e G1 F L ltac:(lia) V) as [m2 [e2 [E2 [L2 [_ W]]]]].
  exists m2, e2. rewrite E2. split; [reflexivity|]. split; [lia|]. unfold at_unit in V, W. rewrite Z.sub_diag, Z.pow_0_r, Z.mul_1_r in V. lia.
Qed.

(** ** Order *)
Lemma nearest_mono n d z n' z' : 0 < d -> nearest_integer n d z -> nearest_integer n' d z' -> n <= n' -> z <= z'.
Proof.
  intros Hd N N' H. destruct (Z_le_gt_dec z z') as [L|L]; [exact L|exfalso].
  destruct N as [A B], N' as [A' B']. assert (z = z' + 1) by nia. subst z.
  assert (E : n = n') by nia. subst n'. assert (E1 : 2 * (n - z' * d) = d) by nia.
  specialize (B ltac:(lia)). specialize (B' ltac:(lia)). nia.
Qed.
Lemma nearest_at m e c : c <= e -> c <= 0 -> forall z, nearest_integer (num m e) (den e) z <-> nearest_integer (at_unit c m e) (2 ^ (- c)) z.
Proof.
  intros H1 H2 z. replace (at_unit c m e) with (num m e * 2 ^ (Z.min e 0 - c)).
  - replace (2 ^ (- c)) with (den e * 2 ^ (Z.min e 0 - c)) by (unfold den; rewrite <- p2add by lia; f_equal; lia).
    symmetry. apply nearest_scale; apply p2pos; lia.
  - unfold num, at_unit. rewrite <- Z.mul_assoc, <- p2add by lia. do 2 f_equal. lia.
Qed.
Theorem order f t m e m' e' : is_format f -> is_type t -> finite f m e -> finite f m' e' -> fge (Fin m' e') (Fin m e) = true ->
  exists z z', float_to_integer f t (Fin m e) = Some z /\ float_to_integer f t (Fin m' e') = Some z' /\ z <= z'.
Proof.
  intros Hf Ht F F' H. set (c := Z.min (Z.min e e') 0).
  rewrite (fge_unit c) in H by (unfold c; lia). apply Z.leb_le in H.
  pose proof (p2pos (- c) ltac:(unfold c; lia)) as P.
  set (z := away (at_unit c m e) (2 ^ (- c))). set (z' := away (at_unit c m' e') (2 ^ (- c))).
  pose proof (away_nearest (at_unit c m e) (2 ^ (- c)) P) as N. pose proof (away_nearest (at_unit c m' e') (2 ^ (- c)) P) as N'. fold z in N. fold z' in N'.
  exists (clamped t z), (clamped t z').
  rewrite (to_integer f t m e z Hf Ht F), (to_integer f t m' e' z' Hf Ht F') by (apply (nearest_at _ _ c); try (unfold c; lia); assumption).
  repeat split. pose proof (nearest_mono _ _ z _ z' P N N' H). unfold clamped. lia.
Qed.
