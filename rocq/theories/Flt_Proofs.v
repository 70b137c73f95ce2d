(** Rounding gives the nearest number of the format. *)
From Verif Require Import Base Flt_Model Flt_Spec.
From Coq Require Import Lia ZArith Bool.
Open Scope Z_scope.

Lemma p2pos k : 0 <= k -> 0 < 2 ^ k.
Proof. intros; apply Z.pow_pos_nonneg; lia. Qed.
Lemma p2add a b : 0 <= a -> 0 <= b -> 2 ^ (a + b) = 2 ^ a * 2 ^ b.
Proof. intros; apply Z.pow_add_r; lia. Qed.
Lemma p2le a b : a <= b -> 2 ^ a <= 2 ^ b.
Proof. intros; apply Z.pow_le_mono_r; lia. Qed.
Lemma pow_mono_inv a b : 0 <= a -> 2 ^ a <= 2 ^ b -> a <= b.
Proof. intros Ha H. destruct (Z_lt_le_dec b a); [|lia]. exfalso.
  destruct (Z_lt_le_dec b 0). rewrite (Z.pow_neg_r 2 b) in H by lia. pose proof (p2pos a Ha). lia.
  pose proof (Z.pow_lt_mono_r 2 b a ltac:(lia) ltac:(lia) ltac:(lia)). lia. Qed.

Lemma bits_pos m : m <> 0 -> 1 <= bits m /\ 2 ^ (bits m - 1) <= Z.abs m < 2 ^ bits m.
Proof. intros H. unfold bits. destruct (Z.eqb_spec m 0); [lia|].
  pose proof (Z.log2_spec (Z.abs m) ltac:(lia)). pose proof (Z.log2_nonneg (Z.abs m)).
  replace (Z.log2 (Z.abs m) + 1 - 1) with (Z.log2 (Z.abs m)) by lia. replace (Z.succ (Z.log2 (Z.abs m))) with (Z.log2 (Z.abs m) + 1) in H0 by lia. lia. Qed.
Lemma bits_nonneg m : 0 <= bits m.
Proof. destruct (Z.eq_dec m 0); [subst; unfold bits; cbn; lia|pose proof (bits_pos m n); lia]. Qed.
Lemma bits_le m k : 0 <= k -> Z.abs m < 2 ^ k -> bits m <= k.
Proof. intros Hk H. destruct (Z.eq_dec m 0); [subst; unfold bits; cbn; lia|].
  pose proof (bits_pos m n). assert (2 ^ (bits m - 1) < 2 ^ k) by lia.
  destruct (Z_le_gt_dec (bits m) k); [lia|]. pose proof (p2le k (bits m - 1) ltac:(lia)). lia. Qed.
Lemma bits_lt m k : bits m <= k -> Z.abs m < 2 ^ k.
Proof. intros H. pose proof (bits_nonneg m). destruct (Z.eq_dec m 0); [subst; cbn; apply p2pos; lia|].
  pose proof (bits_pos m n). pose proof (p2le _ _ H). lia. Qed.

(** ** Rounding to an integer *)
Lemma rne_near m k q : 0 <= k -> Z.abs (m - rne m k * 2 ^ k) <= Z.abs (m - q * 2 ^ k).
Proof.
  intros Hk. pose proof (p2pos k Hk) as Hd. unfold rne. cbv zeta.
  pose proof (Z.div_mod m (2 ^ k) ltac:(lia)) as E. pose proof (Z.mod_pos_bound m (2 ^ k) Hd) as B.
  set (d := 2 ^ k) in *. set (r := m mod d) in *. set (a := m / d) in *. clearbody d r a.
  assert (N : forall x, Z.abs (m - x * d) <= r -> Z.abs (m - x * d) <= d - r -> Z.abs (m - x * d) <= Z.abs (m - q * d)).
  { intros x H1 H2. assert (C : q <= a \/ a + 1 <= q) by lia. destruct C; nia. }
  destruct (Z.ltb_spec (2 * r) d); [apply N; nia|]. destruct (Z.ltb_spec d (2 * r)); [apply N; nia|].
  destruct (Z.even a); apply N; nia.
Qed.
Lemma rne_mono m k q : 0 <= k -> Z.abs m <= q * 2 ^ k -> Z.abs (rne m k) <= q.
Proof.
  intros Hk H. pose proof (p2pos k Hk) as Hd.
  assert (Q : 0 <= q) by nia.
  destruct (Z.lt_trichotomy m 0) as [L|[L|L]].
  - pose proof (rne_near m k (- q) Hk) as N. nia.
  - pose proof (rne_near m k 0 Hk) as N. subst. rewrite Z.mul_0_l in N. cbn [Z.sub Z.opp Z.add Z.abs] in N.
    assert (rne 0 k * 2 ^ k = 0) by lia. assert (rne 0 k = 0) by nia. lia.
  - pose proof (rne_near m k q Hk) as N. nia.
Qed.

(** ** Units *)
Lemma unit_change c c' m e : c <= c' -> c' <= e -> at_unit c m e = at_unit c' m e * 2 ^ (c' - c).
Proof. intros. unfold at_unit. rewrite <- Z.mul_assoc, <- p2add by lia. do 2 f_equal. lia. Qed.
Lemma nearer_unit c m e m1 e1 m2 e2 : c <= e -> c <= e1 -> c <= e2 ->
  (nearer m e m1 e1 m2 e2 <-> Z.abs (at_unit c m1 e1 - at_unit c m e) <= Z.abs (at_unit c m2 e2 - at_unit c m e)).
Proof.
  intros H H1 H2. unfold nearer. cbv zeta. set (c' := Z.min e (Z.min e1 e2)).
  rewrite (unit_change c c' m e), (unit_change c c' m1 e1), (unit_change c c' m2 e2) by lia.
  pose proof (p2pos (c' - c) ltac:(lia)). rewrite <- !Z.mul_sub_distr_r, !Z.abs_mul, (Z.abs_eq (2 ^ (c' - c))) by lia.
  split; intros; nia.
Qed.

(** A format that makes sense *)
Definition good (f : fmt) : Prop := 1 <= prec f /\ prec f < emax f.
Lemma is_good f : is_format f -> good f.
Proof. intros [->| ->]; unfold good; cbn; lia. Qed.

Definition shift_of (f : fmt) (m e : Z) : Z := Z.max (bits m - prec f) (Z.max (emin f - e) 0).

(** A result that is not infinite is nearest *)
Lemma rnd_near f m e m2 e2 : good f -> finite f m2 e2 -> nearer m e (rne m (shift_of f m e)) (e + shift_of f m e) m2 e2.
Proof.
  intros [G1 G2] [F1 [F2 F3]]. set (k := shift_of f m e).
  assert (Hk : 0 <= k) by (unfold k, shift_of; lia).
  set (c := Z.min e e2). apply (nearer_unit c); try (unfold c; lia).
  assert (C0 : at_unit c (rne m k) (e + k) = rne m k * 2 ^ k * 2 ^ (e - c)).
  { unfold at_unit. rewrite <- Z.mul_assoc, <- p2add by (unfold c; lia). do 2 f_equal. lia. }
  assert (C1 : at_unit c m e = m * 2 ^ (e - c)) by reflexivity.
  pose proof (p2pos (e - c) ltac:(unfold c; lia)) as P. rewrite C0, C1. clear C0 C1.
  rewrite <- Z.mul_sub_distr_r, Z.abs_mul, (Z.abs_eq (2 ^ (e - c))) by lia.
  destruct (Z_le_gt_dec (e + k) e2) as [Hc|Hc].
  - replace (at_unit c m2 e2) with (m2 * 2 ^ (e2 - (e + k)) * 2 ^ k * 2 ^ (e - c)).
    2:{ unfold at_unit. rewrite <- !Z.mul_assoc, <- !p2add by (unfold c; lia). do 2 f_equal. lia. }
    rewrite <- Z.mul_sub_distr_r, Z.abs_mul, (Z.abs_eq (2 ^ (e - c))) by lia.
    pose proof (rne_near m k (m2 * 2 ^ (e2 - (e + k))) Hk). apply Z.mul_le_mono_nonneg_r; lia.
  - destruct (Z.eq_dec k 0) as [K0|K0].
    { rewrite K0. pose proof (rne_near m 0 m ltac:(lia)) as N. rewrite Z.pow_0_r, !Z.mul_1_r in *. replace (m - m) with 0 in N by lia.
      replace (rne m 0 - m) with 0 by lia. cbn [Z.abs]. lia. }
    assert (Kb : k = bits m - prec f) by (unfold k, shift_of in *; lia).
    destruct (Z.eq_dec m 0) as [M0|M0]; [exfalso; unfold bits in Kb; subst m; cbn in Kb; lia|].
    pose proof (bits_pos m M0) as [B1 B2].
    assert (Y : Z.abs (at_unit c m2 e2) <= 2 ^ (bits m - 1) * 2 ^ (e - c)).
    { unfold at_unit. rewrite Z.abs_mul, (Z.abs_eq (2 ^ _)) by (pose proof (p2pos (e2 - c) ltac:(unfold c; lia)); lia).
      rewrite <- p2add by (unfold c; lia).
      apply Z.le_trans with (2 ^ prec f * 2 ^ (e2 - c)); [pose proof (p2pos (e2 - c) ltac:(unfold c; lia)); nia|].
      rewrite <- p2add by (unfold c; lia). apply p2le. lia. }
    assert (S : 2 ^ (bits m - 1) = 2 ^ (prec f - 1) * 2 ^ k) by (rewrite <- p2add by lia; f_equal; lia).
    assert (N : Z.abs (m - rne m k * 2 ^ k) <= Z.abs m - 2 ^ (bits m - 1)).
    { destruct (Z_lt_le_dec m 0).
      pose proof (rne_near m k (- 2 ^ (prec f - 1)) Hk). nia. pose proof (rne_near m k (2 ^ (prec f - 1)) Hk). nia. }
    apply Z.le_trans with ((Z.abs m - 2 ^ (bits m - 1)) * 2 ^ (e - c)); [apply Z.mul_le_mono_nonneg_r; lia|].
    assert (Z.abs (m * 2 ^ (e - c)) = Z.abs m * 2 ^ (e - c)) by (rewrite Z.abs_mul, (Z.abs_eq (2 ^ (e - c))) by lia; reflexivity).
    rewrite Z.mul_sub_distr_r. clear S N. lia.
Qed.

Lemma rne_bound f m e : good f -> Z.abs (rne m (shift_of f m e)) <= 2 ^ prec f.
Proof.
  intros [G1 G2]. set (k := shift_of f m e). assert (Hk : 0 <= k) by (unfold k, shift_of; lia).
  apply rne_mono; [exact Hk|]. rewrite <- p2add by lia.
  pose proof (bits_lt m (prec f + k) ltac:(unfold k, shift_of; lia)). lia.
Qed.

Lemma rnd_cases f m e : good f ->
  let k := shift_of f m e in
  (rnd f m e = Fin (rne m k) (e + k) /\ finite f (rne m k) (e + k))
  \/ (exists s, rnd f m e = Inf s /\ rne m k <> 0 /\ emax f < bits (rne m k) + (e + k)).
Proof.
  intros G k. unfold rnd. fold (shift_of f m e). fold k. cbv zeta.
  destruct (Z.eqb_spec (rne m k) 0) as [R|R]; cbn [negb andb].
  - left. split; [reflexivity|]. repeat split; [apply rne_bound; exact G|unfold k, shift_of; lia|left; exact R].
  - destruct (Z.ltb_spec (emax f) (bits (rne m k) + (e + k))) as [O|O].
    + right. exists (rne m k <? 0). auto.
    + left. split; [reflexivity|]. repeat split; [apply rne_bound; exact G|unfold k, shift_of; lia|right; exact O].
Qed.

(** no overflow up to the largest number *)
Lemma no_overflow f m e c : good f -> c <= e -> c <= emax f - prec f -> Z.abs (at_unit c m e) <= at_unit c (2 ^ prec f - 1) (emax f - prec f) ->
  exists m1 e1, rnd f m e = Fin m1 e1.
Proof.
  intros G He Hc H. destruct (rnd_cases f m e G) as [[E _]|[s [E [R O]]]]; [eauto|]. exfalso.
  set (k := shift_of f m e) in *. destruct G as [G1 G2].
  assert (Hk : 0 <= k) by (unfold k, shift_of; lia).
  assert (P : 2 <= 2 ^ prec f) by (change 2 with (2 ^ 1) at 1; apply p2le; lia).
  destruct (Z.eq_dec m 0) as [M0|M0].
  { pose proof (rne_mono m k 0 Hk ltac:(subst m; cbn; lia)). lia. }
  pose proof (bits_pos m M0) as [B1 B2].
  assert (V : Z.abs m * 2 ^ (e - c) < 2 ^ (emax f - c)).
  { unfold at_unit in H. rewrite Z.abs_mul, (Z.abs_eq (2 ^ (e - c))) in H by (pose proof (p2pos (e - c) ltac:(lia)); lia).
    replace (emax f - c) with (prec f + (emax f - prec f - c)) by lia. rewrite p2add by lia.
    pose proof (p2pos (emax f - prec f - c) ltac:(lia)). nia. }
  assert (Bm : bits m + e <= emax f).
  { assert (2 ^ (bits m - 1 + (e - c)) < 2 ^ (emax f - c)).
    { rewrite p2add by lia. pose proof (p2pos (e - c) ltac:(lia)). nia. }
    destruct (Z_le_gt_dec (bits m + e) (emax f)); [lia|]. pose proof (p2le (emax f - c) (bits m - 1 + (e - c)) ltac:(lia)). lia. }
  assert (Ke : e + k <= emax f - prec f \/ (k = 0 /\ emax f - prec f < e)).
  { unfold k, shift_of, emin in *. lia. }
  destruct Ke as [Ke|[K0 Ke]].
  - pose proof (rne_mono m k ((2 ^ prec f - 1) * 2 ^ (emax f - prec f - (e + k))) Hk) as Mo.
    assert (Hm : Z.abs m <= (2 ^ prec f - 1) * 2 ^ (emax f - prec f - (e + k)) * 2 ^ k).
    { rewrite <- Z.mul_assoc, <- p2add by lia. unfold at_unit in H.
      rewrite Z.abs_mul, (Z.abs_eq (2 ^ (e - c))) in H by (pose proof (p2pos (e - c) ltac:(lia)); lia).
      replace (emax f - prec f - c) with (emax f - prec f - (e + k) + k + (e - c)) in H by lia.
      rewrite (p2add _ (e - c)), Z.mul_assoc in H by lia. pose proof (p2pos (e - c) ltac:(lia)).
      apply Z.mul_le_mono_pos_r in H; lia. }
    specialize (Mo Hm). clear Hm H V.
    assert (Z.abs (rne m k) < 2 ^ (emax f - (e + k))).
    { replace (emax f - (e + k)) with (prec f + (emax f - prec f - (e + k))) by lia. rewrite p2add by lia.
      pose proof (p2pos (emax f - prec f - (e + k)) ltac:(lia)). nia. }
    pose proof (bits_le (rne m k) (emax f - (e + k)) ltac:(lia) H). lia.
  - rewrite K0 in *. pose proof (rne_mono m 0 (Z.abs m) ltac:(lia) ltac:(rewrite Z.pow_0_r; lia)).
    pose proof (bits_le (rne m 0) (bits m) ltac:(lia) ltac:(lia)). lia.
Qed.

Lemma finite_le f m e c : good f -> finite f m e -> c <= e -> c <= emax f - prec f ->
  Z.abs (at_unit c m e) <= at_unit c (2 ^ prec f - 1) (emax f - prec f).
Proof.
  intros [G1 G2] [F1 [F2 F3]] He Hc. unfold at_unit.
  assert (P : 2 <= 2 ^ prec f) by (change 2 with (2 ^ 1) at 1; apply p2le; lia).
  rewrite Z.abs_mul, (Z.abs_eq (2 ^ (e - c))) by (pose proof (p2pos (e - c) ltac:(lia)); lia).
  pose proof (p2pos (e - c) ltac:(lia)) as P1. pose proof (p2pos (emax f - prec f - c) ltac:(lia)) as P2.
  destruct (Z.eq_dec m 0) as [M0|M0]; [subst m; cbn [Z.abs]; nia|].
  destruct F3 as [F3|F3]; [contradiction|]. pose proof (bits_pos m M0) as [B1 B2].
  destruct (Z_le_gt_dec e (emax f - prec f)) as [C|C].
  - destruct (Z.eq_dec (Z.abs m) (2 ^ prec f)) as [Q|Q].
    + (* the mantissa 2^prec *)
      assert (bits m = prec f + 1).
      { assert (2 ^ prec f < 2 ^ bits m) by lia. assert (2 ^ (bits m - 1) <= 2 ^ prec f) by lia.
        pose proof (pow_mono_inv (bits m - 1) (prec f) ltac:(lia) ltac:(lia)).
        destruct (Z_le_gt_dec (bits m) (prec f)); [pose proof (p2le _ _ l); lia|lia]. }
      rewrite Q. assert (e <= emax f - prec f - 1) by lia.
      replace (emax f - prec f - c) with (1 + (emax f - prec f - 1 - e) + (e - c)) by lia.
      rewrite !p2add by lia. pose proof (p2pos (emax f - prec f - 1 - e) ltac:(lia)) as P3. change (2 ^ 1) with 2.
      rewrite Z.mul_assoc. apply Z.mul_le_mono_nonneg_r; [lia|]. nia.
    + replace (emax f - prec f - c) with ((emax f - prec f - e) + (e - c)) by lia. rewrite p2add by lia.
      pose proof (p2pos (emax f - prec f - e) ltac:(lia)) as P3. rewrite Z.mul_assoc. apply Z.mul_le_mono_nonneg_r; [lia|]. nia.
  - (* a short mantissa with a large exponent *)
    pose proof (p2le (bits m) (emax f - e) ltac:(lia)) as L.
    assert (Z.abs m <= 2 ^ (emax f - e) - 1) by lia.
    replace (e - c) with ((e - (emax f - prec f)) + (emax f - prec f - c)) by lia. rewrite p2add by lia.
    rewrite Z.mul_assoc. apply Z.mul_le_mono_nonneg_r; [lia|].
    pose proof (p2pos (e - (emax f - prec f)) ltac:(lia)) as P3.
    assert (S : 2 ^ prec f = 2 ^ (emax f - e) * 2 ^ (e - (emax f - prec f))) by (rewrite <- p2add by lia; f_equal; lia).
    rewrite S. nia.
Qed.

(** ** A value that is a number of the format is not changed *)
Lemma rnd_exact f m e m' e' c : good f -> finite f m' e' -> c <= e -> c <= e' -> at_unit c m e = at_unit c m' e' ->
  exists m1 e1, rnd f m e = Fin m1 e1 /\ e <= e1 /\ finite f m1 e1 /\ at_unit c m1 e1 = at_unit c m e.
Proof.
  intros G F He He' V.
  set (c2 := Z.min c (emax f - prec f)).
  assert (V2 : at_unit c2 m e = at_unit c2 m' e') by (rewrite (unit_change c2 c m e), (unit_change c2 c m' e') by (unfold c2; lia); congruence).
  destruct (no_overflow f m e c2 G ltac:(unfold c2; lia) ltac:(unfold c2; lia)) as [m1 [e1 E]].
  { rewrite V2. apply finite_le; try assumption; unfold c2; lia. }
  destruct (rnd_cases f m e G) as [[E2 F2]|[s [E2 _]]]; [|congruence].
  exists (rne m (shift_of f m e)), (e + shift_of f m e). split; [exact E2|].
  assert (Hk : 0 <= shift_of f m e) by (unfold shift_of; lia). split; [lia|]. split; [exact F2|].
  pose proof (rnd_near f m e m' e' G F) as N. apply (nearer_unit c) in N; [|lia|lia|lia].
  rewrite <- V in N. replace (at_unit c m e - at_unit c m e) with 0 in N by lia. cbn [Z.abs] in N. lia.
Qed.
