(** How close the number is when an exponent is applied. *)
From Verif Require Import Base Flt_Model Flt_Spec Flt_Proofs Flt_Proofs2 Ftx_Model Ftx_Spec Ftx_Proofs Ftx_Proofs2 Ftx_Proofs3 Ftx_Proofs4.
From Coq Require Import Lia ZArith Bool List.
Import ListNotations.
Open Scope Z_scope.
Local Notation tail := Ftx_Proofs4.tail.

(** ** Relative errors: A is B with an error of w parts in P *)
Definition relz (P w A B : Z) : Prop := P * Z.abs (A - B) <= w * B.
Lemma rel_scale P w A B k : 0 <= k -> relz P w A B -> relz P w (A * k) (B * k).
Proof.
  unfold relz. intros Hk H. rewrite <- Z.mul_sub_distr_r, Z.abs_mul, (Z.abs_eq k) by exact Hk. rewrite !Z.mul_assoc. apply Z.mul_le_mono_nonneg_r; assumption.
Qed.
Lemma rel_cancel P w A B k : 0 < k -> relz P w (A * k) (B * k) -> relz P w A B.
Proof.
  unfold relz. intros Hk H. rewrite <- Z.mul_sub_distr_r, Z.abs_mul, (Z.abs_eq k) in H by lia. rewrite !Z.mul_assoc in H. apply Z.mul_le_mono_pos_r in H; assumption.
Qed.
Lemma rel_trans P w1 w2 A B C : 0 < P -> 0 <= w1 -> 0 <= w2 -> 0 <= C -> w1 * w2 <= P -> relz P w1 B C -> relz P w2 A B -> relz P (w1 + w2 + 1) A C.
Proof.
  unfold relz. intros HP H1 H2 HC Hw R1 R2.
  assert (T : Z.abs (A - C) <= Z.abs (A - B) + Z.abs (B - C)) by lia.
  assert (Bc : P * B <= P * C + w1 * C).
  { assert (B - C <= Z.abs (B - C)) by lia. assert (P * (B - C) <= P * Z.abs (B - C)) by (apply Z.mul_le_mono_nonneg_l; lia). lia. }
  assert (G : P * Z.abs (A - C) <= w2 * B + w1 * C).
  { apply Z.le_trans with (P * (Z.abs (A - B) + Z.abs (B - C))); [apply Z.mul_le_mono_nonneg_l; lia|]. rewrite Z.mul_add_distr_l. lia. }
  apply (Z.mul_le_mono_pos_l _ _ P HP). apply Z.le_trans with (P * (w2 * B + w1 * C)); [apply Z.mul_le_mono_nonneg_l; lia|].
  replace (P * (w2 * B + w1 * C)) with (w2 * (P * B) + P * w1 * C) by ring.
  apply Z.le_trans with (w2 * (P * C + w1 * C) + P * w1 * C); [apply Z.add_le_mono_r, Z.mul_le_mono_nonneg_l; assumption|].
  replace (w2 * (P * C + w1 * C) + P * w1 * C) with (P * (w1 + w2) * C + w1 * w2 * C) by ring.
  replace (P * ((w1 + w2 + 1) * C)) with (P * (w1 + w2) * C + P * C) by ring. apply Z.add_le_mono_l, Z.mul_le_mono_nonneg_r; assumption.
Qed.
Lemma rel_le P w w' A B : 0 <= B -> w <= w' -> relz P w A B -> relz P w' A B.
Proof. unfold relz. intros HB Hw H. apply Z.le_trans with (w * B); [exact H|apply Z.mul_le_mono_nonneg_r; assumption]. Qed.
Lemma rel_eq P w A B : 0 <= w -> 0 <= B -> A = B -> relz P w A B.
Proof. unfold relz. intros Hw HB ->. rewrite Z.sub_diag. cbn [Z.abs]. rewrite Z.mul_0_r. apply Z.mul_nonneg_nonneg; assumption. Qed.
(** half of it is left *)
Lemma rel_half P w A B : 0 < P -> 2 * w <= P -> 0 <= B -> relz P w A B -> B <= 2 * A.
Proof.
  unfold relz. intros HP Hw HB H. assert (B - A <= Z.abs (A - B)) by lia. assert (P * (B - A) <= w * B) by (apply Z.le_trans with (P * Z.abs (A - B)); [apply Z.mul_le_mono_nonneg_l; lia|exact H]).
  assert (2 * (P * (B - A)) <= P * B) by (apply Z.le_trans with (2 * w * B); [lia|apply Z.mul_le_mono_nonneg_r; assumption]).
  apply (Z.mul_le_mono_pos_l _ _ P HP). lia.
Qed.

(** ** Rounding *)
Definition norm (f : fmt) (c : Z) : Z := 2 ^ (emin f + prec f - c).
Lemma rnd_rel f c m e v : is_format f -> low f c -> c <= e -> isv f c (rnd f m e) v -> norm f c <= at_unit c m e -> relz (2 ^ prec f) 1 v (at_unit c m e).
Proof.
  intros Hf Hl He I N. set (V := at_unit c m e) in *. destruct (low_facts f c Hf Hl) as [L1 [L2 [L3 [L4 L5]]]]. destruct (format_emax f Hf) as [P1 [P2 P3]].
  pose proof (p2pos (emin f + prec f - c) ltac:(lia)) as PN. fold (norm f c) in PN.
  pose proof (Z.log2_spec V ltac:(lia)) as [G1 G2]. assert (G0 : emin f + prec f - c <= Z.log2 V).
  { apply (Z.log2_le_pow2 V); [lia|exact N]. }
  set (l := Z.log2 V) in *.
  pose proof (rnd_error f c m e v (l + 1 + c) Hf Hl He ltac:(lia) I) as E. fold V in E.
  replace (l + 1 + c - c) with (Z.succ l) in E by lia. specialize (E ltac:(rewrite Z.abs_eq by lia; exact G2)).
  replace (l + 1 + c - prec f - c) with (l + 1 - prec f) in E by lia.
  unfold relz. assert (2 ^ prec f * (2 * Z.abs (v - V)) <= 2 ^ prec f * 2 ^ (l + 1 - prec f)) by (apply Z.mul_le_mono_nonneg_l; [apply Z.lt_le_incl, p2pos; lia|exact E]).
  rewrite <- p2add in H by lia. replace (prec f + (l + 1 - prec f)) with (Z.succ l) in H by lia. rewrite Z.pow_succ_r in H by lia. lia.
Qed.
Lemma norm_isv f c : is_format f -> isv f c (Fin 1 (emin f + prec f)) (norm f c).
Proof.
  intros Hf. unfold norm. rewrite <- (Z.mul_1_l (2 ^ _)). destruct (format_emax f Hf) as [P1 [P2 P3]]. apply pow_isv; try assumption; try lia;
  destruct Hf as [->| ->]; unfold emin; cbn [prec emax binary32 binary64]; lia.
Qed.

(** ** The constants *)
Definition Nu (positive : bool) (k : Z) : Z := if positive then 10 ^ k else 1.
Definition De (positive : bool) (k : Z) : Z := if positive then 1 else 10 ^ k.
Lemma ten_ge k : 0 <= k -> 1 <= 10 ^ k.
Proof. intros H. change 1 with (10 ^ 0) at 1. apply Z.pow_le_mono_r; lia. Qed.
Lemma Nu_pos p k : 0 <= k -> 1 <= Nu p k.
Proof. unfold Nu. destruct p; [apply ten_ge|lia]. Qed.
Lemma De_pos p k : 0 <= k -> 1 <= De p k.
Proof. unfold De. destruct p; [lia|apply ten_ge]. Qed.
Lemma Nu_add p a b : 0 <= a -> 0 <= b -> Nu p (a + b) = Nu p a * Nu p b.
Proof. intros. unfold Nu. destruct p; [apply Z.pow_add_r; assumption|reflexivity]. Qed.
Lemma De_add p a b : 0 <= a -> 0 <= b -> De p (a + b) = De p a * De p b.
Proof. intros. unfold De. destruct p; [reflexivity|apply Z.pow_add_r; assumption]. Qed.
Lemma De_le p a b : 0 <= a <= b -> De p a <= De p b.
Proof. intros. unfold De. destruct p; [lia|apply Z.pow_le_mono_r; lia]. Qed.
Definition the_step (f : fmt) (positive : bool) : Z -> fl := if positive then big_step f else small_step f.
Definition step_ok (f : fmt) (positive : bool) (s : Z) : bool :=
  match the_step f positive s with Fin m e => (emin f <=? e) && (2 ^ prec f * Z.abs (m * 2 ^ (e + 1100) * De positive s - Nu positive s * 2 ^ 1100) <=? Nu positive s * 2 ^ 1100) | _ => false end.
Lemma step_rel f c positive s B : is_format f -> low f c -> In s (steps f) -> isv f c (the_step f positive s) B -> relz (2 ^ prec f) 1 (B * De positive s) (Nu positive s * 2 ^ (- c)).
Proof.
  intros Hf Hl H [m [e [E [_ V]]]]. destruct (low_facts f c Hf Hl) as [L1 [L2 [L3 [L4 L5]]]].
  assert (Hs : 2 <= s) by (unfold steps in H; destruct (is_double f); cbn in H; lia).
  assert (A : forallb (step_ok f positive) (steps f) = true) by (destruct Hf as [->| ->], positive; vm_compute; reflexivity).
  rewrite forallb_forall in A. specialize (A s H). unfold step_ok in A. rewrite E in A. apply andb_true_iff in A. destruct A as [Ae A]. apply Z.leb_le in Ae. apply Z.leb_le in A.
  assert (R : relz (2 ^ prec f) 1 (m * 2 ^ (e + 1100) * De positive s) (Nu positive s * 2 ^ 1100)) by (unfold relz; rewrite Z.mul_1_l; exact A).
  assert (Em : - 1080 <= e) by (destruct Hf as [->| ->]; unfold emin in *; cbn [prec emax binary32 binary64] in *; lia).
  assert (Hc : c <= -1100 \/ True) by tauto. clear Hc A.
  destruct (Z_le_gt_dec c (-1100)) as [C|C].
  - apply (rel_scale _ _ _ _ (2 ^ (- c - 1100)) ltac:(apply Z.lt_le_incl, p2pos; lia)) in R.
    replace (m * 2 ^ (e + 1100) * De positive s * 2 ^ (- c - 1100)) with (B * De positive s) in R; [|].
    + replace (Nu positive s * 2 ^ 1100 * 2 ^ (- c - 1100)) with (Nu positive s * 2 ^ (- c)) in R; [exact R|].
      rewrite <- Z.mul_assoc, <- p2add by lia. do 2 f_equal. lia.
    + rewrite <- V. unfold at_unit. replace (m * 2 ^ (e + 1100) * De positive s * 2 ^ (- c - 1100)) with (m * (2 ^ (e + 1100) * 2 ^ (- c - 1100)) * De positive s) by ring.
      rewrite <- p2add by lia. do 3 f_equal. lia.
  - exfalso. unfold low in Hl. destruct Hf as [->| ->]; unfold emin in *; cbn [prec emax binary32 binary64] in *; lia.
Qed.

(** ** One step, and all of them *)
Lemma mul_any f c positive x X s b : is_format f -> low f c -> In s (steps f) -> isv f c x X -> 0 <= X -> 0 <= b ->
  (positive = true -> X <= 2 ^ (b - c) /\ b + 4 * s + 4 <= emax f) ->
  exists B V m e v, isv f c (the_step f positive s) B /\ fmul f x (the_step f positive s) = rnd f m e /\ c <= e /\ at_unit c m e = V /\ V * 2 ^ (- c) = X * B
  /\ isv f c (fmul f x (the_step f positive s)) v /\ 0 <= v /\ (positive = true -> v <= 2 ^ (b + 4 * s - c)).
Proof.
  intros Hf Hl Hs Ix HX Hb Hp. assert (S2 : 2 <= s) by (unfold steps in Hs; destruct (is_double f); cbn in Hs; lia). destruct positive; cbn [the_step].
  - destruct (Hp eq_refl) as [H1 H2]. destruct (big_isv f c s Hf Hl Hs) as [B [IB [BB _]]].
    destruct (fmul_exact f c x _ X B Hf Hl Ix IB) as [m [e [E [Hc V]]]].
    destruct (mul_bound f c x X _ B b (4 * s) Hf Hl Ix IB ltac:(lia) BB ltac:(lia) Hb H2) as [v [Iv [Bv _]]].
    exists B, (at_unit c m e), m, e, v. split; [exact IB|]. split; [exact E|]. split; [exact Hc|]. split; [reflexivity|]. split; [exact V|]. split; [exact Iv|]. split; [lia|]. intros _. lia.
  - destruct (small_isv f c s Hf Hl Hs) as [B [IB BB]].
    destruct (fmul_exact f c x _ X B Hf Hl Ix IB) as [m [e [E [Hc V]]]].
    destruct (mul_small f c x X _ B Hf Hl Ix IB HX BB) as [v [Iv Bv]].
    exists B, (at_unit c m e), m, e, v. split; [exact IB|]. split; [exact E|]. split; [exact Hc|]. split; [reflexivity|]. split; [exact V|]. split; [exact Iv|]. split; [lia|]. discriminate.
Qed.
Lemma P_big f : is_format f -> 2 ^ 24 <= 2 ^ prec f.
Proof. intros Hf. destruct (format_emax f Hf) as [_ [P2 _]]. apply p2le. exact P2. Qed.

Lemma rel_steps f c positive e0 X0 b0 ss : is_format f -> low f c -> 0 <= b0 -> 0 <= e0 -> 2 * norm f c * De positive e0 <= X0 -> (positive = true -> b0 + 4 * e0 + 4 <= emax f) ->
  (forall s, In s ss -> In s (steps f)) -> forall x X e w,
  isv f c x X -> 0 <= X -> 0 <= e <= e0 -> (positive = true -> X <= 2 ^ (b0 + 4 * (e0 - e) - c)) ->
  0 <= w -> w + 5 * zlen ss <= 60 -> relz (2 ^ prec f) w (X * De positive (e0 - e)) (X0 * Nu positive (e0 - e)) ->
  exists x' X', fold_left (fun st s => check_and f (the_step f positive) s st) ss (x, e) = (x', left_over ss e) /\ isv f c x' X' /\ 0 <= X' /\ 0 <= left_over ss e <= e
  /\ (positive = true -> X' <= 2 ^ (b0 + 4 * (e0 - left_over ss e) - c))
  /\ relz (2 ^ prec f) (w + 5 * zlen ss) (X' * De positive (e0 - left_over ss e)) (X0 * Nu positive (e0 - left_over ss e)).
Proof.
  intros Hf Hl Hb0 He0 Hn Hover. destruct (low_facts f c Hf Hl) as [L1 [L2 [L3 [L4 L5]]]]. pose proof (P_big f Hf) as PB. change (2 ^ 24) with 16777216 in PB. set (P := 2 ^ prec f) in *.
  destruct (format_emax f Hf) as [P1 [P2 P3]].
  pose proof (p2pos (- c) ltac:(lia)) as PU. pose proof (p2pos (emin f + prec f - c) ltac:(lia)) as PN. fold (norm f c) in PN.
  induction ss as [|s r IH]; intros Hin x X e w Ix HX He HXb Hw Hw60 R.
  - exists x, X. unfold left_over, zlen. cbn [fold_left length]. change (w + 5 * Z.of_nat 0) with (w + 0). rewrite Z.add_0_r. split; [reflexivity|].
    split; [exact Ix|]. split; [exact HX|]. split; [lia|]. split; [exact HXb|exact R].
  - assert (Hs := Hin s (or_introl eq_refl)). assert (S2 : 2 <= s) by (unfold steps in Hs; destruct (is_double f); cbn in Hs; lia).
    unfold zlen in *. cbn [length] in *. rewrite Nat2Z.inj_succ in *. set (l := Z.of_nat (length r)) in *. assert (0 <= l) by (unfold l; lia).
    unfold left_over. cbn [fold_left]. unfold check_and at 2. destruct (Z.leb_spec s e) as [L|L].
    + destruct (mul_any f c positive x X s (b0 + 4 * (e0 - e)) Hf Hl Hs Ix HX ltac:(lia)) as [B [V [m [ee [v [IB [E [Hc [EV [VU [Iv [Hv Bv]]]]]]]]]]]].
      { intros Hp. split; [apply HXb; exact Hp|]. specialize (Hover Hp). lia. }
      set (k := e0 - e) in *. assert (Hk : 0 <= k) by lia.
      pose proof (step_rel f c positive s B Hf Hl Hs IB) as RS. fold P in RS.
      (* the exact product *)
      assert (R1 : relz P 1 (V * De positive s) (X * Nu positive s)).
      { apply (rel_cancel P 1 _ _ (2 ^ (- c)) PU). apply (rel_scale P 1 _ _ X HX) in RS.
        replace (V * De positive s * 2 ^ (- c)) with (V * 2 ^ (- c) * De positive s) by ring. rewrite VU. replace (X * B * De positive s) with (B * De positive s * X) by ring.
        replace (X * Nu positive s * 2 ^ (- c)) with (Nu positive s * 2 ^ (- c) * X) by ring. exact RS. }
      assert (X0p : 0 <= X0) by (pose proof (De_pos positive e0 He0); nia).
      pose proof (Nu_pos positive s ltac:(lia)) as Ns. pose proof (De_pos positive s ltac:(lia)) as Ds. pose proof (Nu_pos positive k Hk) as Nk. pose proof (De_pos positive k Hk) as Dk.
      pose proof (Nu_pos positive (k + s) ltac:(lia)) as Nks. pose proof (De_pos positive (k + s) ltac:(lia)) as Dks.
      assert (T0 : 0 <= X0 * Nu positive (k + s)) by (apply Z.mul_nonneg_nonneg; lia).
      assert (R2 : relz P (w + 1 + 1) (V * De positive (k + s)) (X0 * Nu positive (k + s))).
      { rewrite De_add, Nu_add by lia. apply (rel_trans P w 1 _ (X * De positive k * Nu positive s)); [lia|lia|lia| |lia| |].
        - apply Z.mul_nonneg_nonneg; [lia|apply Z.mul_nonneg_nonneg; lia].
        - rewrite Z.mul_assoc. apply rel_scale; [lia|exact R].
        - replace (V * (De positive k * De positive s)) with (V * De positive s * De positive k) by ring.
          replace (X * De positive k * Nu positive s) with (X * Nu positive s * De positive k) by ring. apply rel_scale; [lia|exact R1]. }
      (* it is not too small *)
      assert (NV : norm f c <= V).
      { pose proof (rel_half P (w + 1 + 1) _ _ ltac:(lia) ltac:(lia) T0 R2) as Ha.
        pose proof (De_le positive (k + s) e0 ltac:(lia)) as Dl. pose proof (De_pos positive e0 He0) as D0.
        assert (V0 : 0 <= V). { apply (Z.mul_le_mono_pos_r _ _ (De positive (k + s)) ltac:(lia)). lia. }
        assert (Q1 : X0 <= X0 * Nu positive (k + s)) by (rewrite <- (Z.mul_1_r X0) at 1; apply Z.mul_le_mono_nonneg_l; lia).
        assert (Q2 : V * De positive (k + s) <= V * De positive e0) by (apply Z.mul_le_mono_nonneg_l; lia).
        assert (Q3 : 2 * (norm f c * De positive e0) <= 2 * (V * De positive e0)) by lia.
        apply (Z.mul_le_mono_pos_r _ _ (De positive e0) ltac:(lia)). lia. }
      rewrite E in Iv. pose proof (rnd_rel f c m ee v Hf Hl Hc Iv ltac:(rewrite EV; exact NV)) as R3. fold P in R3. rewrite EV in R3.
      assert (R4 : relz P (w + 1 + 1 + 1 + 1) (v * De positive (k + s)) (X0 * Nu positive (k + s))).
      { apply (rel_trans P (w + 1 + 1) 1 _ (V * De positive (k + s))); [lia|lia|lia|exact T0|lia|exact R2|apply rel_scale; [lia|exact R3]]. }
      destruct (IH (fun y Hy => Hin y (or_intror Hy)) (fmul f x (the_step f positive s)) v (e - s) (w + 5)) as [x' [X' [E' [I' [H' [K' [B' R']]]]]]].
      * rewrite E. exact Iv.
      * exact Hv.
      * lia.
      * intros Hp. specialize (Bv Hp). replace (b0 + 4 * (e0 - (e - s)) - c) with (b0 + 4 * k + 4 * s - c) by (unfold k; lia). exact Bv.
      * lia.
      * lia.
      * replace (e0 - (e - s)) with (k + s) by (unfold k; lia). apply (rel_le P (w + 1 + 1 + 1 + 1)); [exact T0|lia|exact R4].
      * fold (left_over r (e - s)). exists x', X'. split; [exact E'|]. split; [exact I'|]. split; [exact H'|]. split; [lia|]. split; [exact B'|].
        replace (w + 5 * Z.succ l) with (w + 5 + 5 * l) by lia. exact R'.
    + fold (left_over r e). destruct (IH (fun y Hy => Hin y (or_intror Hy)) x X e (w + 5) Ix HX He HXb ltac:(lia) ltac:(lia)) as [x' [X' [E' [I' [H' [K' [B' R']]]]]]].
      { apply (rel_le P w); [|lia|exact R]. apply Z.mul_nonneg_nonneg; [|pose proof (Nu_pos positive (e0 - e) ltac:(lia)); lia]. pose proof (De_pos positive e0 He0). nia. }
      exists x', X'. split; [exact E'|]. split; [exact I'|]. split; [exact H'|]. split; [lia|]. split; [exact B'|]. replace (w + 5 * Z.succ l) with (w + 5 + 5 * l) by lia. exact R'.
Qed.

(** ** The last factor *)
Lemma ten_rel f c x X : is_format f -> low f c -> isv f c x X -> norm f c <= 10 * X -> forall v, isv f c (fmul f x (ten f)) v -> relz (2 ^ prec f) 1 v (10 * X).
Proof.
  intros Hf Hl Ix N v Iv. destruct (times_ten f c x X Hf Hl Ix) as [m [e [E [Hc V]]]]. rewrite E in Iv. rewrite <- V. apply (rnd_rel f c m e v Hf Hl Hc Iv). rewrite V. exact N.
Qed.
Lemma div_rel f c x X : is_format f -> low f c -> isv f c x X -> 2 * norm f c * 10 <= X -> forall v, isv f c (fdiv f x (ten f)) v -> relz (2 ^ prec f) 3 (v * 10) X.
Proof.
  intros Hf Hl [m [e [-> [F V]]]] HX v. destruct (low_facts f c Hf Hl) as [L1 [L2 [L3 [L4 L5]]]]. destruct (format_emax f Hf) as [P1 [P2 P3]].
  pose proof F as [F1 [F2 F3]]. pose proof (p2pos (emin f + prec f - c) ltac:(lia)) as PN. fold (norm f c) in PN.
  rewrite (ten_eq f Hf). cbn [fdiv]. change (10 =? 0) with false. cbv iota. change (Z.sgn 10) with 1. change (Z.abs 10) with 10. rewrite Z.mul_1_l, Z.sub_0_r.
  unfold rnd_q. cbv zeta. set (s := Z.max 0 (prec f + 2 + bits 10 - bits m)). set (M := 2 * (m * 2 ^ s / 10) + (if (m * 2 ^ s) mod 10 =? 0 then 0 else 1)). intros Iv.
  pose proof (p2pos (e - c) ltac:(lia)) as Pe.
  assert (M0 : 0 < m) by (unfold at_unit in V; nia).
  assert (Hs : 0 <= s <= prec f + 6) by (unfold s; change (bits 10) with 4; pose proof (bits_nonneg m); lia).
  pose proof (p2pos s ltac:(lia)) as Ps.
  assert (Big : 2 ^ (prec f + 5) <= m * 2 ^ s).
  { pose proof (bits_pos m ltac:(lia)) as [Bm1 Bm2]. rewrite Z.abs_eq in Bm2 by lia.
    apply Z.le_trans with (2 ^ (bits m - 1) * 2 ^ s); [|apply Z.mul_le_mono_nonneg_r; lia]. rewrite <- p2add by lia. apply p2le. unfold s. change (bits 10) with 4. lia. }
  pose proof (Z.div_mod (m * 2 ^ s) 10 ltac:(lia)) as D. pose proof (Z.mod_pos_bound (m * 2 ^ s) 10 ltac:(lia)) as R. set (A := m * 2 ^ s) in *.
  assert (PB : 2 ^ (prec f + 5) = 2 ^ prec f * 32) by (rewrite p2add by lia; reflexivity). pose proof (p2pos (prec f) ltac:(lia)) as PP. pose proof (P_big f Hf) as PG. change (2 ^ 24) with 16777216 in PG.
  assert (RM : relz (2 ^ prec f) 1 (M * 10) (2 * A)).
  { unfold relz. assert (Z.abs (M * 10 - 2 * A) <= 10) by (unfold M; destruct (Z.eqb_spec (A mod 10) 0); lia).
    apply Z.le_trans with (2 ^ prec f * 10); [apply Z.mul_le_mono_nonneg_l; lia|]. rewrite PB in Big. lia. }
  assert (Hc : c <= e - s - 1).
  { unfold low in Hl. destruct Hf as [->| ->]; unfold emin in *; cbn [prec emax binary32 binary64] in *; lia. }
  pose proof (p2pos (e - s - 1 - c) ltac:(lia)) as Pq.
  assert (X2 : X = 2 * A * 2 ^ (e - s - 1 - c)).
  { rewrite <- V. unfold at_unit, A. replace (e - c) with (1 + s + (e - s - 1 - c)) by lia. rewrite !p2add by lia. change (2 ^ 1) with 2. ring. }
  assert (RV : relz (2 ^ prec f) 1 (at_unit c M (e - s - 1) * 10) X).
  { rewrite X2. unfold at_unit. replace (M * 2 ^ (e - s - 1 - c) * 10) with (M * 10 * 2 ^ (e - s - 1 - c)) by ring. apply rel_scale; [lia|exact RM]. }
  assert (NV : norm f c <= at_unit c M (e - s - 1)).
  { assert (X0 : 0 <= X) by lia. pose proof (rel_half (2 ^ prec f) 1 _ _ PP ltac:(lia) X0 RV). lia. }
  pose proof (rnd_rel f c M (e - s - 1) v Hf Hl Hc Iv NV) as RR.
  change 3 with (1 + 1 + 1). assert (X0 : 0 <= X) by lia. apply (rel_trans (2 ^ prec f) 1 1 _ (at_unit c M (e - s - 1) * 10)); [exact PP|lia|lia|exact X0|lia|exact RV|apply rel_scale; [lia|exact RR]].
Qed.
Lemma left_one f e : is_format f -> 0 <= e < max_exponent f -> left_over (steps f) e <= 1.
Proof.
  intros Hf He. assert (A : forallb (fun n => left_over (steps f) (Z.of_nat n) <=? 1) (seq 0 (Z.to_nat (max_exponent f))) = true) by (destruct Hf as [->| ->]; vm_compute; reflexivity).
  rewrite forallb_forall in A. specialize (A (Z.to_nat e) ltac:(apply in_seq; lia)). cbv beta in A. rewrite Z2Nat.id in A by lia. apply Z.leb_le. exact A.
Qed.
Lemma exponent_rel f c positive x X b e : is_format f -> low f c -> isv f c x X -> 0 <= b -> 0 <= e < max_exponent f ->
  4 * norm f c * De positive e <= X -> (positive = true -> X <= 2 ^ (b - c) /\ b + 4 * e + 4 <= emax f) ->
  exists X', isv f c (add_exponent f x e positive) X' /\ relz (2 ^ prec f) 50 (X' * De positive e) (X * Nu positive e).
Proof.
  intros Hf Hl Ix Hb He Hn Hp. destruct (low_facts f c Hf Hl) as [L1 [L2 [L3 [L4 L5]]]]. destruct (format_emax f Hf) as [P1 [P2 P3]].
  pose proof (P_big f Hf) as PB. change (2 ^ 24) with 16777216 in PB. pose proof (p2pos (emin f + prec f - c) ltac:(lia)) as PN. fold (norm f c) in PN.
  pose proof (De_pos positive e ltac:(lia)) as D0. assert (HX : 0 <= X) by nia.
  assert (R0 : relz (2 ^ prec f) 0 (X * De positive (e - e)) (X * Nu positive (e - e))) by (rewrite Z.sub_diag; apply rel_eq; [lia| |]; unfold De, Nu; destruct positive; cbn; lia).
  assert (Hz : zlen (steps f) <= 8) by (unfold zlen, steps; destruct (is_double f); cbn; lia).
  destruct (rel_steps f c positive e X b (steps f) Hf Hl Hb ltac:(lia) ltac:(lia) ltac:(intros T; destruct (Hp T); assumption) (fun _ h => h) x X e 0 Ix HX ltac:(lia)) as [x' [X' [E [I' [H' [K [B' R']]]]]]];
    [intros T; destruct (Hp T) as [T1 _]; replace (b + 4 * (e - e) - c) with (b - c) by lia; exact T1|lia|lia|exact R0|].
  pose proof (left_one f e Hf He) as K1. unfold add_exponent. fold (the_step f positive). rewrite E. set (k := left_over (steps f) e) in *.
  pose proof (Nu_pos positive e ltac:(lia)) as N0. assert (T0 : 0 <= X * Nu positive e) by (apply Z.mul_nonneg_nonneg; lia).
  assert (R : relz (2 ^ prec f) 40 (X' * De positive (e - k)) (X * Nu positive (e - k))).
  { apply (rel_le _ (0 + 5 * zlen (steps f))); [|lia|exact R']. apply Z.mul_nonneg_nonneg; [lia|]. pose proof (Nu_pos positive (e - k) ltac:(lia)). lia. }
  destruct (Z.leb_spec 1 k) as [L|L].
  - assert (k = 1) by lia. pose proof (Nu_pos positive (e - k) ltac:(lia)) as N1. pose proof (De_pos positive (e - k) ltac:(lia)) as D1.
    assert (Ha : X * Nu positive (e - k) <= 2 * (X' * De positive (e - k))).
    { apply (rel_half (2 ^ prec f) 40); [lia|lia|apply Z.mul_nonneg_nonneg; lia|exact R]. }
    assert (Q : X <= 2 * (X' * De positive (e - k))) by nia.
    assert (EN : Nu positive e = Nu positive (e - k) * Nu positive 1) by (rewrite <- Nu_add by lia; f_equal; lia).
    assert (ED : De positive e = De positive (e - k) * De positive 1) by (rewrite <- De_add by lia; f_equal; lia).
    destruct positive.
    + destruct (Hp eq_refl) as [T1 T2]. specialize (B' eq_refl).
      destruct (mul_bound f c x' X' (ten f) (10 * 2 ^ (- c)) (b + 4 * (e - k)) 4 Hf Hl I') as [v [Iv [Bv _]]].
      * rewrite (ten_eq f Hf). apply int_isv; [exact Hf|]. pose proof (p2le 24 (prec f) P2). change (Z.abs 10) with 10. lia.
      * lia.
      * replace (4 - c) with (4 + - c) by lia. rewrite p2add by lia. change (2 ^ 4) with 16. pose proof (p2pos (- c) ltac:(lia)). lia.
      * lia.
      * lia.
      * lia.
      * exists v. split; [exact Iv|]. rewrite EN. cbn [De Nu] in *. rewrite ?Z.mul_1_r in *.
        pose proof (ten_rel f c x' X' Hf Hl I' ltac:(lia) v Iv) as RT. change (10 ^ 1) with 10.
        apply (rel_le _ (40 + 1 + 1)); [rewrite EN in T0; exact T0|lia|].
        apply (rel_trans _ 40 1 _ (10 * X')); [lia|lia|lia|rewrite EN in T0; exact T0|lia| |exact RT].
        rewrite Z.mul_assoc, (Z.mul_comm 10 X'). apply rel_scale; [lia|exact R].
    + destruct (div_ten f c x' X' Hf Hl I' H') as [v [Iv Bv]]. exists v. split; [exact Iv|]. rewrite ED. cbn [De Nu] in *. rewrite ?Z.mul_1_r in *. change (10 ^ 1) with 10.
      assert (ED' : 10 ^ e = 10 ^ (e - k) * 10) by exact ED.
      assert (HX' : 2 * norm f c * 10 <= X').
      { apply (Z.mul_le_mono_pos_r _ _ (10 ^ (e - k)) ltac:(lia)). rewrite ED' in Hn. lia. }
      pose proof (div_rel f c x' X' Hf Hl I' HX' v Iv) as RD.
      apply (rel_le _ (40 + 3 + 1)); [lia|lia|]. apply (rel_trans _ 40 3 _ (X' * 10 ^ (e - k))); [lia|lia|lia|lia|lia|exact R|].
      replace (v * (10 ^ (e - k) * 10)) with (v * 10 * 10 ^ (e - k)) by ring. apply rel_scale; [lia|exact RD].
  - assert (K0 : k = 0) by lia. rewrite K0, Z.sub_0_r in *. exists X'. split; [exact I'|]. apply (rel_le _ 40); [exact T0|lia|exact R].
Qed.
