(** What is printed for a number that is not zero. *)
From Verif Require Import Base Flt_Model Flt_Spec Flt_Proofs Flt_Proofs2 Ftx_Model Ftx_Spec Ftx_Proofs Ftx_Proofs2 Ftx_Proofs3 Ftx_Proofs6 Fpr_Model Fpr_Spec Fpr_Proofs Fpr_Proofs2 Fpr_Proofs3 Fpr_Proofs4 Fpr_Proofs5 Fpr_Proofs6 Fpr_Proofs7.
From Coq Require Import Lia ZArith Bool List.
Import ListNotations.
Open Scope Z_scope.

Section Chosen.
Variables (f : fmt) (c : Z).
Hypotheses (Hf : is_format f) (Hl : low f c).
Local Notation P := (2 ^ prec f).
Local Notation U := (2 ^ (- c)).

(** too small for fixed point *)
Lemma small_plain X y Y e p V : 0 < X -> Z.abs e <= 330 -> normalized f c X y Y e -> 0 <= p <= 600 -> p + e + 1 <= 0 -> V < 10 * U -> P * Z.abs (V * 10 ^ 0 - (Y * 10 ^ 0 + 5 * U)) <= 17 * (U * 10 ^ 0) -> P * (2 * (X * 10 ^ p)) <= (P + 200) * U.
Proof.
  intros HX He (Iy & _ & R & Lo & Up) Hp Hpe Bv A. destruct (PU_facts f c Hf Hl) as [PB PU]. change (10 ^ 0) with 1 in A. rewrite !Z.mul_1_r in A.
  rewrite (Z.max_l 0 e) in R by lia. rewrite (Z.max_r 0 (- e)) in R by lia. change (10 ^ 0) with 1 in R. rewrite Z.mul_1_r in R. pose proof (rel_lower P 60 _ _ ltac:(lia) R) as RL.
  assert (G : X * 10 ^ p * 10 <= X * 10 ^ (- e)). { rewrite <- Z.mul_assoc. apply Z.mul_le_mono_nonneg_l; [lia|]. replace (10 ^ p * 10) with (10 ^ (p + 1)) by (rewrite t10 by lia; reflexivity). apply Z.pow_le_mono_r; lia. }
  set (Z' := X * 10 ^ p) in *. assert (Z0 : 0 < Z') by (apply Z.mul_pos_pos; [lia|apply t10pos; lia]). set (X' := X * 10 ^ (- e)) in *.
  assert (YB : P * Y <= 5 * (P * U) + 17 * U).
  { assert (P * (V - Y - 5 * U) >= - (17 * U)). { assert (P * (- (V - Y - 5 * U)) <= P * Z.abs (V - (Y + 5 * U))) by (apply Z.mul_le_mono_nonneg_l; lia). lia. } assert (P * V <= P * (10 * U)) by (apply Z.mul_le_mono_nonneg_l; lia). rewrite !Z.mul_sub_distr_l in H. lia. }
  assert (XB : (P - 60) * X' <= 5 * (P * U) + 17 * U) by lia.
  assert (16777216 * U <= P * U) by (apply Z.mul_le_mono_nonneg_r; lia).
  assert (ZB : 10 * ((P - 60) * Z') <= 5 * (P * U) + 17 * U). { apply Z.le_trans with ((P - 60) * X'); [|exact XB]. replace (10 * ((P - 60) * Z')) with ((P - 60) * (Z' * 10)) by ring. apply Z.mul_le_mono_nonneg_l; lia. }
  assert (ZU : Z' <= U). { apply Z.nlt_ge. intros N. assert ((P - 60) * U <= (P - 60) * Z') by (apply Z.mul_le_mono_nonneg_l; lia). rewrite Z.mul_sub_distr_r in H0. lia. }
  rewrite Z.mul_sub_distr_r in ZB. rewrite Z.mul_add_distr_r. lia.
Qed.
Lemma small_carry X y Y e p : 0 < X -> Z.abs e <= 330 -> normalized f c X y Y e -> 0 <= p <= 600 -> p + e + 2 <= 0 -> P * (2 * (X * 10 ^ p)) <= (P + 200) * U.
Proof.
  intros HX He (Iy & _ & R & Lo & Up) Hp Hpe. destruct (PU_facts f c Hf Hl) as [PB PU].
  rewrite (Z.max_l 0 e) in R by lia. rewrite (Z.max_r 0 (- e)) in R by lia. change (10 ^ 0) with 1 in R. rewrite Z.mul_1_r in R. pose proof (rel_lower P 60 _ _ ltac:(lia) R) as RL.
  assert (G : X * 10 ^ p * 100 <= X * 10 ^ (- e)). { rewrite <- Z.mul_assoc. apply Z.mul_le_mono_nonneg_l; [lia|]. replace (10 ^ p * 100) with (10 ^ (p + 2)) by (rewrite t10 by lia; reflexivity). apply Z.pow_le_mono_r; lia. }
  set (Z' := X * 10 ^ p) in *. assert (Z0 : 0 < Z') by (apply Z.mul_pos_pos; [lia|apply t10pos; lia]). set (X' := X * 10 ^ (- e)) in *.
  assert (XB : (P - 60) * X' <= 10 * (P * U) + 600 * U) by (replace (10 * (P * U) + 600 * U) with ((P + 60) * (10 * U)) by ring; lia).
  assert (16777216 * U <= P * U) by (apply Z.mul_le_mono_nonneg_r; lia).
  assert (ZB : 100 * ((P - 60) * Z') <= 10 * (P * U) + 600 * U). { apply Z.le_trans with ((P - 60) * X'); [|exact XB]. replace (100 * ((P - 60) * Z')) with ((P - 60) * (Z' * 100)) by ring. apply Z.mul_le_mono_nonneg_l; lia. }
  assert (ZU : Z' <= U). { apply Z.nlt_ge. intros N. assert ((P - 60) * U <= (P - 60) * Z') by (apply Z.mul_le_mono_nonneg_l; lia). rewrite Z.mul_sub_distr_r in H0. lia. }
  rewrite Z.mul_sub_distr_r in ZB. rewrite Z.mul_add_distr_r. lia.
Qed.

(** what choose returns *)
Definition chosen (n X : Z) (s : bool) (p m : Z) (md : mode) (size : Z) : Prop :=
  (md = ZeroFloat /\ size = 1 /\ (m = 1000 -> if n =? 0 then P * (2 * (X * 10 ^ p)) <= (P + 200) * U else p = 0)) \/
  (md = InsufficientSpace /\ size = 1 /\ m <> 1000) \/
  exists y Y E q, md = Normal y E q /\ isv f c y Y /\ 0 <= Y < 10 * U /\ 0 < q <= 600 /\ Z.abs E <= 331
    /\ size = sg s + len_fixed (part_r n E) q + Z.of_nat (length (part_s n E)) /\ size <= m
    /\ accurate f c (follow 0 (digs f (Z.to_nat q) y)) (E - q + 1) X
    /\ (n = 0 -> 0 <= E -> E + 1 <= q) /\ (n <> 0 -> 0 <= part_r n E -> Z.min (part_r n E + 1) p <= q)
    /\ (m = 1000 -> q = if n =? 0 then E + 1 + p else p).
Lemma finish_mode (x : fl) (e size p : Z) : (if p =? 0 then (ZeroFloat, 1) else if p <? 0 then (InsufficientSpace, 1) else (Normal x e p, size)) =
  if 0 <? p then (Normal x e p, size) else if p =? 0 then (ZeroFloat, 1) else (InsufficientSpace, 1).
Proof. cmp; try reflexivity; lia. Qed.
(* lia without the products *)
Ltac sl := repeat match goal with H : ?T |- _ => match type of T with Prop => match T with context [Z.mul] => clear H | context [Z.pow] => clear H | context [isv] => clear H | context [size_notation] => clear H end end end; lia.
Lemma choose_ok n x X s p m : In n notations -> isv f c x X -> 0 < X -> 0 <= p <= 255 -> m = 1000 \/ 1 <= m <= 255 ->
  exists md size, choose f n x s p m = (md, size) /\ chosen n X s p m md size.
Proof.
  intros Hn Ix HX Hp Hm. destruct (PU_facts f c Hf Hl) as [PB PU]. destruct (normalize_ok f c x X Hf Hl Ix HX) as [y [Y [e [EN N]]]]. pose proof (exponent_bound f c Hf Hl x X y Y e Ix HX N) as He.
  unfold choose. rewrite EN. destruct (size_notation n e s p m) as [size q] eqn:SZ.
  pose proof N as (Iy & _ & R & Lo & Up).
  assert (YB : 0 <= Y < 11 * U).
  { split; [apply Z.nlt_ge; intros N'; assert (P * Y < 0) by (apply Z.mul_pos_neg; lia); assert (0 <= (P - 60) * U) by (apply Z.mul_nonneg_nonneg; lia); lia|].
    apply Z.lt_nge. intros N'. assert (P * (11 * U) <= P * Y) by (apply Z.mul_le_mono_nonneg_l; lia). rewrite Z.mul_add_distr_r in Up. assert (16777216 * U <= P * U) by (apply Z.mul_le_mono_nonneg_r; lia). lia. }
  (* the rounding *)
  set (fx := (n =? FixedPoint) || (n =? FixedPointR)).
  assert (HR : exists v q0 mx, (if fx then if 0 <=? q then (round_up f y q, p) else (y, p) else if 0 <=? q then (round_up f y q, q + 1) else (round_up f y 1, 2)) = (v, mx)
    /\ (if p <? mx then p else mx) = (if fx then p else most p q)
    /\ (fx = true /\ q < 0 /\ v = y \/ v = round_up f y q0 /\ (0 <= q /\ q0 = q \/ fx = false /\ q < 0 /\ q0 = 1))).
  { destruct fx; destruct (Z.leb_spec 0 q) as [Q|Q].
    - exists (round_up f y q), q, p. split; [reflexivity|]. split; [cmp; lia|]. right. auto.
    - exists y, 0, p. split; [reflexivity|]. split; [cmp; lia|]. left. auto.
    - exists (round_up f y q), q, (q + 1). split; [reflexivity|]. split; [unfold most; destruct (Z.leb_spec 0 q); [reflexivity|lia]|]. right. auto.
    - exists (round_up f y 1), 1, 2. split; [reflexivity|]. split; [unfold most; destruct (Z.leb_spec 0 q); [lia|reflexivity]|]. right. split; [reflexivity|]. right. auto. }
  destruct HR as [v [q0 [mx [ER [EM HV]]]]]. rewrite ER. clear ER.
  assert (Iv : exists V, isv f c v V /\ 0 <= V <= 16 * U /\ (v = round_up f y q0 -> 0 <= q0 -> P * Z.abs (V * 10 ^ q0 - (Y * 10 ^ q0 + 5 * U)) <= 17 * (U * 10 ^ q0))).
  { destruct HV as [[_ [Q ->]]|[-> HV]].
    - exists Y. split; [exact Iy|]. split; [lia|]. intros EQ H0. destruct (round_up_ok f c Hf Hl y Y q0 Iy (proj1 YB) (proj2 YB) H0) as [V [I [B [A _]]]]. rewrite <- EQ in I. pose proof (isv_inj f c y Y V Iy I) as EV. rewrite <- EV in A. exact A.
    - destruct (round_up_ok f c Hf Hl y Y q0 Iy (proj1 YB) (proj2 YB)) as [V [I [B [A _]]]]; [lia|]. exists V. split; [exact I|]. split; [exact B|]. intros _ _. exact A. }
  destruct Iv as [V [Iv [BV AV]]].
  rewrite (fge_isv f c v (ten f) V (10 * U) Hf Hl Iv (tenc_isv f c Hf)). destruct (Z.leb_spec (10 * U) V) as [C|C].
  - (* carry *)
    cbv zeta. rewrite EM. destruct (size_notation n (e + 1) s (if fx then p else most p q) m) as [size' q'] eqn:SZ'. rewrite finish_mode.
    assert (M0 : 0 <= (if fx then p else most p q) <= p) by (destruct fx; [sl|]; unfold most; cmp; sl).
    destruct (Z.ltb_spec 0 q') as [Q'|Q'].
    + destruct (size_ok n (e + 1) s _ m size' q' Hn ltac:(sl) (proj1 M0) SZ' Q') as (S1 & S2 & S3 & S4 & S5).
      destruct (div_near f c Hf Hl v V Iv (conj C (proj2 BV))) as [W [Iw [Bw Dw]]].
      assert (NX : (0 <= q /\ q' <= q + 1 \/ fx = false /\ q < 0 /\ q' <= 2) /\ (fx = false -> Z.min (part_r n (e + 1) + 1) p <= q')).
      { unfold fx in *. destruct (Z.eqb_spec n FixedPoint) as [N0|N0]; [|destruct (Z.eqb_spec n FixedPointR) as [N1|N1]]; cbn [orb] in *.
        - split; [left; apply (fixed_size_next n e s p m size q size' q'); auto; sl|discriminate].
        - split; [left; apply (fixed_size_next n e s p m size q size' q'); auto; sl|discriminate].
        - destruct (other_size_next n e s p m size q size' q' Hn N0 N1 ltac:(sl) ltac:(sl) SZ SZ' Q') as [G1 G2]. split; [|intros _; exact G2]. destruct (Z.leb_spec 0 q); [left|right; split; [reflexivity|]]; sl. }
      destruct NX as [NX NM].
      assert (HQ : v = round_up f y q0 /\ 0 <= q0 /\ q' <= q0 + 1).
      { destruct HV as [[F1 [F2 _]]|[HV1 [[F2 ->]|[F1 [F2 ->]]]]]; destruct NX as [[G1 G2]|[G1 [G2 G3]]]; try sl; try congruence; (split; [exact HV1|sl]). }
      destruct HQ as [HQ1 [HQ2 HQ3]].
      assert (Q6 : q' <= 600). { destruct (Z.eq_dec n 0) as [n0|n0]; [destruct (S3 n0) as [S31 S32]|destruct (S4 n0) as [S41 S42]; sl]. destruct (Z.le_gt_cases 0 (e + 1)); [specialize (S31 H)|specialize (S32 H)]; sl. }
      exists (Normal (fdiv f v (ten f)) (e + 1) q'), size'. split; [reflexivity|]. right. right. exists (fdiv f v (ten f)), W, (e + 1), q'.
      split; [reflexivity|]. split; [exact Iw|]. split; [exact Bw|]. split; [sl|]. split; [sl|]. split; [exact S1|]. split; [exact S2|]. split.
      { apply (carry_ok f c Hf Hl X y Y e q0 q' V v W HX He N HQ2 ltac:(sl) HQ3 Iv C (AV HQ1 HQ2) Iw Bw Dw). }
      split; [intros n0 E0; apply (proj1 (S3 n0)); exact E0|]. split.
      * intros n0 r0. destruct fx eqn:FX; [apply (proj2 (S4 n0)); exact r0|apply NM; reflexivity].
      * intros M1. specialize (S5 ltac:(sl)). rewrite S5. destruct (Z.eqb_spec n 0) as [n0|n0].
        -- unfold fx. rewrite n0. reflexivity.
        -- destruct fx eqn:FX; [reflexivity|].
           destruct (Z.ltb_spec 0 q) as [q1|q1]; [pose proof (size_ok n e s p m size q Hn ltac:(sl) ltac:(sl) SZ q1) as (_ & _ & _ & _ & G); specialize (G ltac:(sl))|pose proof (size_zero n e s p m size q Hn ltac:(sl) ltac:(sl) SZ q1 ltac:(sl)) as [_ G]]; destruct (Z.eqb_spec n 0); try sl; unfold most in *; cmp; sl.
    + destruct (Z.eqb_spec q' 0) as [Z0|Z0].
      * exists ZeroFloat, 1. split; [reflexivity|]. left. split; [reflexivity|]. split; [reflexivity|]. intros M1.
        destruct (size_zero n (e + 1) s _ m size' q' Hn ltac:(sl) (proj1 M0) SZ' Q' ltac:(sl)) as [_ G]. destruct (Z.eqb_spec n 0) as [n0|n0].
        -- assert (FX : fx = true) by (unfold fx; rewrite n0; reflexivity). rewrite FX in G. apply (small_carry X y Y e p HX He N); sl.
        -- destruct fx; [exact G|]. destruct (Z.ltb_spec 0 q) as [q1|q1]; [pose proof (size_ok n e s p m size q Hn ltac:(sl) ltac:(sl) SZ q1) as (_ & _ & _ & _ & G'); specialize (G' ltac:(sl))|pose proof (size_zero n e s p m size q Hn ltac:(sl) ltac:(sl) SZ q1 ltac:(sl)) as [_ G']]; destruct (Z.eqb_spec n 0); try sl; unfold most in *; cmp; sl.
      * exists InsufficientSpace, 1. split; [reflexivity|]. right. left. split; [reflexivity|]. split; [reflexivity|]. intros M1.
        destruct (size_zero n (e + 1) s _ m size' q' Hn ltac:(sl) (proj1 M0) SZ' Q' ltac:(sl)) as [G _]. sl.
  - (* no carry *)
    cbv zeta. rewrite finish_mode. destruct (Z.ltb_spec 0 q) as [Q|Q].
    + destruct (size_ok n e s p m size q Hn ltac:(sl) ltac:(sl) SZ Q) as (S1 & S2 & S3 & S4 & S5).
      assert (HQ : v = round_up f y q /\ q0 = q) by (destruct HV as [[F1 [F2 _]]|[HV1 [[F2 ->]|[F1 [F2 ->]]]]]; try sl; auto). destruct HQ as [-> ->].
      assert (Q6 : q <= 600). { destruct (Z.eq_dec n 0) as [n0|n0]; [destruct (S3 n0) as [S31 S32]|destruct (S4 n0) as [S41 S42]; sl]. destruct (Z.le_gt_cases 0 e); [specialize (S31 H)|specialize (S32 H)]; sl. }
      exists (Normal (round_up f y q) e q), size. split; [reflexivity|]. right. right. exists (round_up f y q), V, e, q.
      split; [reflexivity|]. split; [exact Iv|]. split; [exact (conj (proj1 BV) C)|]. split; [sl|]. split; [sl|]. split; [exact S1|]. split; [exact S2|]. split.
      { apply (plain_ok f c Hf Hl X y Y e q V HX He N ltac:(sl) Iv (conj (proj1 BV) C)). apply AV; [reflexivity|sl]. }
      split; [intros n0 E0; apply (proj1 (S3 n0)); exact E0|]. split; [intros n0 r0; apply (proj2 (S4 n0)); exact r0|]. intros M1. apply S5. sl.
    + destruct (Z.eqb_spec q 0) as [Z0|Z0].
      * exists ZeroFloat, 1. split; [reflexivity|]. left. split; [reflexivity|]. split; [reflexivity|]. intros M1.
        destruct (size_zero n e s p m size q Hn ltac:(sl) ltac:(sl) SZ Q ltac:(sl)) as [_ G]. destruct (Z.eqb_spec n 0) as [n0|n0]; [|exact G].
        assert (HQ : v = round_up f y q0 /\ q0 = 0) by (destruct HV as [[F1 [F2 _]]|[HV1 [[F2 ->]|[F1 [F2 ->]]]]]; try sl; auto). destruct HQ as [HQ ->].
        apply (small_plain X y Y e p V HX He N ltac:(sl) ltac:(sl) C). apply AV; [exact HQ|sl].
      * exists InsufficientSpace, 1. split; [reflexivity|]. right. left. split; [reflexivity|]. split; [reflexivity|]. intros M1.
        destruct (size_zero n e s p m size q Hn ltac:(sl) ltac:(sl) SZ Q ltac:(sl)) as [G _]. sl.
Qed.
End Chosen.
