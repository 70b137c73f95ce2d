(** The rounding of the number and its digits. *)
From Verif Require Import Base Flt_Model Flt_Spec Flt_Proofs Flt_Proofs2 Ftx_Model Ftx_Spec Ftx_Proofs Ftx_Proofs2 Ftx_Proofs3 Ftx_Proofs4 Ftx_Proofs5 Ftx_Proofs6 Fpr_Model Fpr_Proofs.
From Coq Require Import Lia ZArith Bool List.
Import ListNotations.
Open Scope Z_scope.

Lemma abs_tri a b d : Z.abs (a - d) <= Z.abs (a - b) + Z.abs (b - d).
Proof. lia. Qed.
Lemma abs_mul_r a b : 0 <= b -> Z.abs a * b = Z.abs (a * b).
Proof. intros H. rewrite Z.abs_mul, (Z.abs_eq b) by exact H. reflexivity. Qed.
Lemma comb_square P A B C Q : 10 * (P * C) <= 3 * Q -> 2 * P * B <= Q -> 0 <= Q -> 0 <= P -> A <= B + C -> 10 * (P * A) <= 8 * Q.
Proof. intros H1 H2 H3 H4 H. apply (Z.mul_le_mono_nonneg_l _ _ P) in H; [|exact H4]. lia. Qed.
Lemma comb_tenth P A B C E Q : P * C <= Q + P * E -> 10 * (P * E) <= 8 * Q -> 2 * P * B <= 10 * Q -> 0 <= Q -> 0 <= P -> A <= B + C -> P * A <= 10 * Q.
Proof. intros H1 H2 H3 H4 H5 H. apply (Z.mul_le_mono_nonneg_l _ _ P) in H; [|exact H5]. lia. Qed.
(** a product, a sum and a quotient that are at most b binary digits *)
Section Ops.
Variables (f : fmt) (c : Z).
Hypothesis (Hf : is_format f) (Hl : low f c).
Let P := 2 ^ prec f.
Let U := 2 ^ (- c).
Lemma PUf : 16777216 <= P /\ 0 < U.
Proof. exact (PU_facts f c Hf Hl). Qed.
Lemma unit_pow b : 0 <= b -> 2 ^ (b - c) = 2 ^ b * U.
Proof. intros H. destruct (low_facts f c Hf Hl) as [L1 [L2 _]]. unfold U. rewrite <- p2add by lia. reflexivity. Qed.
(** rounding of a value below 2^b *)
Lemma rnd_abs m e b : c <= e -> 0 <= b <= 8 -> 0 <= at_unit c m e < 2 ^ b * U ->
  exists v, isv f c (rnd f m e) v /\ 0 <= v <= 2 ^ b * U /\ 2 * P * Z.abs (v - at_unit c m e) <= 2 ^ b * U.
Proof.
  intros He Hb H. destruct PUf as [PB PU]. destruct (low_facts f c Hf Hl) as [L1 [L2 [L3 [L4 L5]]]]. destruct (format_emax f Hf) as [P1 [P2 P3]].
  assert (Iy : isv f c (Fin 1 b) (1 * 2 ^ (b - c))) by (apply pow_isv; [exact Hf|lia|lia|lia]). rewrite Z.mul_1_l, unit_pow in Iy by lia.
  destruct (rnd_isv f c m e _ _ Hf Hl He Iy) as [v [Iv Bv]]; [lia|]. pose proof (rnd_above f c m e _ _ v Hf Hl He (zero_isv f c Hf) ltac:(lia) Iv).
  exists v. split; [exact Iv|]. split; [lia|].
  assert (prec f <= 53) by (destruct Hf as [->| ->]; cbn; lia).
  pose proof (rnd_error f c m e v b Hf Hl He ltac:(destruct Hf as [->| ->]; unfold emin; cbn [prec emax binary32 binary64]; lia) Iv ltac:(rewrite unit_pow by lia; lia)) as E.
  apply (Z.mul_le_mono_nonneg_l _ _ P) in E; [|lia]. unfold P in E at 2. rewrite <- p2add in E by lia. replace (prec f + (b - prec f - c)) with (b - c) in E by lia. rewrite unit_pow in E by lia. lia.
Qed.

(** ** The powers of ten *)
Definition power_near (p : positive) (x : fl) : Prop := exists V, isv f c x V /\ 0 <= V <= U /\ P * Z.abs (V * 10 ^ Zpos p - U) <= U * 10 ^ Zpos p.
Lemma ten_pos q : 10 <= 10 ^ Zpos q.
Proof. change 10 with (10 ^ 1) at 1. apply Z.pow_le_mono_r; lia. Qed.
Lemma square_near q x : power_near q x -> exists V D, D = 10 ^ Zpos q * 10 ^ Zpos q /\ isv f c (fmul f x x) V /\ 0 <= V <= U /\ 10 * (P * Z.abs (V * D - U)) <= 8 * (U * D) /\ 10 * V <= U.
Proof.
  intros [V [Iv [Bv N]]]. destruct PUf as [PB PU]. pose proof (ten_pos q) as HD. set (D := 10 ^ Zpos q) in *.
  destruct (fmul_exact f c x x V V Hf Hl Iv Iv) as [m [e [E [He W]]]]. fold U in W. set (w := at_unit c m e) in *.
  assert (VD : 0 <= V * D) by (apply Z.mul_nonneg_nonneg; lia).
  assert (UD : 0 < U * D) by (apply Z.mul_pos_pos; lia).
  assert (A1 : P * (V * D) <= P * U + U * D).
  { assert (P * (V * D - U) <= U * D) by (apply Z.le_trans with (P * Z.abs (V * D - U)); [apply Z.mul_le_mono_nonneg_l; lia|exact N]). rewrite Z.mul_sub_distr_l in H. lia. }
  (* V <= 0.11 U *)
  assert (A2 : 100 * V <= 11 * U).
  { apply (Z.mul_le_mono_pos_r _ _ D ltac:(lia)). apply (Z.mul_le_mono_pos_l _ _ P ltac:(lia)).
    assert (100 * (P * U) <= 10 * (P * (U * D))) by (replace (10 * (P * (U * D))) with ((10 * D) * (P * U)) by ring; apply Z.mul_le_mono_nonneg_r; [apply Z.mul_nonneg_nonneg|]; lia).
    assert (100 * (U * D) <= P * (U * D)) by (apply Z.mul_le_mono_nonneg_r; lia). lia. }
  assert (w0 : 0 <= w).
  { apply (Z.mul_le_mono_pos_r _ _ U PU). rewrite W, Z.mul_0_l. apply Z.mul_nonneg_nonneg; lia. }
  assert (w1 : 100 * w <= 2 * U).
  { apply (Z.mul_le_mono_pos_r _ _ U PU). assert (10000 * (V * V) <= 121 * (U * U)) by (replace (10000 * (V * V)) with ((100 * V) * (100 * V)) by ring; replace (121 * (U * U)) with ((11 * U) * (11 * U)) by ring; apply Z.mul_le_mono_nonneg; lia).
    replace (100 * w * U) with (100 * (w * U)) by ring. rewrite W. assert (0 <= U * U) by (apply Z.mul_nonneg_nonneg; lia). lia. }
  destruct (rnd_abs m e 0 He ltac:(lia) ltac:(fold w; lia)) as [v [Iv2 [Bv2 Ev]]]. change (2 ^ 0) with 1 in *. fold w in Ev. rewrite Z.mul_1_l in *.
  exists v, (D * D). split; [reflexivity|]. rewrite E. split; [exact Iv2|]. split; [lia|].
  assert (DD : 0 < D * D) by (apply Z.mul_pos_pos; lia).
  split.
  - (* w D D - U *)
    assert (F : P * Z.abs (w * (D * D) - U) * P <= (U * D) * (2 * P + D)).
    { apply (Z.mul_le_mono_pos_r _ _ U PU). replace (P * Z.abs (w * (D * D) - U) * P * U) with (P * P * (Z.abs (w * (D * D) - U) * U)) by ring.
      replace (Z.abs (w * (D * D) - U) * U) with (Z.abs (V * D - U) * (V * D + U)).
      - replace (P * P * (Z.abs (V * D - U) * (V * D + U))) with ((P * Z.abs (V * D - U)) * (P * (V * D + U))) by ring.
        replace ((U * D) * (2 * P + D) * U) with ((U * D) * (2 * (P * U) + U * D)) by ring.
        apply Z.mul_le_mono_nonneg; [apply Z.mul_nonneg_nonneg; lia|exact N|apply Z.mul_nonneg_nonneg; lia|]. rewrite Z.mul_add_distr_l. lia.
      - assert (Q1 : Z.abs (w * (D * D) - U) * U = Z.abs ((w * (D * D) - U) * U)) by (apply abs_mul_r; lia).
        assert (VDU : 0 <= V * D + U) by (apply Z.add_nonneg_nonneg; lia).
        assert (Q2 : Z.abs (V * D - U) * (V * D + U) = Z.abs ((V * D - U) * (V * D + U))) by (apply abs_mul_r; exact VDU).
        rewrite Q1, Q2. f_equal. rewrite (Z.mul_sub_distr_r (w * (D * D))). replace (w * (D * D) * U) with (w * U * (D * D)) by ring. rewrite W. ring. }
    assert (G1 : 10 * (P * Z.abs (w * (D * D) - U)) <= 3 * (U * (D * D))).
    { apply (Z.mul_le_mono_pos_r _ _ P ltac:(lia)). apply Z.le_trans with (10 * ((U * D) * (2 * P + D))); [rewrite <- Z.mul_assoc; apply Z.mul_le_mono_nonneg_l; [lia|exact F]|].
      replace (3 * (U * (D * D)) * P) with ((U * D) * (3 * D * P)) by ring. replace (10 * ((U * D) * (2 * P + D))) with ((U * D) * (20 * P + 10 * D)) by ring. apply Z.mul_le_mono_nonneg_l; [lia|].
      assert (20 * P <= 2 * (D * P)) by (replace (20 * P) with (2 * (10 * P)) by ring; apply Z.mul_le_mono_nonneg_l; [lia|]; apply Z.mul_le_mono_nonneg_r; lia).
      assert (10 * D <= D * P) by (rewrite Z.mul_comm; apply Z.mul_le_mono_nonneg_l; lia). lia. }
    assert (G2 : 2 * P * Z.abs (v * (D * D) - w * (D * D)) <= U * (D * D)).
    { rewrite <- Z.mul_sub_distr_r, Z.abs_mul, (Z.abs_eq (D * D)) by lia. rewrite Z.mul_assoc. apply Z.mul_le_mono_nonneg_r; [lia|exact Ev]. }
    apply (comb_square P _ _ _ _ G1 G2); [apply Z.mul_nonneg_nonneg; lia|lia|apply abs_tri].
  - assert (2 * P * (v - w) <= U) by (apply Z.le_trans with (2 * P * Z.abs (v - w)); [apply Z.mul_le_mono_nonneg_l; lia|exact Ev]).
    assert (100 * (v - w) <= U) by (destruct (Z.leb_spec v w); [lia|]; assert (100 * (v - w) <= 2 * P * (v - w)) by (apply Z.mul_le_mono_nonneg_r; lia); lia). lia.
Qed.
(** times 0.1 *)
Lemma tenth_near V D x R r : isv f c x V -> 0 <= V <= U -> 10 * (P * Z.abs (V * D - U)) <= 8 * (U * D) -> 1 <= D ->
  isv f c r R -> relz P 1 (R * 10) U ->
  exists W, isv f c (fmul f x r) W /\ 0 <= W <= U /\ P * Z.abs (W * (D * 10) - U) <= U * (D * 10).
Proof.
  intros Ix BV NV HD Ir RR. destruct PUf as [PB PU]. destruct (fmul_exact f c x r V R Hf Hl Ix Ir) as [m [e [E [He W]]]]. fold U in W. set (w := at_unit c m e) in *.
  pose proof (rel_upper P 1 _ _ ltac:(lia) RR) as RU. pose proof (rel_lower P 1 _ _ ltac:(lia) RR) as RL.
  assert (R0 : 0 <= R) by (apply (Z.mul_le_mono_pos_r _ _ 10 ltac:(lia)); apply (Z.mul_le_mono_pos_l _ _ P ltac:(lia)); assert (0 <= (P - 1) * U) by (apply Z.mul_nonneg_nonneg; lia); lia).
  assert (R1 : R * 10 <= 2 * U) by (apply (Z.mul_le_mono_pos_l _ _ P ltac:(lia)); apply Z.le_trans with ((P + 1) * U); [lia|]; rewrite Z.mul_assoc; apply Z.mul_le_mono_nonneg_r; lia).
  assert (w0 : 0 <= w) by (apply (Z.mul_le_mono_pos_r _ _ U PU); rewrite W, Z.mul_0_l; apply Z.mul_nonneg_nonneg; lia).
  assert (w1 : 5 * w <= U).
  { apply (Z.mul_le_mono_pos_r _ _ U PU). replace (5 * w * U) with (5 * (w * U)) by ring. rewrite W. apply Z.le_trans with (V * U); [replace (5 * (V * R)) with (V * (5 * R)) by ring; apply Z.mul_le_mono_nonneg_l; lia|apply Z.mul_le_mono_nonneg_r; lia]. }
  destruct (rnd_abs m e 0 He ltac:(lia) ltac:(fold w; lia)) as [v [Iv2 [Bv2 Ev]]]. change (2 ^ 0) with 1 in *. fold w in Ev. rewrite Z.mul_1_l in *.
  exists v. rewrite E. split; [exact Iv2|]. split; [lia|].
  assert (UD : 0 < U * D) by (apply Z.mul_pos_pos; lia).
  (* (w D 10 - U) U = V D (R 10) - U U = V D (R 10 - U) + (V D - U) U *)
  assert (VDb : V * D <= U * D) by (apply Z.mul_le_mono_nonneg_r; lia). assert (VD0 : 0 <= V * D) by (apply Z.mul_nonneg_nonneg; lia).
  assert (F : P * Z.abs (w * (D * 10) - U) <= U * D + P * Z.abs (V * D - U)).
  { apply (Z.mul_le_mono_pos_r _ _ U PU). replace (P * Z.abs (w * (D * 10) - U) * U) with (P * Z.abs ((w * (D * 10) - U) * U)) by (rewrite <- (abs_mul_r _ U) by lia; ring).
    replace ((w * (D * 10) - U) * U) with (V * D * (R * 10 - U) + (V * D - U) * U) by (rewrite (Z.mul_sub_distr_r (w * (D * 10))); replace (w * (D * 10) * U) with (w * U * (D * 10)) by ring; rewrite W; ring).
    apply Z.le_trans with (P * (Z.abs (V * D * (R * 10 - U)) + Z.abs ((V * D - U) * U))); [apply Z.mul_le_mono_nonneg_l; [lia|apply Z.abs_triangle]|]. rewrite Z.mul_add_distr_l, <- (abs_mul_r (V * D - U) U) by lia. rewrite (Z.abs_mul (V * D)), (Z.abs_eq (V * D)) by exact VD0.
    rewrite Z.mul_add_distr_r. apply Z.add_le_mono; [|rewrite Z.mul_assoc; apply Z.le_refl]. unfold relz in RR. rewrite Z.mul_1_l in RR.
    replace (P * (V * D * Z.abs (R * 10 - U))) with (V * D * (P * Z.abs (R * 10 - U))) by ring. apply Z.mul_le_mono_nonneg; [lia|lia|apply Z.mul_nonneg_nonneg; lia|exact RR]. }
  assert (G2 : 2 * P * Z.abs (v * (D * 10) - w * (D * 10)) <= U * (D * 10)).
  { rewrite <- Z.mul_sub_distr_r, Z.abs_mul, (Z.abs_eq (D * 10)) by lia. rewrite Z.mul_assoc. apply Z.mul_le_mono_nonneg_r; [lia|exact Ev]. }
  replace (U * (D * 10)) with (10 * (U * D)) in * by ring.
  apply (comb_tenth P _ _ _ _ _ F NV G2); [lia|lia|apply abs_tri].
Qed.
Lemma power_ok r R : isv f c r R -> relz P 1 (R * 10) U -> forall p, power_near p (power_bits f r p).
Proof.
  intros Ir RR. destruct PUf as [PB PU]. induction p as [q IH|q IH|]; cbn [power_bits].
  - destruct (square_near q _ IH) as [V [D [ED [Iv [Bv [N _]]]]]]. assert (HD : 1 <= D) by (rewrite ED; pose proof (ten_pos q); change 1 with (1 * 1); apply Z.mul_le_mono_nonneg; lia).
    destruct (tenth_near V D _ R r Iv Bv N HD Ir RR) as [W [Iw [Bw Nw]]]. exists W. split; [exact Iw|]. split; [exact Bw|].
    replace (10 ^ Z.pos q~1) with (D * 10); [exact Nw|]. rewrite ED. replace (Z.pos q~1) with (Z.pos q + Z.pos q + 1) by lia. rewrite !Z.pow_add_r by lia. change (10 ^ 1) with 10. ring.
  - destruct (square_near q _ IH) as [V [D [ED [Iv [Bv [N _]]]]]]. exists V. split; [exact Iv|]. split; [exact Bv|].
    replace (10 ^ Z.pos q~0) with D; [assert (0 <= U * D) by (apply Z.mul_nonneg_nonneg; [lia|rewrite ED; apply Z.mul_nonneg_nonneg; apply Z.pow_nonneg; lia]); lia|]. rewrite ED, <- Z.pow_add_r by lia. f_equal. lia.
  - assert (I1 : isv f c (fmul f one one) U).
    { destruct (fmul_exact f c one one U U Hf Hl (one_isv f c Hf) (one_isv f c Hf)) as [m [e [E [He W]]]]. fold U in W. apply Z.mul_reg_r in W; [|lia]. rewrite E, <- W. apply (rnd_same f c m e one Hf Hl He). rewrite W. apply one_isv. exact Hf. }
    destruct (tenth_near U 1 _ R r I1 ltac:(lia)) with (2 := Z.le_refl 1) (3 := Ir) (4 := RR) as [W [Iw [Bw Nw]]].
    + rewrite Z.mul_1_r, Z.sub_diag. cbn [Z.abs]. lia.
    + exists W. split; [exact Iw|]. split; [exact Bw|]. change (10 ^ 1) with (1 * 10). exact Nw.
Qed.
(** FastPowerOf10 for the precisions *)
Lemma fast_power_ok p : 0 <= p -> exists V, isv f c (fast_power f (- p)) V /\ 0 <= V <= U /\ P * Z.abs (V * 10 ^ p - U) <= U * 10 ^ p.
Proof.
  intros Hp. destruct PUf as [PB PU]. unfold fast_power. rewrite Z.abs_opp, Z.abs_eq by exact Hp. destruct p as [|p|p]; [| |lia].
  - exists U. split; [apply one_isv; exact Hf|]. split; [lia|]. change (10 ^ 0) with 1. rewrite Z.mul_1_r, Z.sub_diag. cbn [Z.abs]. lia.
  - change (- Z.pos p <? 0) with true. cbn [andb].
    destruct (const_rel f c false 1 Hf Hl) as [R [IR [_ RR]]]; [unfold consts; apply in_or_app; right; cbn; tauto|]. cbn [the_step De Nu] in IR, RR. change (10 ^ 1) with 10 in RR. rewrite Z.mul_1_l in RR. fold P U in RR.
    exact (power_ok _ R IR RR p).
Qed.
(** ** Rounding up *)
Lemma five_isv : isv f c (cast f (Fin 5 0)) (5 * U).
Proof.
  destruct PUf as [PB PU]. cbn [cast]. assert (I5 : isv f c (Fin 5 0) (5 * U)) by (apply int_isv; [exact Hf|fold P; lia]). destruct (low_facts f c Hf Hl) as [L1 [L2 _]].
  assert (at_unit c 5 0 = 5 * U) by reflexivity. rewrite <- H. apply (rnd_same f c 5 0 (Fin 5 0)); [exact Hf|exact Hl|lia|]. rewrite H. exact I5.
Qed.
Lemma round_up_ok x X p : isv f c x X -> 0 <= X -> X < 11 * U -> 0 <= p -> exists V, isv f c (round_up f x p) V /\ 0 <= V <= 16 * U /\ P * Z.abs (V * 10 ^ p - (X * 10 ^ p + 5 * U)) <= 17 * (U * 10 ^ p) /\ X <= V.
Proof.
  intros Ix X0 X1 Hp. destruct PUf as [PB PU]. unfold round_up. destruct (fast_power_ok p Hp) as [K [IK [BK NK]]]. pose proof (ten_ge p Hp) as HT. set (T := 10 ^ p) in *.
  destruct (fmul_exact f c _ _ _ _ Hf Hl IK five_isv) as [m [e [E [He W]]]]. fold U in W. replace (K * (5 * U)) with (5 * K * U) in W by ring. apply Z.mul_reg_r in W; [|lia].
  rewrite E. set (w := at_unit c m e) in *.
  assert (K5 : exists k5, isv f c (rnd f m e) k5 /\ 0 <= k5 <= 5 * U /\ 2 * P * Z.abs (k5 - 5 * K) <= 8 * U).
  { destruct (rnd_abs m e 3 He ltac:(lia)) as [v [Iv [Bv Ev]]]; [fold w; change (2 ^ 3) with 8; lia|]. fold w in Ev. change (2 ^ 3) with 8 in *. rewrite W in Ev. exists v. split; [exact Iv|]. split; [|exact Ev].
    split; [lia|]. apply (rnd_below f c m e (cast f (Fin 5 0)) (5 * U) v Hf Hl He five_isv); [fold w; lia|exact Iv]. }
  destruct K5 as [k5 [I5 [B5 E5]]]. destruct (fadd_exact f c _ _ _ _ Hf Hl Ix I5) as [m2 [e2 [EA [He2 W2]]]]. rewrite EA.
  destruct (rnd_abs m2 e2 4 He2 ltac:(lia)) as [v [Iv [Bv Ev]]]; [rewrite W2; change (2 ^ 4) with 16; lia|]. rewrite W2 in Ev. change (2 ^ 4) with 16 in *.
  exists v. split; [exact Iv|]. split; [lia|]. split.
  - assert (U0 : 0 < U * T) by (apply Z.mul_pos_pos; lia).
    assert (A1 : 2 * P * Z.abs (v * T - (X + k5) * T) <= 16 * (U * T)) by (rewrite <- Z.mul_sub_distr_r, Z.abs_mul, (Z.abs_eq T) by lia; replace (16 * (U * T)) with (16 * U * T) by ring; rewrite Z.mul_assoc; apply Z.mul_le_mono_nonneg_r; lia).
    assert (A2 : 2 * P * Z.abs (k5 * T - 5 * K * T) <= 8 * (U * T)) by (rewrite <- Z.mul_sub_distr_r, Z.abs_mul, (Z.abs_eq T) by lia; replace (8 * (U * T)) with (8 * U * T) by ring; rewrite Z.mul_assoc; apply Z.mul_le_mono_nonneg_r; lia).
    assert (A3 : P * (5 * Z.abs (K * T - U)) <= 5 * (U * T)) by lia.
    assert (G : Z.abs (v * T - (X * T + 5 * U)) <= Z.abs (v * T - (X + k5) * T) + Z.abs (k5 * T - 5 * K * T) + 5 * Z.abs (K * T - U)).
    { replace ((X + k5) * T) with (X * T + k5 * T) by ring. replace (5 * K * T) with (5 * (K * T)) by ring. clear. lia. }
    apply (Z.mul_le_mono_nonneg_l _ _ P) in G; [|lia]. revert A1 A2 A3 G. generalize (Z.abs (v * T - (X * T + 5 * U))) (Z.abs (v * T - (X + k5) * T)) (Z.abs (k5 * T - 5 * K * T)) (Z.abs (K * T - U)). clear -U0 PB. intros; lia.
  - apply (rnd_above f c m2 e2 x X v Hf Hl He2 Ix); [lia|exact Iv].
Qed.
(** ** The division by ten *)
Lemma div_near x X : isv f c x X -> 10 * U <= X <= 16 * U -> exists V, isv f c (fdiv f x (ten f)) V /\ 0 <= V < 10 * U /\ P * Z.abs (V * 10 - X) <= 48 * U.
Proof.
  intros Ix BX. destruct PUf as [PB PU]. destruct (div_ten f c x X Hf Hl Ix ltac:(lia)) as [V [Iv Bv]]. exists V. split; [exact Iv|].
  assert (NS := norm_small f c 0 Hf Hl ltac:(unfold consts; apply in_or_app; right; cbn; tauto)). change (10 ^ 0) with 1 in NS. fold U in NS.
  pose proof (div_rel f c x X Hf Hl Ix ltac:(lia) V Iv) as R. fold P in R. pose proof (rel_upper P 3 _ _ ltac:(lia) R) as RU. unfold relz in R.
  split; [|apply Z.le_trans with (3 * X); [exact R|lia]]. split; [lia|]. apply Z.lt_nge. intros HV.
  assert (P * (100 * U) <= P * (V * 10)) by (apply Z.mul_le_mono_nonneg_l; lia). assert ((P + 3) * X <= (P + 3) * (16 * U)) by (apply Z.mul_le_mono_nonneg_l; lia).
  rewrite Z.mul_add_distr_r in H0. assert (P * U >= 16777216 * U) by (apply Z.le_ge, Z.mul_le_mono_nonneg_r; lia). lia.
Qed.
End Ops.
