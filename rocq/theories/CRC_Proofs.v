From Verif Require Import Base BitsBase CRC_Model CRC_Spec.

(** * Carry-less arithmetic *)
Lemma lxor_range a b w : 0 <= w -> 0 <= a < 2 ^ w -> 0 <= b < 2 ^ w -> 0 <= Z.lxor a b < 2 ^ w.
Proof.
  intros Hw Ha Hb. assert (N : 0 <= Z.lxor a b) by (apply Z.lxor_nonneg; lia). split; [exact N|].
  destruct (Z.eq_dec (Z.lxor a b) 0) as [E|E]; [rewrite E; lia|].
  assert (L : Z.log2 (Z.lxor a b) <= Z.max (Z.log2 a) (Z.log2 b)) by (apply Z.log2_lxor; lia).
  apply Z.log2_lt_pow2; [lia|].
  assert (forall x, 0 <= x < 2 ^ w -> x = 0 \/ Z.log2 x < w) as K.
  { intros x Hx. destruct (Z.eq_dec x 0); [left; auto|right]. apply Z.log2_lt_pow2; lia. }
  destruct (K a Ha) as [->|?], (K b Hb) as [->|?]; cbn in E, L; try lia.
  - rewrite Z.lxor_0_l in *. lia.
  - rewrite Z.lxor_0_r in *. lia.
Qed.

Lemma dbl_lxor a b : 2 * Z.lxor a b = Z.lxor (2 * a) (2 * b).
Proof.
  rewrite <- !(Z.mul_comm _ 2). change 2 with (2 ^ 1). rewrite <- !Z.shiftl_mul_pow2 by lia. apply Z.shiftl_lxor.
Qed.

Lemma clmul_pos_lxor g : forall p q, Z.lxor (clmul_pos p g) (clmul_pos q g) = clmul (Z.lxor (Zpos p) (Zpos q)) g.
Proof.
  assert (D : forall z, 0 <= z -> clmul (2 * z) g = 2 * clmul z g).
  { intros [|p|p] H; cbn; lia. }
  assert (D1 : forall z, 0 <= z -> clmul (2 * z + 1) g = Z.lxor (2 * clmul z g) g).
  { intros [|p|p] H; cbn [clmul]; try lia; reflexivity. }
  induction p as [p IH|p IH|]; destruct q as [q|q|]; cbn [clmul_pos].
  - replace (Z.lxor (Zpos p~1) (Zpos q~1)) with (2 * Z.lxor (Zpos p) (Zpos q)).
    + rewrite D by (apply Z.lxor_nonneg; lia). rewrite <- IH, dbl_lxor.
      rewrite (Z.lxor_comm (2 * clmul_pos q g)), Z.lxor_assoc, <- (Z.lxor_assoc g g), Z.lxor_nilpotent, Z.lxor_0_l. reflexivity.
    + cbn. destruct (Pos.lxor p q); reflexivity.
  - replace (Z.lxor (Zpos p~1) (Zpos q~0)) with (2 * Z.lxor (Zpos p) (Zpos q) + 1).
    + rewrite D1 by (apply Z.lxor_nonneg; lia). rewrite <- IH, dbl_lxor, !Z.lxor_assoc. f_equal. apply Z.lxor_comm.
    + cbn. destruct (Pos.lxor p q); reflexivity.
  - replace (Z.lxor (Zpos p~1) 1) with (2 * Zpos p) by reflexivity. rewrite D by lia. cbn [clmul].
    rewrite Z.lxor_assoc, Z.lxor_nilpotent, Z.lxor_0_r. reflexivity.
  - replace (Z.lxor (Zpos p~0) (Zpos q~1)) with (2 * Z.lxor (Zpos p) (Zpos q) + 1).
    + rewrite D1 by (apply Z.lxor_nonneg; lia). rewrite <- IH, dbl_lxor, !Z.lxor_assoc. reflexivity.
    + cbn. destruct (Pos.lxor p q); reflexivity.
  - replace (Z.lxor (Zpos p~0) (Zpos q~0)) with (2 * Z.lxor (Zpos p) (Zpos q)).
    + rewrite D by (apply Z.lxor_nonneg; lia). rewrite <- IH, dbl_lxor. reflexivity.
    + cbn. destruct (Pos.lxor p q); reflexivity.
  - replace (Z.lxor (Zpos p~0) 1) with (2 * Zpos p + 1) by reflexivity. rewrite D1 by lia. reflexivity.
  - replace (Z.lxor 1 (Zpos q~1)) with (2 * Zpos q) by reflexivity. rewrite D by lia. cbn [clmul].
    rewrite Z.lxor_comm, Z.lxor_assoc, Z.lxor_nilpotent, Z.lxor_0_r. reflexivity.
  - replace (Z.lxor 1 (Zpos q~0)) with (2 * Zpos q + 1) by reflexivity. rewrite D1 by lia. apply Z.lxor_comm.
  - rewrite !Z.lxor_nilpotent. reflexivity.
Qed.

Lemma clmul_lxor p q g : 0 <= p -> 0 <= q -> Z.lxor (clmul p g) (clmul q g) = clmul (Z.lxor p q) g.
Proof.
  intros Hp Hq. destruct p as [|p|p], q as [|q|q]; try lia.
  - cbn. reflexivity.
  - cbn [clmul]. rewrite !Z.lxor_0_l. reflexivity.
  - cbn [clmul]. rewrite !Z.lxor_0_r. reflexivity.
  - cbn [clmul]. apply clmul_pos_lxor.
Qed.

Lemma clmul_dbl q g : 0 <= q -> clmul (2 * q) g = 2 * clmul q g.
Proof. intros H. destruct q; cbn; lia. Qed.

Lemma clmul_nonneg q g : 0 <= g -> 0 <= clmul q g.
Proof.
  intros Hg. destruct q as [|p|p]; cbn; try lia. induction p; cbn [clmul_pos]; try lia. apply Z.lxor_nonneg. lia.
Qed.

(** Nonzero multiples have at least the degree of the generator. *)
Lemma log2_lxor_lt a b : 0 < a -> 0 < b -> Z.log2 b < Z.log2 a -> Z.log2 (Z.lxor a b) = Z.log2 a /\ 0 < Z.lxor a b.
Proof.
  intros Ha Hb L.
  assert (T : Z.testbit (Z.lxor a b) (Z.log2 a) = true).
  { rewrite Z.lxor_spec, Z.bit_log2 by lia. rewrite Z.bits_above_log2 by lia. reflexivity. }
  assert (N : 0 <= Z.lxor a b) by (apply Z.lxor_nonneg; lia).
  assert (0 < Z.lxor a b).
  { destruct (Z.eq_dec (Z.lxor a b) 0) as [E|]; [|lia]. rewrite E, Z.testbit_0_l in T. discriminate. }
  split; [|auto]. apply Z.le_antisymm.
  - pose proof (Z.log2_lxor a b ltac:(lia) ltac:(lia)). lia.
  - destruct (Z.le_gt_cases (Z.log2 a) (Z.log2 (Z.lxor a b))); [auto|].
    rewrite Z.bits_above_log2 in T by lia. discriminate.
Qed.

Lemma clmul_degree g p : 0 < g -> 0 < clmul_pos p g /\ Z.log2 (clmul_pos p g) = Z.log2 (Zpos p) + Z.log2 g.
Proof.
  intros Hg. induction p as [p [I1 I2]|p [I1 I2]|]; cbn [clmul_pos].
  - assert (E : Z.log2 (2 * clmul_pos p g) = Z.succ (Z.log2 (clmul_pos p g))) by (apply Z.log2_double; lia).
    assert (P : 0 <= Z.log2 (Zpos p)) by apply Z.log2_nonneg.
    destruct (log2_lxor_lt (2 * clmul_pos p g) g) as [L N]; try lia. split; [exact N|]. rewrite L, E, I2.
    replace (Zpos p~1) with (2 * Zpos p + 1) by lia. rewrite Z.log2_succ_double by lia. lia.
  - split; [lia|]. rewrite Z.log2_double by lia. replace (Zpos p~0) with (2 * Zpos p) by lia. rewrite Z.log2_double by lia. lia.
  - split; [lia|]. cbn. lia.
Qed.

Lemma gen_log2 w pol : 0 <= w -> 0 <= pol < 2 ^ w -> 0 < gen w pol /\ Z.log2 (gen w pol) = w.
Proof.
  intros Hw Hp. unfold gen. assert (0 < 2 ^ w) by lia. split; [lia|]. apply Z.log2_unique; [lia|].
  rewrite Z.pow_succ_r by lia. lia.
Qed.

Lemma gen_lxor w pol : 0 <= w -> 0 <= pol < 2 ^ w -> gen w pol = Z.lxor (2 ^ w) pol.
Proof.
  intros Hw Hp. unfold gen. symmetry.
  rewrite Z.lxor_lor.
  - replace (2 ^ w) with (Z.shiftl 1 w) at 1 by (rewrite Z.shiftl_mul_pow2 by lia; lia).
    rewrite lor_shiftl_add by lia. lia.
  - apply Z.bits_inj'. intros i Hi. rewrite Z.land_spec, Z.testbit_0_l, pow2_testbit by lia.
    destruct (i =? w) eqn:E; [|reflexivity]. cbn. replace i with w by lia.
    destruct (Z.eq_dec pol 0) as [->|N]; [apply Z.testbit_0_l|]. apply Z.bits_above_log2; [lia|]. apply Z.log2_lt_pow2; lia.
Qed.

Lemma multiple_small w pol q : 0 <= w -> 0 <= pol < 2 ^ w -> 0 <= q -> clmul q (gen w pol) < 2 ^ w -> q = 0.
Proof.
  intros Hw Hp Hq L. destruct q as [|p|p]; [reflexivity| |lia]. exfalso. cbn [clmul] in L.
  destruct (gen_log2 w pol Hw Hp) as [G1 G2]. destruct (clmul_degree (gen w pol) p G1) as [D1 D2].
  assert (Z.log2 (clmul_pos p (gen w pol)) < w) by (apply Z.log2_lt_pow2; lia).
  pose proof (Z.log2_nonneg (Zpos p)). lia.
Qed.

Lemma lxor_move a b c : Z.lxor a b = Z.lxor a c -> b = c.
Proof.
  intros H. assert (E : Z.lxor a (Z.lxor a b) = Z.lxor a (Z.lxor a c)) by (rewrite H; reflexivity).
  rewrite <- !Z.lxor_assoc, Z.lxor_nilpotent, !Z.lxor_0_l in E. exact E.
Qed.

Theorem remainder_unique w pol m r1 r2 : 0 <= w -> 0 <= pol < 2 ^ w ->
  is_remainder w pol m r1 -> is_remainder w pol m r2 -> r1 = r2.
Proof.
  intros Hw Hp (B1 & q1 & Q1 & E1) (B2 & q2 & Q2 & E2).
  assert (E : clmul (Z.lxor q1 q2) (gen w pol) = Z.lxor r1 r2).
  { rewrite <- clmul_lxor by lia.
    assert (T0 : Z.lxor (clmul q1 (gen w pol)) r1 = Z.lxor (clmul q2 (gen w pol)) r2) by congruence.
    set (a := clmul q1 (gen w pol)) in *. set (b := clmul q2 (gen w pol)) in *.
    apply Z.bits_inj'. intros i Hi. rewrite !Z.lxor_spec.
    assert (T : Z.testbit (Z.lxor a r1) i = Z.testbit (Z.lxor b r2) i) by (rewrite T0; reflexivity).
    rewrite !Z.lxor_spec in T.
    destruct (Z.testbit a i), (Z.testbit b i), (Z.testbit r1 i), (Z.testbit r2 i); cbn in *; congruence. }
  assert (Z.lxor q1 q2 = 0).
  { apply (multiple_small w pol); auto; [apply Z.lxor_nonneg; lia|]. rewrite E. apply lxor_range; lia. }
  rewrite H in E. cbn in E. symmetry in E. apply Z.lxor_eq in E. exact E.
Qed.

(** * The bit step *)
Lemma land_mask w v : 1 <= w -> 0 <= v < 2 ^ w -> negb (Z.land v (crc_mask w) =? 0) = Z.testbit v (w - 1).
Proof.
  intros Hw Hv. unfold crc_mask. destruct (Z.testbit v (w - 1)) eqn:E.
  - assert (Z.land v (2 ^ (w - 1)) <> 0); [|lia]. intros C.
    assert (T : Z.testbit (Z.land v (2 ^ (w - 1))) (w - 1) = true) by (rewrite Z.land_spec, pow2_testbit, E by lia; cbn; lia).
    rewrite C, Z.testbit_0_l in T. discriminate.
  - replace (Z.land v (2 ^ (w - 1))) with 0; [reflexivity|]. symmetry. apply Z.bits_inj'. intros i Hi.
    rewrite Z.land_spec, pow2_testbit, Z.testbit_0_l by lia. destruct (i =? w - 1) eqn:E2; [|apply andb_false_r].
    replace i with (w - 1) by lia. rewrite E. reflexivity.
Qed.

Section Width.
Context (w pol : Z) (Hw : 1 <= w) (Hp : 0 <= pol < 2 ^ w).

Definition ok (v : Z) := 0 <= v < 2 ^ w.

Lemma table_step_eq v : ok v ->
  table_step w pol v = Z.lxor (2 * v) (if Z.testbit v (w - 1) then gen w pol else 0).
Proof.
  intros Hv. unfold table_step. rewrite (land_mask w v Hw Hv).
  rewrite Z.shiftl_mul_pow2 by lia. change (2 ^ 1) with 2.
  pose proof (pow2_half w ltac:(lia)) as PH. unfold ok in Hv.
  assert (TB : Z.testbit v (w - 1) = (2 ^ (w - 1) <=? v)).
  { rewrite Z.testbit_odd, Z.shiftr_div_pow2 by lia. destruct (2 ^ (w - 1) <=? v) eqn:E.
    - replace (v / 2 ^ (w - 1)) with 1; [reflexivity|]. apply Z.div_unique with (v - 2 ^ (w - 1)); lia.
    - rewrite Z.div_small by lia. reflexivity. }
  rewrite TB. unfold uwrap. destruct (2 ^ (w - 1) <=? v) eqn:E.
  - replace ((v * 2) mod 2 ^ w) with (2 * v - 2 ^ w) by (apply Z.mod_unique with 1; lia).
    rewrite gen_lxor by lia. rewrite <- Z.lxor_assoc. f_equal.
    set (u := 2 * v - 2 ^ w). assert (Hu : 0 <= u < 2 ^ w) by (unfold u; lia).
    assert (G : 2 * v = Z.lxor (2 ^ w) u).
    { rewrite <- gen_lxor by lia. unfold gen, u. lia. }
    rewrite G, (Z.lxor_comm (2 ^ w) u), Z.lxor_assoc, Z.lxor_nilpotent, Z.lxor_0_r. reflexivity.
  - rewrite Z.lxor_0_r. rewrite Z.mod_small by lia. lia.
Qed.

Lemma table_step_ok v : ok v -> ok (table_step w pol v).
Proof.
  intros Hv. unfold table_step, ok in *.
  assert (0 <= uwrap w (Z.shiftl v 1) < 2 ^ w) by (apply uwrap_range; lia).
  destruct (negb _); [apply lxor_range; lia|lia].
Qed.

Lemma iter_ok n v : ok v -> ok (Nat.iter n (table_step w pol) v).
Proof. intros Hv. induction n; cbn; auto. apply table_step_ok; auto. Qed.

Lemma lxor_ok a b : ok a -> ok b -> ok (Z.lxor a b).
Proof. intros. apply lxor_range; unfold ok in *; lia. Qed.

Lemma table_step_lxor a b : ok a -> ok b ->
  table_step w pol (Z.lxor a b) = Z.lxor (table_step w pol a) (table_step w pol b).
Proof.
  intros Ha Hb. rewrite !table_step_eq by auto using lxor_ok. rewrite Z.lxor_spec, dbl_lxor.
  set (g := gen w pol). set (x := 2 * a). set (y := 2 * b).
  destruct (Z.testbit a (w - 1)), (Z.testbit b (w - 1)); cbn [xorb]; apply Z.bits_inj'; intros i Hi;
  rewrite !Z.lxor_spec, ?Z.testbit_0_l; destruct (Z.testbit x i), (Z.testbit y i), (Z.testbit g i); reflexivity.
Qed.

Lemma iter_lxor n a b : ok a -> ok b ->
  Nat.iter n (table_step w pol) (Z.lxor a b) = Z.lxor (Nat.iter n (table_step w pol) a) (Nat.iter n (table_step w pol) b).
Proof.
  intros Ha Hb. induction n; cbn [Nat.iter nat_rect]; auto.
  change (nat_rect _ ?x _ n) with (Nat.iter n (table_step w pol) x). 
  unfold Nat.iter in *. rewrite IHn. apply table_step_lxor; apply iter_ok; auto.
Qed.

(** Values with the top n bits clear are just shifted. *)
Lemma iter_low n v : (Z.of_nat n <= w) -> 0 <= v < 2 ^ (w - Z.of_nat n) ->
  Nat.iter n (table_step w pol) v = v * 2 ^ Z.of_nat n.
Proof.
  induction n as [|n IH]; intros Hn Hv.
  - cbn. lia.
  - change (Nat.iter (S n) (table_step w pol) v) with (table_step w pol (Nat.iter n (table_step w pol) v)).
    assert (PP : 2 ^ (w - Z.of_nat n) = 2 * 2 ^ (w - Z.of_nat (S n))).
    { rewrite <- Z.pow_succ_r by lia. f_equal. lia. }
    assert (0 < 2 ^ (w - Z.of_nat (S n))) by (apply Z.pow_pos_nonneg; lia).
    rewrite IH by lia.
    assert (Q : 2 ^ (w - 1) = 2 ^ (w - Z.of_nat (S n)) * 2 ^ Z.of_nat n) by (rewrite <- Z.pow_add_r by lia; f_equal; lia).
    assert (0 < 2 ^ Z.of_nat n) by (apply Z.pow_pos_nonneg; lia).
    assert (L : 0 <= v * 2 ^ Z.of_nat n < 2 ^ (w - 1)) by (rewrite Q; nia).
    pose proof (pow2_half w ltac:(lia)).
    rewrite table_step_eq by (unfold ok; lia).
    rewrite Nat2Z.inj_succ, Z.pow_succ_r by lia.
    replace (Z.testbit _ (w - 1)) with false; [rewrite Z.lxor_0_r; lia|].
    rewrite Z.testbit_odd, Z.shiftr_div_pow2, Z.div_small by lia. reflexivity.
Qed.

(** Congruence modulo the generator. *)
Definition cong (a b : Z) : Prop := exists q, 0 <= q /\ Z.lxor a b = clmul q (gen w pol).

Lemma cong_refl a : cong a a.
Proof. exists 0. split; [lia|]. rewrite Z.lxor_nilpotent. reflexivity. Qed.
Lemma cong_trans a b c : cong a b -> cong b c -> cong a c.
Proof.
  intros (q1 & H1 & E1) (q2 & H2 & E2). exists (Z.lxor q1 q2). split; [apply Z.lxor_nonneg; lia|].
  rewrite <- clmul_lxor by lia. rewrite <- E1, <- E2. rewrite Z.lxor_assoc, <- (Z.lxor_assoc b b c), Z.lxor_nilpotent, Z.lxor_0_l. reflexivity.
Qed.
Lemma cong_lxor a b c d : cong a b -> cong c d -> cong (Z.lxor a c) (Z.lxor b d).
Proof.
  intros (q1 & H1 & E1) (q2 & H2 & E2). exists (Z.lxor q1 q2). split; [apply Z.lxor_nonneg; lia|].
  rewrite <- clmul_lxor, <- E1, <- E2 by lia. rewrite !Z.lxor_assoc. f_equal. rewrite <- !Z.lxor_assoc. f_equal. apply Z.lxor_comm.
Qed.
Lemma cong_dbl a b : cong a b -> cong (2 * a) (2 * b).
Proof.
  intros (q & H & E). exists (2 * q). split; [lia|]. rewrite clmul_dbl, <- E, dbl_lxor by lia. reflexivity.
Qed.
Lemma cong_pow a b n : 0 <= n -> cong a b -> cong (a * 2 ^ n) (b * 2 ^ n).
Proof.
  intros Hn H. revert n Hn. apply natlike_ind.
  - rewrite !Z.mul_1_r. exact H.
  - intros n Hn IH. rewrite !Z.pow_succ_r by lia. apply cong_dbl in IH.
    replace (a * (2 * 2 ^ n)) with (2 * (a * 2 ^ n)) by lia. replace (b * (2 * 2 ^ n)) with (2 * (b * 2 ^ n)) by lia. exact IH.
Qed.

Lemma table_step_cong v : ok v -> cong (table_step w pol v) (2 * v).
Proof.
  intros Hv. rewrite table_step_eq by auto. unfold cong.
  rewrite (Z.lxor_comm (2 * v)), Z.lxor_assoc, Z.lxor_nilpotent, Z.lxor_0_r.
  destruct (Z.testbit v (w - 1)).
  - exists 1. split; [lia|reflexivity].
  - exists 0. split; [lia|reflexivity].
Qed.

Lemma iter_cong n v : ok v -> cong (Nat.iter n (table_step w pol) v) (v * 2 ^ Z.of_nat n).
Proof.
  intros Hv. induction n as [|n IH].
  - rewrite Z.mul_1_r. apply cong_refl.
  - change (Nat.iter (S n) (table_step w pol) v) with (table_step w pol (Nat.iter n (table_step w pol) v)).
    eapply cong_trans; [apply table_step_cong; apply iter_ok; auto|].
    rewrite Nat2Z.inj_succ, Z.pow_succ_r by lia. replace (v * (2 * 2 ^ Z.of_nat n)) with (2 * (v * 2 ^ Z.of_nat n)) by lia.
    apply cong_dbl, IH.
Qed.
End Width.

(** * The byte step *)
Lemma table_nth w pol d : 0 <= d < 256 -> nth_error (compute_table w pol) (Z.to_nat d) = Some (table_entry w pol d).
Proof.
  intros Hd. unfold compute_table. rewrite nth_error_map.
  rewrite (nth_error_nth' _ 0%nat) by (rewrite seq_length; lia). rewrite seq_nth by lia. cbn [option_map].
  replace (Z.of_nat (0 + Z.to_nat d)) with d by lia. reflexivity.
Qed.

Lemma shift_eq w : crc_width w -> crc_shift w = w - 8.
Proof. intros [->| [->| ->]]; reflexivity. Qed.
Lemma maskInv_eq w : crc_width w -> crc_maskInv w = 2 ^ w - 1.
Proof. intros [->| [->| ->]]; reflexivity. Qed.

Lemma lxor_disjoint_add a b n : 0 <= n -> 0 <= b < 2 ^ n -> Z.lxor (a * 2 ^ n) b = a * 2 ^ n + b.
Proof.
  intros Hn Hb. rewrite <- Z.shiftl_mul_pow2 by lia. rewrite Z.lxor_lor.
  - rewrite lor_shiftl_add by lia. rewrite Z.shiftl_mul_pow2 by lia. reflexivity.
  - apply Z.bits_inj'. intros i Hi. rewrite Z.land_spec, Z.testbit_0_l, shiftl_testbit by lia.
    destruct (Z.lt_ge_cases i n) as [L|L].
    + rewrite Z.testbit_neg_r by lia. reflexivity.
    + replace (Z.testbit b i) with false; [apply andb_false_r|].
      destruct (Z.eq_dec b 0) as [->|N]; [rewrite Z.testbit_0_l; reflexivity|].
      symmetry. apply Z.bits_above_log2; [lia|]. apply Z.lt_le_trans with n; [|lia]. apply Z.log2_lt_pow2; lia.
Qed.

Theorem crc_step_spec w pol crc byte : crc_width w -> 0 <= pol < 2 ^ w -> 0 <= crc < 2 ^ w -> 0 <= byte < 256 ->
  crc_step w (compute_table w pol) crc byte
  = Some (Nat.iter 8 (table_step w pol) (Z.lxor crc (byte * 2 ^ (w - 8)))).
Proof.
  intros Hw Hp Hc Hb. assert (W : 8 <= w <= 32) by (destruct Hw as [->| [->| ->]]; lia).
  unfold crc_step. rewrite shift_eq, maskInv_eq by auto.
  set (P := 2 ^ (w - 8)).
  assert (PW : 2 ^ w = 256 * P) by (unfold P; change 256 with (2 ^ 8); rewrite <- Z.pow_add_r by lia; f_equal; lia).
  assert (PP : 0 < P) by (unfold P; apply Z.pow_pos_nonneg; lia).
  rewrite Z.shiftr_div_pow2 by lia. fold P.
  set (hi := crc / P). set (lo := crc mod P).
  assert (EC : crc = hi * P + lo) by (unfold hi, lo; pose proof (Z.div_mod crc P); lia).
  assert (Hlo : 0 <= lo < P) by (apply Z.mod_pos_bound; lia).
  assert (Hhi : 0 <= hi < 256).
  { unfold hi. split; [apply Z.div_pos; lia|]. apply Z.div_lt_upper_bound; lia. }
  change 255 with (2 ^ 8 - 1). rewrite land_ones_mod by lia. unfold uwrap at 1. rewrite Z.mod_mod by lia.
  assert (Hx : 0 <= Z.lxor hi byte < 2 ^ 8) by (apply lxor_range; cbn; lia).
  rewrite Z.mod_small by lia. set (pos := Z.lxor hi byte) in *. change (2 ^ 8) with 256 in Hx.
  rewrite table_nth by lia. f_equal. rewrite land_ones_mod by lia. unfold uwrap. rewrite Z.mod_mod by lia.
  unfold table_entry. rewrite shift_eq by auto. rewrite Z.shiftl_mul_pow2 by lia. fold P.
  rewrite (uwrap_id 32).
  2:{ split; [nia|]. apply Z.lt_le_trans with (2 ^ w); [nia|]. apply Z.pow_le_mono_r; lia. }
  rewrite uwrap_id by nia.
  assert (OKp : 0 <= pos * P < 2 ^ w) by nia.
  assert (OKl : 0 <= lo < 2 ^ w) by lia.
  assert (SP : Z.lxor crc (byte * P) = Z.lxor (pos * P) lo).
  { rewrite EC. unfold P. rewrite <- lxor_disjoint_add by (try lia; exact Hlo).
    rewrite <- !Z.shiftl_mul_pow2 by lia.
    unfold pos. rewrite Z.shiftl_lxor, !Z.lxor_assoc. f_equal. apply Z.lxor_comm. }
  rewrite SP. rewrite iter_lxor by (unfold ok; lia).
  rewrite (iter_low w pol ltac:(lia) ltac:(lia) 8 lo) by (cbn [Z.of_nat]; try lia; exact Hlo).
  set (T := Nat.iter 8 (table_step w pol) (pos * P)).
  assert (OKT : 0 <= T < 2 ^ w) by (apply (iter_ok w pol); unfold ok; lia).
  assert (WW : Z.shiftl crc 8 mod 2 ^ w = lo * 2 ^ Z.of_nat 8).
  { rewrite Z.shiftl_mul_pow2 by lia. rewrite EC. change (2 ^ Z.of_nat 8) with 256. change (2 ^ 8) with 256.
    symmetry. apply Z.mod_unique with hi; [left; lia|]. lia. }
  rewrite <- WW. 
  apply Z.bits_inj'. intros i Hi. destruct (Z.lt_ge_cases i w).
  - rewrite Z.mod_pow2_bits_low, !Z.lxor_spec, Z.mod_pow2_bits_low by lia. reflexivity.
  - rewrite Z.mod_pow2_bits_high, Z.lxor_spec, Z.mod_pow2_bits_high by lia.
    rewrite <- (Z.mod_small T (2 ^ w)) by lia. rewrite Z.mod_pow2_bits_high by lia. reflexivity.
Qed.

(** * Whole buffers *)

(** The same computation over the list of the bytes read. *)
Fixpoint crc_list (w : Z) (table : list Z) (l : list Z) (crc : Z) : option Z :=
  match l with
  | [] => Some crc
  | b :: r => match crc_step w table crc b with None => None | Some c => crc_list w table r c end
  end.

Lemma compute_loop_list w table data inv : forall n b crc,
  compute_loop w table data inv n b crc
  = crc_list w table (map (fun i => data ((if inv then -1 else 1) * (b + Z.of_nat i))) (seq 0 n)) crc.
Proof.
  induction n as [|n IH]; intros b crc; [reflexivity|]. cbn [compute_loop seq map crc_list].
  replace (if inv then - b else b) with ((if inv then -1 else 1) * (b + Z.of_nat 0)) by (destruct inv; lia).
  destruct (crc_step _ _ _ _); [|reflexivity]. rewrite IH. f_equal. rewrite <- seq_shift, map_map.
  apply map_ext. intros a. f_equal. f_equal. lia.
Qed.

Lemma compute_list w table data size init inv :
  compute w table data size init inv
  = crc_list w table (read_bytes data (if inv then -1 else 1) (Z.to_nat size)) init.
Proof.
  unfold compute. rewrite compute_loop_list. reflexivity.
Qed.

Lemma message_from l : forall a, fold_left (fun a b => a * 256 + b) l a = a * 2 ^ (8 * Z.of_nat (length l)) + message l.
Proof.
  induction l as [|b r IH]; intros a.
  - cbn. lia.
  - cbn [fold_left length]. unfold message. cbn [fold_left]. rewrite !(IH (_ * 256 + b)).
    replace (8 * Z.of_nat (S (length r))) with (8 + 8 * Z.of_nat (length r)) by lia.
    rewrite Z.pow_add_r by lia. change (2 ^ 8) with 256. lia.
Qed.

Lemma message_cons b r : message (b :: r) = b * 2 ^ (8 * Z.of_nat (length r)) + message r.
Proof. unfold message at 1. cbn [fold_left]. rewrite message_from. cbn. lia. Qed.

Lemma message_range l : bytes l -> 0 <= message l < 2 ^ (8 * Z.of_nat (length l)).
Proof.
  induction l as [|b r IH]; intros H; [cbn; lia|]. inversion H as [|? ? Hb Hr]; subst. specialize (IH Hr).
  rewrite message_cons. cbn [length]. replace (8 * Z.of_nat (S (length r))) with (8 + 8 * Z.of_nat (length r)) by lia.
  rewrite Z.pow_add_r by lia. change (2 ^ 8) with 256. nia.
Qed.

Lemma lxor_mul_pow a b n : 0 <= n -> Z.lxor a b * 2 ^ n = Z.lxor (a * 2 ^ n) (b * 2 ^ n).
Proof. intros. rewrite <- !Z.shiftl_mul_pow2 by lia. apply Z.shiftl_lxor. Qed.

Lemma crc_list_cong w pol : crc_width w -> 0 <= pol < 2 ^ w ->
  forall l crc, bytes l -> 0 <= crc < 2 ^ w ->
  exists r, crc_list w (compute_table w pol) l crc = Some r /\ 0 <= r < 2 ^ w /\
    cong w pol r (Z.lxor (crc * 2 ^ (8 * Z.of_nat (length l))) (message l * 2 ^ w)).
Proof.
  intros Hw Hp. assert (W : 8 <= w <= 32) by (destruct Hw as [->| [->| ->]]; lia).
  induction l as [|b l IH]; intros crc Hl Hc.
  - exists crc. split; [reflexivity|]. split; [exact Hc|]. cbn [length message fold_left]. unfold message. cbn [fold_left].
    rewrite Z.mul_0_l, Z.lxor_0_r. change (2 ^ (8 * Z.of_nat 0)) with 1. rewrite Z.mul_1_r. apply cong_refl.
  - inversion Hl as [|? ? Hb Hr]; subst. cbn [crc_list]. rewrite crc_step_spec by auto.
    assert (PW : 2 ^ w = 256 * 2 ^ (w - 8)) by (change 256 with (2 ^ 8); rewrite <- Z.pow_add_r by lia; f_equal; lia).
    assert (PP : 0 < 2 ^ (w - 8)) by (apply Z.pow_pos_nonneg; lia).
    set (v := Z.lxor crc (b * 2 ^ (w - 8))).
    assert (OKv : 0 <= v < 2 ^ w) by (apply lxor_range; nia).
    set (c1 := Nat.iter 8 (table_step w pol) v).
    assert (OK1 : 0 <= c1 < 2 ^ w) by (apply (iter_ok w pol); unfold ok; lia).
    destruct (IH c1 Hr OK1) as (r & E & R & C). exists r. split; [exact E|]. split; [exact R|].
    eapply cong_trans; [exact C|].
    assert (C1 : cong w pol c1 (v * 2 ^ 8)).
    { exact (iter_cong w pol ltac:(lia) Hp 8 v OKv). }
    apply (cong_pow w pol ltac:(lia) _ _ (8 * Z.of_nat (length l)) ltac:(lia)) in C1.
    rewrite message_cons. pose proof (message_range l Hr) as MR.
    rewrite <- lxor_disjoint_add by lia. rewrite lxor_mul_pow by lia. rewrite <- Z.lxor_assoc.
    apply cong_lxor; [|apply cong_refl].
    replace (Z.lxor (crc * 2 ^ (8 * Z.of_nat (length (b :: l)))) (b * 2 ^ (8 * Z.of_nat (length l)) * 2 ^ w))
      with (v * 2 ^ 8 * 2 ^ (8 * Z.of_nat (length l))); [exact C1|].
    unfold v. rewrite !lxor_mul_pow by lia. f_equal.
    + cbn [length]. replace (8 * Z.of_nat (S (length l))) with (8 + 8 * Z.of_nat (length l)) by lia.
      rewrite Z.pow_add_r by lia. lia.
    + rewrite PW. change (2 ^ 8) with 256. lia.
Qed.

(** The CRC is the remainder of the division by the generator. *)
Theorem crc_remainder w pol l init : crc_width w -> 0 <= pol < 2 ^ w -> bytes l -> 0 <= init < 2 ^ w ->
  exists r, crc_list w (compute_table w pol) l init = Some r /\
    is_remainder w pol (Z.lxor (init * 2 ^ (8 * Z.of_nat (length l))) (message l * 2 ^ w)) r.
Proof.
  intros Hw Hp Hl Hi. destruct (crc_list_cong w pol Hw Hp l init Hl Hi) as (r & E & R & q & Q & C).
  exists r. split; [exact E|]. split; [exact R|]. exists q. split; [exact Q|]. rewrite <- C.
  rewrite (Z.lxor_comm r), Z.lxor_assoc, Z.lxor_nilpotent, Z.lxor_0_r. reflexivity.
Qed.

Lemma read_bytes_ok data d n : (forall i, 0 <= data i < 256) -> bytes (read_bytes data d n).
Proof.
  intros H. unfold bytes, read_bytes. apply Forall_forall. intros x Hx. apply in_map_iff in Hx.
  destruct Hx as (i & <- & _). apply H.
Qed.

Theorem compute_remainder w pol data size init inv :
  crc_width w -> 0 <= pol < 2 ^ w -> (forall i, 0 <= data i < 256) -> 0 <= size -> 0 <= init < 2 ^ w ->
  exists r, compute w (compute_table w pol) data size init inv = Some r /\
    is_remainder w pol
      (Z.lxor (init * 2 ^ (8 * size)) (message (read_bytes data (if inv then -1 else 1) (Z.to_nat size)) * 2 ^ w)) r.
Proof.
  intros Hw Hp Hd Hs Hi. rewrite compute_list.
  set (l := read_bytes _ _ _). assert (L : Z.of_nat (length l) = size).
  { unfold l, read_bytes. rewrite map_length, seq_length. lia. }
  rewrite <- L. apply crc_remainder; auto. apply read_bytes_ok; auto.
Qed.

(** Chaining. *)
Lemma crc_list_app w table a b crc :
  crc_list w table (a ++ b) crc = match crc_list w table a crc with None => None | Some c => crc_list w table b c end.
Proof. revert crc. induction a as [|x a IH]; intros crc; cbn; [reflexivity|]. destruct (crc_step _ _ _ _); auto. Qed.

Theorem compute_chain w table data n m init : 0 <= n -> 0 <= m ->
  compute w table data (n + m) init false =
  match compute w table data n init false with
  | None => None
  | Some c => compute w table (fun i => data (n + i)) m c false
  end.
Proof.
  intros Hn Hm. rewrite !compute_list.
  replace (read_bytes data 1 (Z.to_nat (n + m))) with (read_bytes data 1 (Z.to_nat n) ++ read_bytes (fun i => data (n + i)) 1 (Z.to_nat m)).
  - rewrite crc_list_app. destruct (crc_list w table (read_bytes data 1 (Z.to_nat n)) init); [|reflexivity]. rewrite compute_list. reflexivity.
  - unfold read_bytes. rewrite Z2Nat.inj_add by lia. rewrite seq_app, map_app. f_equal. cbn [plus].
    assert (S : forall k s, seq (k + s) (Z.to_nat m) = map (fun i => (k + i)%nat) (seq s (Z.to_nat m))).
    { intros k s. generalize (Z.to_nat m). intros len. revert s. induction len as [|len IH]; intros s; [reflexivity|].
      cbn. f_equal. rewrite <- IH. f_equal. lia. }
    rewrite <- (Nat.add_0_r (Z.to_nat n)). rewrite S, map_map. apply map_ext. intros i. f_equal. lia.
Qed.

(** Reading backwards from the last byte is the CRC of the reversed bytes. *)
Theorem compute_inverted w table data n init : 0 < n ->
  compute w table (fun i => data (n - 1 + i)) n init true
  = crc_list w table (rev (read_bytes data 1 (Z.to_nat n))) init.
Proof.
  intros Hn. rewrite compute_list. f_equal. unfold read_bytes.
  rewrite <- map_rev. 
  assert (R : forall k, rev (seq 0 k) = map (fun i => (k - 1 - i)%nat) (seq 0 k)).
  { induction k as [|k IH]; [reflexivity|]. rewrite seq_S at 1. rewrite rev_app_distr. cbn [rev app seq map plus].
    f_equal; [lia|]. rewrite IH. rewrite <- seq_shift, map_map. apply map_ext. intros. lia. }
  rewrite R, map_map. apply map_ext_in. intros i Hi. apply in_seq in Hi. f_equal. lia.
Qed.

(** * Error detection *)
Lemma clmul_odd q g : 0 <= q -> Z.odd (clmul q g) = Z.odd q && Z.odd g.
Proof.
  intros Hq. destruct q as [|p|p]; [reflexivity| |lia]. destruct p; cbn [clmul clmul_pos].
  - rewrite <- !Z.bit0_odd, Z.lxor_spec. replace (Z.testbit (2 * _) 0) with false.
    + change (Z.testbit (Zpos p~1) 0) with true. cbn [andb]. destruct (Z.testbit g 0); reflexivity.
    + symmetry. rewrite Z.bit0_odd. rewrite Z.odd_mul. reflexivity.
  - rewrite Z.odd_mul. reflexivity.
  - reflexivity.
Qed.

Lemma multiple_even w pol e n : 1 <= w -> 0 <= pol < 2 ^ w -> Z.odd pol = true -> 0 <= e < 2 ^ w -> 0 <= n ->
  forall q, 0 <= q -> clmul q (gen w pol) = e * 2 ^ n -> e = 0.
Proof.
  intros Hw Hp Ho He Hn. revert n Hn. apply (natlike_ind (fun n => forall q, 0 <= q -> clmul q (gen w pol) = e * 2 ^ n -> e = 0)).
  - intros q Hq E. rewrite Z.mul_1_r in E.
    assert (q = 0) by (apply (multiple_small w pol); auto; lia). subst q. cbn in E. lia.
  - intros n Hn IH q Hq E. rewrite Z.pow_succ_r in E by lia.
    assert (OG : Z.odd (gen w pol) = true).
    { unfold gen. rewrite Z.odd_add, Ho. rewrite pow2_half by lia. rewrite Z.odd_mul. reflexivity. }
    assert (OQ : Z.odd q = false).
    { pose proof (clmul_odd q (gen w pol) Hq) as O. rewrite E, OG, andb_true_r in O. rewrite <- O.
      replace (e * (2 * 2 ^ n)) with (2 * (e * 2 ^ n)) by lia. rewrite Z.odd_mul. reflexivity. }
    pose proof (Zdiv2_odd_eqn q) as D. rewrite OQ in D.
    apply (IH (Z.div2 q)); [lia|]. rewrite D in E. rewrite Z.add_0_r, clmul_dbl in E by lia. lia.
Qed.

(** Two messages of equal length that differ only inside a window of [w] bits have different CRCs. *)
Theorem burst_detected w pol l1 l2 init r1 r2 e k :
  crc_width w -> 0 <= pol < 2 ^ w -> Z.odd pol = true -> bytes l1 -> bytes l2 -> length l1 = length l2 ->
  0 <= init < 2 ^ w -> 0 < e < 2 ^ w -> 0 <= k -> Z.lxor (message l1) (message l2) = e * 2 ^ k ->
  crc_list w (compute_table w pol) l1 init = Some r1 ->
  crc_list w (compute_table w pol) l2 init = Some r2 -> r1 <> r2.
Proof.
  intros Hw Hp Ho H1 H2 HL Hi He Hk HE E1 E2 C. subst r2.
  assert (W : 8 <= w <= 32) by (destruct Hw as [->| [->| ->]]; lia).
  destruct (crc_list_cong w pol Hw Hp l1 init H1 Hi) as (r & F1 & R1 & C1).
  destruct (crc_list_cong w pol Hw Hp l2 init H2 Hi) as (r' & F2 & R2 & C2).
  assert (r = r1) by congruence. assert (r' = r1) by congruence. subst r r'.
  rewrite <- HL in C2.
  destruct C1 as (q1 & Q1 & C1). destruct C2 as (q2 & Q2 & C2).
  assert (X : clmul (Z.lxor q1 q2) (gen w pol) = e * 2 ^ (k + w)).
  { rewrite <- clmul_lxor by lia. rewrite <- C1, <- C2. rewrite Z.pow_add_r by lia.
    replace (e * (2 ^ k * 2 ^ w)) with (e * 2 ^ k * 2 ^ w) by lia. rewrite <- HE, lxor_mul_pow by lia.
    set (a := _ * 2 ^ (8 * _)). set (b := message l1 * _). set (c := message l2 * _).
    apply Z.bits_inj'. intros i _. rewrite !Z.lxor_spec.
    destruct (Z.testbit r1 i), (Z.testbit a i), (Z.testbit b i), (Z.testbit c i); reflexivity. }
  apply (multiple_even w pol e (k + w)) in X; try lia. apply Z.lxor_nonneg; lia.
Qed.

Lemma read_buffer l : read_bytes (buffer l) 1 (length l) = l.
Proof.
  unfold read_bytes, buffer. apply nth_ext with 0 0; [rewrite map_length, seq_length; reflexivity|].
  intros n Hn. rewrite map_length, seq_length in Hn.
  set (f := fun i => nth (Z.to_nat (1 * Z.of_nat i)) l 0).
  rewrite (nth_indep _ 0 (f 0%nat)) by (rewrite map_length, seq_length; lia).
  rewrite (map_nth f). unfold f. rewrite seq_nth by lia. f_equal. lia.
Qed.

Lemma compute_buffer w table l init :
  compute w table (buffer l) (Z.of_nat (length l)) init false = crc_list w table l init.
Proof. rewrite compute_list, Nat2Z.id, read_buffer. reflexivity. Qed.

Theorem burst_detected_compute w pol l1 l2 init e k :
  crc_width w -> 0 <= pol < 2 ^ w -> Z.odd pol = true -> bytes l1 -> bytes l2 -> length l1 = length l2 ->
  0 <= init < 2 ^ w -> 0 < e < 2 ^ w -> 0 <= k -> Z.lxor (message l1) (message l2) = e * 2 ^ k ->
  compute w (compute_table w pol) (buffer l1) (Z.of_nat (length l1)) init false <>
  compute w (compute_table w pol) (buffer l2) (Z.of_nat (length l2)) init false.
Proof.
  intros Hw Hp Ho H1 H2 HL Hi He Hk HE C. rewrite !compute_buffer in C.
  destruct (crc_list_cong w pol Hw Hp l1 init H1 Hi) as (r & F1 & _).
  destruct (crc_list_cong w pol Hw Hp l2 init H2 Hi) as (r' & F2 & _).
  rewrite F1, F2 in C. injection C as C.
  exact (burst_detected w pol l1 l2 init r r' e k Hw Hp Ho H1 H2 HL Hi He Hk HE F1 F2 C).
Qed.

Theorem compute_inverted_buffer w table l init : l <> [] ->
  compute w table (fun i => buffer l (Z.of_nat (length l) - 1 + i)) (Z.of_nat (length l)) init true
  = compute w table (buffer (rev l)) (Z.of_nat (length l)) init false.
Proof.
  intros Hl. rewrite compute_inverted by (destruct l; [congruence|cbn; lia]).
  rewrite Nat2Z.id, read_buffer. rewrite <- (rev_length l), compute_buffer. reflexivity.
Qed.
