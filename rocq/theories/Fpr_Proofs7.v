(** The accuracy of the digits that are chosen. *)
From Verif Require Import Base Flt_Model Flt_Spec Flt_Proofs Flt_Proofs2 Ftx_Model Ftx_Spec Ftx_Proofs Ftx_Proofs2 Ftx_Proofs3 Ftx_Proofs6 Fpr_Model Fpr_Spec Fpr_Proofs Fpr_Proofs2 Fpr_Proofs3 Fpr_Proofs4 Fpr_Proofs5 Fpr_Proofs6.
From Coq Require Import Lia ZArith Bool List.
Import ListNotations.
Open Scope Z_scope.

Lemma t10 a b : 0 <= a -> 0 <= b -> 10 ^ (a + b) = 10 ^ a * 10 ^ b.
Proof. intros. apply Z.pow_add_r; lia. Qed.
Lemma t10pos a : 0 <= a -> 0 < 10 ^ a.
Proof. intros. apply Z.pow_pos_nonneg; lia. Qed.
(** N * 10^k is X within half of 10^k and w parts in P *)
Definition acc_at (P U N k X w K : Z) : Prop := 2 * P * Z.abs (N * 10 ^ (K + k) * U - X * 10 ^ K) <= P * (10 ^ (K + k) * U) + 2 * w * (X * 10 ^ K).
Lemma acc_any P U N k X w K0 : 0 <= K0 -> 0 <= K0 + k -> acc_at P U N k X w K0 -> forall K, 0 <= K -> 0 <= K + k -> acc_at P U N k X w K.
Proof.
  unfold acc_at. intros H0 H0k A K HK HKk. pose proof (t10pos K HK) as TK. pose proof (t10pos K0 H0) as TK0. apply Z.mul_le_mono_pos_r with (10 ^ K0); [exact TK0|]. apply (Z.mul_le_mono_nonneg_r _ _ (10 ^ K)) in A; [|lia].
  assert (E : 10 ^ (K + k) * 10 ^ K0 = 10 ^ (K0 + k) * 10 ^ K) by (rewrite <- !t10 by lia; f_equal; lia).
  rewrite <- (Z.mul_assoc (2 * P)) in *. rewrite abs_mul_r in * by lia. rewrite Z.mul_sub_distr_r in *. rewrite (Z.mul_add_distr_r (P * _)) in *.
  replace (N * 10 ^ (K + k) * U * 10 ^ K0) with (N * (10 ^ (K + k) * 10 ^ K0) * U) by ring. replace (X * 10 ^ K * 10 ^ K0) with (X * 10 ^ K0 * 10 ^ K) by ring. replace (P * (10 ^ (K + k) * U) * 10 ^ K0) with (P * ((10 ^ (K + k) * 10 ^ K0) * U)) by ring.
  replace (2 * w * (X * 10 ^ K) * 10 ^ K0) with (2 * w * (X * 10 ^ K0) * 10 ^ K) by ring. rewrite E.
  replace (N * (10 ^ (K0 + k) * 10 ^ K) * U) with (N * 10 ^ (K0 + k) * U * 10 ^ K) by ring. replace (P * (10 ^ (K0 + k) * 10 ^ K * U)) with (P * (10 ^ (K0 + k) * U) * 10 ^ K) by ring. rewrite <- Z.mul_add_distr_r. exact A.
Qed.
(** one rounding, no carry *)
Lemma digits_plain P U Y V N Z' T : 0 < P -> 0 < U -> 1 <= T -> P * Z.abs (V * T - (Y * T + 5 * U)) <= 17 * (U * T) -> P * Z.abs (V * T - (10 * N * U + Z')) <= (T - 1) * U -> 0 <= Z' < 10 * U ->
  P * Z.abs (10 ^ 1 * N * U - Y * T) <= 5 * 10 ^ 0 * (P * U) + 18 * (U * T).
Proof.
  intros HP HU HT A B HZ. change (10 ^ 1) with 10. change (10 ^ 0) with 1.
  assert (C : Z.abs (10 * N * U - Y * T) <= Z.abs (V * T - (10 * N * U + Z')) + Z.abs (V * T - (Y * T + 5 * U)) + 5 * U) by (clear - HZ; lia).
  apply (Z.mul_le_mono_nonneg_l _ _ P) in C; [|lia]. rewrite !Z.mul_add_distr_l in C. revert C A B. generalize (Z.abs (10 * N * U - Y * T)) (Z.abs (V * T - (10 * N * U + Z'))) (Z.abs (V * T - (Y * T + 5 * U))). intros a b d C A B.
  rewrite Z.mul_sub_distr_r in B. replace (P * (5 * U)) with (5 * (P * U)) in C by ring. replace (T * U) with (U * T) in B by ring. lia.
Qed.
(** the rounding carries to ten *)
Lemma digits_carry P U Y V W N Z' T T0 : 0 < P -> 0 < U -> 1 <= T -> 1 <= T0 -> T <= 10 * T0 -> P * Z.abs (V * T0 - (Y * T0 + 5 * U)) <= 17 * (U * T0) -> P * Z.abs (W * 10 - V) <= 48 * U ->
  P * Z.abs (W * T - (10 * N * U + Z')) <= (T - 1) * U -> 0 <= Z' -> T <= 10 * N -> P * Y <= (P + 60) * (10 * U) ->
  P * Z.abs (10 ^ 2 * N * U - Y * T) <= 5 * 10 ^ 1 * (P * U) + 600 * (U * T).
Proof.
  intros HP HU HT HT0 TT A D B HZ HN HY. change (10 ^ 2) with 100. change (10 ^ 1) with 10. pose proof (Z.mul_pos_pos U T HU ltac:(lia)) as UT. pose proof (Z.mul_pos_pos P U HP HU) as PU.
  assert (A1 : P * (V * T0 - Y * T0) <= 5 * (P * U) + 17 * (U * T0)).
  { apply Z.le_trans with (P * (Z.abs (V * T0 - (Y * T0 + 5 * U)) + 5 * U)); [apply Z.mul_le_mono_nonneg_l; lia|]. rewrite Z.mul_add_distr_l. replace (P * (5 * U)) with (5 * (P * U)) by ring. lia. }
  assert (A2 : P * ((V - Y) * T) <= 50 * (P * U) + 17 * (U * T)).
  { apply Z.mul_le_mono_pos_r with T0; [lia|]. apply (Z.mul_le_mono_nonneg_r _ _ T) in A1; [|lia].
    replace (P * ((V - Y) * T) * T0) with (P * (V * T0 - Y * T0) * T) by ring. apply (Z.le_trans _ _ _ A1).
    replace ((5 * (P * U) + 17 * (U * T0)) * T) with (5 * (P * U * T) + 17 * (U * T) * T0) by ring. replace ((50 * (P * U) + 17 * (U * T)) * T0) with (5 * (P * U * (10 * T0)) + 17 * (U * T) * T0) by ring.
    apply Z.add_le_mono_r. apply Z.mul_le_mono_nonneg_l; [lia|]. apply Z.mul_le_mono_nonneg_l; lia. }
  assert (D1 : P * ((W * 10 - V) * T) <= 48 * (U * T)).
  { apply Z.le_trans with (P * Z.abs (W * 10 - V) * T); [rewrite Z.mul_assoc; apply Z.mul_le_mono_nonneg_r; [lia|]; apply Z.mul_le_mono_nonneg_l; lia|]. replace (48 * (U * T)) with (48 * U * T) by ring. apply Z.mul_le_mono_nonneg_r; lia. }
  assert (B1 : P * (10 * N * U - W * T) <= U * T).
  { apply Z.le_trans with (P * Z.abs (W * T - (10 * N * U + Z'))); [apply Z.mul_le_mono_nonneg_l; lia|]. apply (Z.le_trans _ _ _ B). rewrite Z.mul_sub_distr_r. lia. }
  assert (Up : P * (100 * N * U - Y * T) <= 50 * (P * U) + 600 * (U * T)).
  { replace (P * (100 * N * U - Y * T)) with (10 * (P * (10 * N * U - W * T)) + P * ((W * 10 - V) * T) + P * ((V - Y) * T)) by ring. lia. }
  assert (Lo : P * (Y * T - 100 * N * U) <= 600 * (U * T)).
  { assert (P * Y * T <= (P + 60) * (10 * U) * T) by (apply Z.mul_le_mono_nonneg_r; lia). assert (T * (10 * (P * U)) <= 10 * N * (10 * (P * U))) by (apply Z.mul_le_mono_nonneg_r; lia).
    replace (P * (Y * T - 100 * N * U)) with (P * Y * T - 10 * N * (10 * (P * U))) by ring. replace ((P + 60) * (10 * U) * T) with (T * (10 * (P * U)) + 600 * (U * T)) in H by ring. lia. }
  destruct (Z.abs_spec (100 * N * U - Y * T)) as [[_ ->]|[_ ->]]; [lia|]. replace (- (100 * N * U - Y * T)) with (Y * T - 100 * N * U) by ring. lia.
Qed.
Lemma acc_from P U N X Y e p a w : 16777216 <= P -> 0 < U -> 0 < X -> 0 <= Y -> 1 <= a -> Z.abs e <= 330 -> 0 <= p <= 600 -> relz P 60 (Y * 10 ^ Z.max 0 e) (X * 10 ^ Z.max 0 (- e)) -> w * U <= 151 * Y ->
  P * Z.abs (10 ^ a * N * U - Y * 10 ^ p) <= 5 * 10 ^ (a - 1) * (P * U) + w * (U * 10 ^ p) -> forall K, 0 <= K -> 0 <= K + (e - p + a) -> acc_at P U N (e - p + a) X 250 K.
Proof.
  intros HP HU HX HY Ha He Hp R Hw A. destruct (ex_intro (fun z => 2000 <= z) 2000 (Z.le_refl 2000)) as [K0 HK0]. cbv beta in HK0. apply (acc_any P U N _ X 250 K0); [lia|lia|]. unfold acc_at. replace (K0 + (e - p + a)) with (a + (K0 + e - p)) by lia. rewrite t10 by lia. set (B := 10 ^ (K0 + e - p)).
  assert (B0 : 0 < B) by (apply t10pos; lia).
  assert (R1 : relz P 60 (Y * 10 ^ (K0 + e)) (X * 10 ^ K0)).
  { apply (rel_scale P 60 _ _ (10 ^ (K0 - Z.max 0 (- e)))) in R; [|apply Z.pow_nonneg; lia]. rewrite <- !Z.mul_assoc, <- !t10 in R by lia.
    replace (Z.max 0 e + (K0 - Z.max 0 (- e))) with (K0 + e) in R by lia. replace (Z.max 0 (- e) + (K0 - Z.max 0 (- e))) with K0 in R by lia. exact R. }
  set (X' := X * 10 ^ K0) in *. assert (X0 : 0 < X') by (apply Z.mul_pos_pos; [lia|apply t10pos; lia]).
  assert (EY : Y * 10 ^ (K0 + e) = Y * 10 ^ p * B) by (unfold B; rewrite <- Z.mul_assoc, <- t10 by lia; do 2 f_equal; lia). rewrite EY in R1.
  pose proof (rel_upper P 60 _ _ ltac:(lia) R1) as RU. unfold relz in R1. set (Y' := Y * 10 ^ p * B) in *.
  apply (Z.mul_le_mono_nonneg_r _ _ B) in A; [|lia]. rewrite <- Z.mul_assoc, abs_mul_r, Z.mul_sub_distr_r in A by lia. fold Y' in A.
  replace (N * (10 ^ a * B) * U) with (10 ^ a * N * U * B) by ring. set (G := 10 ^ a * N * U * B) in *.
  assert (EA : 10 ^ a = 10 * 10 ^ (a - 1)) by (replace a with (1 + (a - 1)) at 1 by lia; rewrite t10 by lia; reflexivity).
  replace (P * (10 ^ a * B * U)) with (2 * (5 * 10 ^ (a - 1) * (P * U) * B)) by (rewrite EA; ring).
  assert (W : w * (U * 10 ^ p) * B <= 151 * Y').
  { unfold Y'. replace (w * (U * 10 ^ p) * B) with (w * U * (10 ^ p * B)) by ring. replace (151 * (Y * 10 ^ p * B)) with (151 * Y * (10 ^ p * B)) by ring. apply Z.mul_le_mono_nonneg_r; [|exact Hw]. apply Z.mul_nonneg_nonneg; [apply Z.pow_nonneg; lia|lia]. }
  assert (W2 : 151 * Y' <= 152 * X').
  { apply Z.mul_le_mono_pos_l with P; [lia|]. rewrite Z.mul_add_distr_r in RU. assert (16777216 * X' <= P * X') by (apply Z.mul_le_mono_nonneg_r; lia). lia. }
  pose proof (abs_tri G Y' X') as T. rewrite (Z.mul_add_distr_r (5 * _ * _)) in A. apply (Z.mul_le_mono_nonneg_l _ _ P) in T; [|lia]. rewrite Z.mul_add_distr_l in T. clear - T A W W2 R1 X0. rewrite <- Z.mul_assoc. lia.
Qed.

Section Value.
Variables (f : fmt) (c : Z).
Hypotheses (Hf : is_format f) (Hl : low f c).
Local Notation P := (2 ^ prec f).
Local Notation U := (2 ^ (- c)).
Definition accurate (N k X : Z) : Prop := forall K, 0 <= K -> 0 <= K + k -> acc_at P U N k X 250 K.

Lemma plain_ok X y Y e q V : 0 < X -> Z.abs e <= 330 -> normalized f c X y Y e -> 0 < q <= 600 -> isv f c (round_up f y q) V -> 0 <= V < 10 * U -> P * Z.abs (V * 10 ^ q - (Y * 10 ^ q + 5 * U)) <= 17 * (U * 10 ^ q) ->
  accurate (follow 0 (digs f (Z.to_nat q) (round_up f y q))) (e - q + 1) X.
Proof.
  intros HX He (Iy & _ & R & Lo & Up) Hq Iv Bv A. destruct (PU_facts f c Hf Hl) as [PB PU]. destruct (digs_ok f c Hf Hl (Z.to_nat q) _ _ Iv (proj1 Bv) (proj2 Bv)) as [_ [_ D]]. destruct (D 0) as [Z' [BZ NZ]]. rewrite Z.mul_0_r, Z.mul_0_l, Z.add_0_l, Z2Nat.id in NZ by lia.
  assert (YB : 18 * U <= 151 * Y).
  { apply Z.mul_le_mono_pos_l with P; [lia|]. assert (P * U - 60 * U <= P * Y) by (rewrite <- Z.mul_sub_distr_r; exact Lo). assert (16777216 * U <= P * U) by (apply Z.mul_le_mono_nonneg_r; lia). lia. }
  intros K HK HKk. pose proof (t10pos q ltac:(lia)) as Tq. pose proof (digits_plain P U Y V _ Z' (10 ^ q) ltac:(lia) PU ltac:(lia) A NZ BZ) as DP. clear A NZ D. apply (acc_from P U _ X Y e q 1 18); try assumption; lia.
Qed.
Lemma carry_ok X y Y e q0 q V v W : 0 < X -> Z.abs e <= 330 -> normalized f c X y Y e -> 0 <= q0 -> 0 < q <= 600 -> q <= q0 + 1 -> isv f c v V -> 10 * U <= V -> P * Z.abs (V * 10 ^ q0 - (Y * 10 ^ q0 + 5 * U)) <= 17 * (U * 10 ^ q0) ->
  isv f c (fdiv f v (ten f)) W -> 0 <= W < 10 * U -> P * Z.abs (W * 10 - V) <= 48 * U ->
  accurate (follow 0 (digs f (Z.to_nat q) (fdiv f v (ten f)))) (e + 1 - q + 1) X.
Proof.
  intros HX He (Iy & _ & R & Lo & Up) Hq0 Hq HQ Iv Bv A Iw Bw D1. destruct (PU_facts f c Hf Hl) as [PB PU]. destruct (digs_ok f c Hf Hl (Z.to_nat q) _ _ Iw (proj1 Bw) (proj2 Bw)) as [_ [_ D]]. destruct (D 0) as [Z' [BZ NZ]]. rewrite Z.mul_0_r, Z.mul_0_l, Z.add_0_l, Z2Nat.id in NZ by lia.
  pose proof (t10pos q0 Hq0) as T0. pose proof (t10pos q ltac:(lia)) as Tq.
  pose proof (div_above f c Hf Hl v V W Iv Bv Iw) as WU. pose proof (digs_lower f c Hf Hl (Z.to_nat (q - 1)) _ _ Iw WU (proj2 Bw)) as DL. replace (S (Z.to_nat (q - 1))) with (Z.to_nat q) in DL by (clear - Hq; lia). rewrite Z2Nat.id in DL by lia.
  assert (TT : 10 ^ q <= 10 * 10 ^ q0) by (rewrite <- Z.pow_succ_r by lia; apply Z.pow_le_mono_r; lia).
  assert (T1 : 10 ^ q = 10 * 10 ^ (q - 1)) by (rewrite <- Z.pow_succ_r by lia; f_equal; lia).
  assert (YB : 4 * U <= Y).
  { apply Z.nlt_ge. intros N. assert (G : P * (U * 10 ^ q0) <= P * Z.abs (V * 10 ^ q0 - (Y * 10 ^ q0 + 5 * U))).
    { apply Z.mul_le_mono_nonneg_l; [lia|]. assert (10 * U * 10 ^ q0 <= V * 10 ^ q0) by (apply Z.mul_le_mono_nonneg_r; lia). assert (Y * 10 ^ q0 <= 4 * U * 10 ^ q0) by (apply Z.mul_le_mono_nonneg_r; lia).
      assert (U * 1 <= U * 10 ^ q0) by (apply Z.mul_le_mono_nonneg_l; lia). lia. }
    pose proof (Z.mul_pos_pos U (10 ^ q0) PU T0) as G0. assert (18 * (U * 10 ^ q0) <= P * (U * 10 ^ q0)) by (apply Z.mul_le_mono_nonneg_r; lia). lia. }
  intros K HK HKk. replace (e + 1 - q + 1) with (e - q + 2) in * by lia. pose proof (digits_carry P U Y V W _ Z' (10 ^ q) (10 ^ q0) ltac:(lia) PU ltac:(lia) ltac:(lia) TT A D1 NZ (proj1 BZ) ltac:(lia) Up) as DP. clear A NZ D D1. apply (acc_from P U _ X Y e q 2 600); try assumption; lia.
Qed.
End Value.
