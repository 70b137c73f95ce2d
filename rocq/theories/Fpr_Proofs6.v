(** What is chosen: the number, its exponent and its precision. *)
From Verif Require Import Base Flt_Model Flt_Spec Flt_Proofs Flt_Proofs2 Ftx_Model Ftx_Spec Ftx_Proofs Ftx_Proofs2 Ftx_Proofs3 Ftx_Proofs6 Fpr_Model Fpr_Spec Fpr_Proofs Fpr_Proofs2 Fpr_Proofs3 Fpr_Proofs4 Fpr_Proofs5.
From Coq Require Import Lia ZArith Bool List.
Import ListNotations.
Open Scope Z_scope.

Section Choose.
Variables (f : fmt) (c : Z).
Hypotheses (Hf : is_format f) (Hl : low f c).
Local Notation P := (2 ^ prec f).
Local Notation U := (2 ^ (- c)).

Lemma div_above x X V : isv f c x X -> 10 * U <= X -> isv f c (fdiv f x (ten f)) V -> U <= V.
Proof.
  intros [m [e [-> [F W]]]] HX. destruct (low_facts f c Hf Hl) as [L1 [L2 [L3 [L4 L5]]]]. destruct (format_emax f Hf) as [P1 [P2 P3]].
  pose proof F as [F1 [F2 F3]].
  rewrite (ten_eq f Hf). cbn [fdiv]. change (10 =? 0) with false. cbv iota. change (Z.sgn 10) with 1. change (Z.abs 10) with 10. rewrite Z.mul_1_l, Z.sub_0_r.
  unfold rnd_q. cbv zeta. set (s := Z.max 0 (prec f + 2 + bits 10 - bits m)). set (M := 2 * (m * 2 ^ s / 10) + (if (m * 2 ^ s) mod 10 =? 0 then 0 else 1)). intros Iv.
  assert (Hs : 0 <= s <= prec f + 6) by (unfold s; change (bits 10) with 4; pose proof (bits_nonneg m); lia).
  assert (Hc : c <= e - s - 1).
  { unfold low in Hl. destruct Hf as [->| ->]; unfold emin in *; cbn [prec emax binary32 binary64] in *; lia. }
  apply (rnd_above f c M (e - s - 1) one U V Hf Hl Hc (one_isv f c Hf)); [|exact Iv].
  pose proof (p2pos (e - s - 1 - c) ltac:(lia)) as Pq.
  assert (X2 : X = 2 * (m * 2 ^ s) * 2 ^ (e - s - 1 - c)).
  { rewrite <- W. unfold at_unit. replace (e - c) with (1 + s + (e - s - 1 - c)) by lia. rewrite !p2add by lia. change (2 ^ 1) with 2. ring. }
  unfold at_unit. set (A := m * 2 ^ s) in *. pose proof (Z.div_mod A 10 ltac:(lia)) as D. pose proof (Z.mod_pos_bound A 10 ltac:(lia)) as R.
  pose proof (p2pos (- c) ltac:(lia)) as PU.
  assert (A0 : 0 < A). { apply Z.lt_nge. intros N. assert (2 * A * 2 ^ (e - s - 1 - c) <= 0) by (apply Z.mul_nonpos_nonneg; lia). lia. }
  destruct (Z.le_gt_cases 0 (1 + s - e)) as [T|T].
  - set (Q := 2 ^ (e - s - 1 - c)) in *. assert (UQ : U = 2 ^ (1 + s - e) * Q) by (unfold Q; rewrite <- p2add by lia; f_equal; lia). rewrite UQ in *. apply Z.mul_le_mono_nonneg_r; [lia|].
    assert (B : 5 * 2 ^ (1 + s - e) <= A). { apply Z.mul_le_mono_pos_r with (2 * Q); [lia|]. rewrite X2 in HX. replace (5 * 2 ^ (1 + s - e) * (2 * Q)) with (10 * (2 ^ (1 + s - e) * Q)) by ring. replace (A * (2 * Q)) with (2 * A * Q) by ring. exact HX. }
    destruct (Z.eq_dec (1 + s - e) 0) as [T0|T0].
    + rewrite T0 in *. change (2 ^ 0) with 1 in *. unfold M. destruct (Z.eqb_spec (A mod 10) 0); lia.
    + assert (E : 2 ^ (1 + s - e) = 2 * 2 ^ (s - e)) by (replace (1 + s - e) with (1 + (s - e)) by lia; rewrite p2add by lia; reflexivity). rewrite E in *. unfold M. assert (2 ^ (s - e) <= A / 10) by (apply Z.div_le_lower_bound; lia). destruct (Z.eqb_spec (A mod 10) 0); lia.
  - assert (U <= 2 ^ (e - s - 1 - c)) by (apply p2le; lia). assert (1 <= M) by (unfold M; destruct (Z.eqb_spec (A mod 10) 0); lia).
    apply Z.le_trans with (1 * 2 ^ (e - s - 1 - c)); [lia|apply Z.mul_le_mono_nonneg_r; lia].
Qed.
(** ** The exponent *)
Lemma exponent_bound x X y Y e : isv f c x X -> 0 < X -> normalized f c X y Y e -> Z.abs e <= 330.
Proof.
  intros [m [e0 [-> [[Fm [Fe Fb]] W]]]] HX (Iy & He & R & Lo & Up). destruct (PU_facts f c Hf Hl) as [PB PU]. destruct (low_facts f c Hf Hl) as [L1 [L2 [L3 [L4 L5]]]].
  pose proof (p2pos (e0 - c) ltac:(lia)) as Pe. assert (M0 : 0 < m) by (unfold at_unit in W; nia).
  assert (YB : U <= 2 * Y <= 22 * U).
  { split; apply Z.mul_le_mono_pos_l with P; try lia.
    - assert (P * U - 60 * U <= P * Y) by (rewrite <- Z.mul_sub_distr_r; exact Lo). assert (16777216 * U <= P * U) by (apply Z.mul_le_mono_nonneg_r; lia). lia.
    - assert (P * Y <= P * (10 * U) + 60 * (10 * U)) by (rewrite <- Z.mul_add_distr_r; exact Up). assert (16777216 * U <= P * U) by (apply Z.mul_le_mono_nonneg_r; lia). lia. }
  destruct (Z.le_gt_cases e 0) as [E|E].
  - rewrite (Z.max_l 0 e) in R by lia. rewrite (Z.max_r 0 (- e)) in R by lia. change (10 ^ 0) with 1 in R. rewrite Z.mul_1_r in R. set (n := - e) in *.
    assert (H : X * 10 ^ n <= 2 * Y) by (apply (rel_half P 60); [lia|lia|apply Z.mul_nonneg_nonneg; [lia|apply Z.pow_nonneg; lia]|exact R]).
    destruct (Z.le_gt_cases n 330) as [K|K]; [lia|exfalso].
    assert (X1 : 2 ^ (emin f - c) <= X). { rewrite <- W. unfold at_unit. apply Z.le_trans with (1 * 2 ^ (e0 - c)); [rewrite Z.mul_1_l; apply p2le; lia|apply Z.mul_le_mono_nonneg_r; lia]. }
    assert (T : 22 * 2 ^ (- emin f) < 10 ^ 330) by (destruct Hf as [->| ->]; vm_compute; reflexivity).
    assert (T2 : 10 ^ 330 <= 10 ^ n) by (apply Z.pow_le_mono_r; lia). pose proof (p2pos (emin f - c) ltac:(lia)) as PE.
    assert (UE : U = 2 ^ (- emin f) * 2 ^ (emin f - c)) by (rewrite <- p2add by lia; f_equal; lia).
    assert (G : 2 ^ (emin f - c) * 10 ^ n <= 22 * U) by (apply Z.le_trans with (X * 10 ^ n); [apply Z.mul_le_mono_nonneg_r; [apply Z.pow_nonneg; lia|exact X1]|lia]).
    rewrite UE in G. replace (22 * (2 ^ (- emin f) * 2 ^ (emin f - c))) with (2 ^ (emin f - c) * (22 * 2 ^ (- emin f))) in G by ring. apply Z.mul_le_mono_pos_l in G; lia.
  - rewrite (Z.max_r 0 e) in R by lia. rewrite (Z.max_l 0 (- e)) in R by lia. change (10 ^ 0) with 1 in R. rewrite Z.mul_1_r in R.
    assert (H : Y * 10 ^ e <= 2 * X). { apply Z.mul_le_mono_pos_l with P; [lia|]. apply Z.le_trans with ((P + 60) * X); [apply rel_upper; [lia|exact R]|]. replace (P * (2 * X)) with ((P + P) * X) by ring. apply Z.mul_le_mono_nonneg_r; lia. }
    destruct (Z.le_gt_cases e 330) as [K|K]; [lia|exfalso].
    assert (X1 : X <= 2 ^ emax f * U).
    { destruct Fb as [Fb|Fb]; [lia|]. pose proof (bits_pos m ltac:(lia)) as [_ [_ Hb]]. rewrite Z.abs_eq in Hb by lia. rewrite <- W. unfold at_unit.
      rewrite <- p2add by (destruct Hf as [->| ->]; cbn [emax binary32 binary64]; lia).
      apply Z.le_trans with (2 ^ bits m * 2 ^ (e0 - c)); [apply Z.mul_le_mono_nonneg_r; [apply Z.lt_le_incl, p2pos; lia|lia]|]. rewrite <- p2add by (try apply bits_nonneg; lia). apply p2le. lia. }
    assert (T : 4 * 2 ^ emax f < 10 ^ 330) by (destruct Hf as [->| ->]; vm_compute; reflexivity).
    assert (T2 : 10 ^ 330 <= 10 ^ e) by (apply Z.pow_le_mono_r; lia).
    assert (G : U * 10 ^ e <= U * (4 * 2 ^ emax f)). { apply Z.le_trans with (2 * Y * 10 ^ e); [apply Z.mul_le_mono_nonneg_r; [apply Z.pow_nonneg; lia|lia]|lia]. }
    apply Z.mul_le_mono_pos_l in G; lia.
Qed.
(** ** The digits of a number between one and ten *)
Lemma follow_lower ds : digits ds -> forall n, 0 <= n -> n * 10 ^ Z.of_nat (length ds) <= follow n ds.
Proof.
  induction 1 as [|d r Hd Hr IH]; intros n Hn; [cbn; lia|]. rewrite follow_cons. apply Z.le_trans with ((n * 10 + (d - 48)) * 10 ^ Z.of_nat (length r)); [|apply IH; lia].
  cbn [length]. rewrite Nat2Z.inj_succ, Z.pow_succ_r by lia. rewrite Z.mul_assoc. apply Z.mul_le_mono_nonneg_r; [apply Z.pow_nonneg; lia|lia].
Qed.
Lemma digs_lower k x X : isv f c x X -> U <= X -> X < 10 * U -> 10 ^ Z.of_nat k <= follow 0 (digs f (S k) x).
Proof.
  intros Ix H0 H1. destruct (PU_facts f c Hf Hl) as [PB PU]. destruct (to_int_floor f c Hf Hl x X Ix ltac:(lia) H1) as [E D]. destruct (next_ok f c Hf Hl x X Ix ltac:(lia) H1) as [Y [Iy [[Y0 Y1] _]]].
  cbn [digs]. rewrite E. rewrite follow_cons. destruct (digs_ok f c Hf Hl k _ _ Iy Y0 Y1) as [A [B _]].
  assert (1 <= X / U) by (apply Z.div_le_lower_bound; lia).
  apply Z.le_trans with ((0 * 10 + (48 + X / U - 48)) * 10 ^ Z.of_nat (length (digs f k (next f x (X / U))))); [|apply follow_lower; [exact B|lia]].
  rewrite A. apply Z.le_trans with (1 * 10 ^ Z.of_nat k); [lia|apply Z.mul_le_mono_nonneg_r; [apply Z.pow_nonneg; lia|lia]].
Qed.
End Choose.
