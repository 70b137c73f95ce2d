(** The text of a number. *)
From Verif Require Import Base Flt_Model Flt_Spec Flt_Proofs Flt_Proofs2 Ftx_Model Ftx_Spec Ftx_Proofs Ftx_Proofs2 Ftx_Proofs3 Ftx_Proofs6 Fpr_Model Fpr_Spec Fpr_Proofs Fpr_Proofs2 Fpr_Proofs3 Fpr_Proofs4 Fpr_Proofs5 Fpr_Proofs6 Fpr_Proofs7 Fpr_Proofs8.
From Verif Require Fmt_Model.
From Coq Require Import Lia ZArith Bool List.
Import ListNotations.
Open Scope Z_scope.

Lemma digits_app a b : digits a -> digits b -> digits (a ++ b).
Proof. intros. apply Forall_app. auto. Qed.
Lemma digits_firstn k a : digits a -> digits (firstn k a).
Proof. intros H. rewrite <- (firstn_skipn k a) in H. apply Forall_app in H. apply H. Qed.
Lemma digits_skipn k a : digits a -> digits (skipn k a).
Proof. intros H. rewrite <- (firstn_skipn k a) in H. apply Forall_app in H. apply H. Qed.
Lemma digits_zeros n : digits (zeros n).
Proof. apply Forall_forall. intros c H. apply repeat_spec in H. lia. Qed.
Lemma follow_app n a b : follow n (a ++ b) = follow (follow n a) b.
Proof. apply fold_left_app. Qed.
Lemma follow_zeros k n : follow n (zeros k) = n * 10 ^ Z.of_nat k.
Proof.
  revert n. induction k as [|k IH]; intros n; [cbn; lia|]. change (zeros (S k)) with (48 :: zeros k). rewrite follow_cons, IH, Nat2Z.inj_succ, Z.pow_succ_r by lia. ring.
Qed.

Section Text.
Variables (f : fmt) (c : Z).
Hypotheses (Hf : is_format f) (Hl : low f c).
Local Notation P := (2 ^ prec f).
Local Notation U := (2 ^ (- c)).
Variables (y : fl) (Y : Z).
Hypotheses (Iy : isv f c y Y) (By : 0 <= Y < 10 * U).
Definition shown_as (s : bool) (n E q : Z) : shown := Shown s (fixed_int f (part_r n E) (Z.to_nat q) y) (fixed_dec f (part_r n E) (Z.to_nat q) y) (part_k n E) (part_s n E).
Variables (r q : Z).
Hypothesis (Hq : 0 < q).
Let ds := digs f (Z.to_nat q) y.
Lemma ds_len : Z.of_nat (length ds) = q.
Proof. unfold ds. rewrite (proj1 (digs_ok f c Hf Hl _ y Y Iy (proj1 By) (proj2 By))). lia. Qed.
Lemma ds_digits : digits ds.
Proof. apply (digs_ok f c Hf Hl _ y Y Iy (proj1 By) (proj2 By)). Qed.
Lemma int_len : Z.of_nat (length (fixed_int f r (Z.to_nat q) y)) = if r <? 0 then 1 else r + 1.
Proof.
  unfold fixed_int. destruct (Z.ltb_spec r 0); [reflexivity|]. pose proof ds_len as L. fold ds. unfold zeros. rewrite app_length, firstn_length, repeat_length. lia.
Qed.
Lemma dec_len : Z.of_nat (length (match fixed_dec f r (Z.to_nat q) y with Some d => d | None => [] end)) = if r <? 0 then q - (r + 1) else Z.max 0 (q - (r + 1)).
Proof.
  unfold fixed_dec. pose proof ds_len as L. fold ds. destruct (Z.ltb_spec r 0).
  - unfold zeros. rewrite app_length, repeat_length. lia.
  - destruct (Nat.ltb_spec (Z.to_nat (r + 1)) (Z.to_nat q)); [rewrite skipn_length; lia|cbn [length]; lia].
Qed.
Lemma dec_none : fixed_dec f r (Z.to_nat q) y = None -> 0 <= r /\ q <= r + 1.
Proof. unfold fixed_dec. destruct (Z.ltb_spec r 0); [discriminate|]. destruct (Nat.ltb_spec (Z.to_nat (r + 1)) (Z.to_nat q)); [discriminate|]. lia. Qed.
Lemma dec_some d : fixed_dec f r (Z.to_nat q) y = Some d -> digits d /\ d <> [] /\ (r < 0 \/ r + 1 < q).
Proof.
  unfold fixed_dec. pose proof ds_len as L. pose proof ds_digits as D. fold ds. destruct (Z.ltb_spec r 0).
  - intros A. injection A as <-. split; [apply digits_app; [apply digits_zeros|exact D]|]. split; [|lia]. intros A. apply app_eq_nil in A. destruct A as [_ A]. rewrite A in L. cbn in L. lia.
  - destruct (Nat.ltb_spec (Z.to_nat (r + 1)) (Z.to_nat q)); [|discriminate]. intros A. injection A as <-. split; [apply digits_skipn, D|]. split; [|lia]. intros A. apply (f_equal (@length Z)) in A. rewrite skipn_length in A. cbn [length] in A. lia.
Qed.
Lemma int_digits : digits (fixed_int f r (Z.to_nat q) y).
Proof. unfold fixed_int. destruct (r <? 0); [repeat constructor; lia|]. apply digits_app; [apply digits_firstn, ds_digits|apply digits_zeros]. Qed.
(** the value of the digits *)
Lemma text_number : number (fixed_int f r (Z.to_nat q) y ++ match fixed_dec f r (Z.to_nat q) y with Some d => d | None => [] end) = follow 0 ds * 10 ^ (if r <? 0 then 0 else Z.max 0 (r + 1 - q)).
Proof.
  rewrite number_follow by (apply digits_app; [apply int_digits|destruct (fixed_dec f r (Z.to_nat q) y) as [d|] eqn:E; [apply (dec_some d E)|constructor]]).
  unfold fixed_int, fixed_dec. pose proof ds_len as L. fold ds. destruct (Z.ltb_spec r 0) as [R|R].
  - rewrite app_assoc, follow_app. change ([48] ++ zeros (Z.to_nat (- (r + 1)))) with (zeros (S (Z.to_nat (- (r + 1))))). rewrite follow_zeros. change (10 ^ 0) with 1. rewrite Z.mul_0_l, Z.mul_1_r. reflexivity.
  - destruct (Nat.ltb_spec (Z.to_nat (r + 1)) (Z.to_nat q)) as [Q|Q].
    + replace (Z.to_nat (r + 1) - Z.to_nat q)%nat with 0%nat by lia. cbn [zeros repeat]. rewrite app_nil_r, firstn_skipn. rewrite Z.max_l by lia. change (10 ^ 0) with 1. lia.
    + rewrite app_nil_r. rewrite firstn_all2 by lia. rewrite follow_app, follow_zeros. rewrite Z.max_r by lia. do 2 f_equal. lia.
Qed.
End Text.

Section Number.
Variables (f : fmt).
Hypotheses (Hf : is_format f).
Variable c : Z.
Hypothesis Hl : low f c.
Local Notation P := (2 ^ prec f).
Local Notation U := (2 ^ (- c)).

Lemma unit_cancel m e X : emin f <= e -> X = at_unit c (Z.abs m) e -> exists g, 0 < g /\ X = Z.abs (num m e) * g /\ U = den e * g.
Proof.
  intros He ->. destruct (low_facts f c Hf Hl) as [L1 [L2 [L3 [L4 L5]]]]. exists (2 ^ (Z.min e 0 - c)). split; [apply p2pos; lia|]. unfold num, den, at_unit. rewrite Z.abs_mul, (Z.abs_eq (2 ^ _)) by (apply Z.pow_nonneg; lia).
  rewrite <- Z.mul_assoc, <- !p2add by lia. split; f_equal; try f_equal; lia.
Qed.
Lemma acc_cancel PP a b g N k w K : 0 < g -> acc_at PP (b * g) N k (a * g) w K -> 2 * PP * Z.abs (N * 10 ^ (K + k) * b - a * 10 ^ K) <= PP * (10 ^ (K + k) * b) + 2 * w * (a * 10 ^ K).
Proof.
  intros Hg A. unfold acc_at in A. apply Z.mul_le_mono_pos_r with g; [exact Hg|]. rewrite <- (Z.mul_assoc (2 * PP)), abs_mul_r by lia.
  replace ((N * 10 ^ (K + k) * b - a * 10 ^ K) * g) with (N * 10 ^ (K + k) * (b * g) - a * g * 10 ^ K) by ring. replace ((PP * (10 ^ (K + k) * b) + 2 * w * (a * 10 ^ K)) * g) with (PP * (10 ^ (K + k) * (b * g)) + 2 * w * (a * g * 10 ^ K)) by ring. exact A.
Qed.

(** everything about a number that is shown *)
Lemma shown_ok n m e s p y Y E q X : In n notations -> emin f <= e -> X = at_unit c (Z.abs m) e -> isv f c y Y -> 0 <= Y < 10 * U -> 0 < q <= 600 -> Z.abs E <= 331 -> 0 <= p ->
  accurate f c (follow 0 (digs f (Z.to_nat q) y)) (E - q + 1) X -> (n = 0 -> 0 <= E -> E + 1 <= q) -> (n <> 0 -> 0 <= part_r n E -> Z.min (part_r n E + 1) p <= q) ->
  let v := shown_as f y s n E q in
  shape n v /\ to_notation f n y E q = Some (s_int v ++ match s_dec v with Some ds => 46 :: ds | None => [] end ++ s_suffix v, true)
  /\ Z.of_nat (length (s_text v)) = sg s + len_fixed (part_r n E) q + Z.of_nat (length (part_s n E))
  /\ rounded (number (s_int v ++ s_decimals v)) (s_power v - digits_after v) (Z.abs (num m e)) (den e) (last_digit n p v) 250 (prec f)
  /\ ((q = if n =? 0 then E + 1 + p else p) -> all_digits n p v).
Proof.
  intros Hn He HX Iy By Hq HE Hp Acc M0 M1 v. destruct (part_suffix n E Hn ltac:(lia)) as (PE & PR & PL & PS).
  pose proof (int_len f c Hf Hl y Y Iy By (part_r n E) q ltac:(lia)) as IL. pose proof (dec_len f c Hf Hl y Y Iy By (part_r n E) q ltac:(lia)) as DL.
  assert (P01 : n = 0 \/ n = 1 -> part_r n E = E). { intros [-> | ->]; unfold part_r, part; destruct (to_engineering E); reflexivity. }
  split; [|split; [|split; [|split]]].
  - unfold shape, digits_before. unfold v, shown_as. cbn [s_int s_dec s_power s_suffix]. rewrite IL. split; [apply (int_digits f c Hf Hl y Y Iy By); lia|].
    split; [intros A; rewrite A in IL; cbn in IL; destruct (Z.ltb_spec (part_r n E) 0); lia|]. split.
    + intros d A. destruct (dec_some f c Hf Hl y Y Iy By _ q ltac:(lia) d A) as [B1 [B2 _]]. auto.
    + clear - Hn PR PS. cbn [In notations] in Hn. destruct Hn as [<-|[<-|[<-|[<-|[<-|[<-|[]]]]]]].
      * exact PS.
      * exact PS.
      * destruct PS as [P1 P2]. split; [rewrite P1; reflexivity|exact P2].
      * destruct PS as [P1 P2]. specialize (PR ltac:(lia) ltac:(lia)). split; [destruct (part_r 3 E <? 0); lia|]. split; [exact P1|exact P2].
      * destruct PS as [P1 P2]. specialize (PR ltac:(lia) ltac:(lia)). split; [destruct (part_r 6 E <? 0); lia|]. split; [exact P1|exact P2].
      * specialize (PR ltac:(lia) ltac:(lia)). split; [destruct (part_r 7 E <? 0); lia|]. destruct PS as [P1|[P1 P2]]; [left; exact P1|right]. split; [rewrite P1; reflexivity|exact P2].
  - rewrite (to_notation_eq f n y E q Hn). rewrite (to_fixed_eq f c Hf Hl y Y _ q Iy (proj1 By) (proj2 By)) by lia. cbn [followed]. rewrite <- app_assoc. reflexivity.
  - unfold s_text. rewrite !app_length. unfold v, shown_as. cbn [s_neg s_int s_dec s_suffix]. unfold len_fixed, sg. pose proof (dec_none f c y (part_r n E) q) as DN. pose proof (dec_some f c Hf Hl y Y Iy By (part_r n E) q ltac:(lia)) as DS.
    destruct (fixed_dec f (part_r n E) (Z.to_nat q) y) as [d|]; [destruct (DS d eq_refl) as [_ [_ DD]]|specialize (DN ltac:(lia) eq_refl)]; cbn [length] in *; [clear - DL IL Hq DD|clear - DL IL Hq DN]; destruct s; cbn [length]; cmp; lia.
  - unfold rounded. cbv zeta. unfold last_digit, digits_after, s_decimals, digits_before. unfold v, shown_as. cbn [s_int s_dec s_power].
    rewrite (text_number f c Hf Hl y Y Iy By (part_r n E) q ltac:(lia)). set (N := follow 0 (digs f (Z.to_nat q) y)) in *. rewrite DL, IL.
    set (j := if part_r n E <? 0 then 0 else Z.max 0 (part_r n E + 1 - q)). set (k := part_k n E - (if part_r n E <? 0 then q - (part_r n E + 1) else Z.max 0 (q - (part_r n E + 1)))).
    set (u := match fixed_dec f (part_r n E) (Z.to_nat q) y with Some _ => k | None => _ end).
    assert (KJ : k + j = E - q + 1 /\ 0 <= j) by (clear - PE Hq k j; unfold k, j; generalize dependent (part_r n E); intros r0; intros; cmp; lia). destruct KJ as [KJ J0].
    assert (KU : E - q + 1 <= u).
    { unfold u. pose proof (dec_none f c y (part_r n E) q ltac:(lia)) as DN. pose proof (dec_some f c Hf Hl y Y Iy By (part_r n E) q ltac:(lia)) as DS. destruct (fixed_dec f (part_r n E) (Z.to_nat q) y) as [d|].
      - destruct (DS d eq_refl) as [_ [_ DD]]. assert (J1 : j = 0) by (clear - DD j; unfold j; cmp; lia). clear - J1 KJ. lia.
      - specialize (DN eq_refl). destruct (Z.eqb_spec n 0) as [n0|n0].
        + specialize (P01 (or_introl n0)). specialize (M0 n0). lia.
        + specialize (M1 n0 ltac:(lia)). destruct (Z.ltb_spec (part_r n E) 0); lia. }
    set (K := Z.max 0 (- k) + Z.max 0 (- u)). assert (KF : 0 <= K /\ 0 <= K + k /\ 0 <= K + u /\ 0 <= K + (E - q + 1)) by (clear - KU KJ J0 K; unfold K; clearbody u k j; lia). clearbody K. clearbody u. clearbody k. clearbody j. destruct KF as [K0 [K1 [K2 K3]]]. clear DL IL PS M0 M1 P01 PR. destruct (unit_cancel m e X He HX) as [g [Hg [EX EU]]].
    pose proof (Acc K K0 K3) as A. clear Acc. rewrite EX, EU in A. apply (acc_cancel _ _ _ g) in A; [|exact Hg].
    replace (N * 10 ^ j * 10 ^ (K + k)) with (N * 10 ^ (K + (E - q + 1))) by (rewrite <- Z.mul_assoc, <- t10 by assumption; do 2 f_equal; clear - KJ; lia). clear EX EU.
    apply (Z.le_trans _ _ _ A). apply Z.add_le_mono_r. rewrite <- Z.mul_assoc. clear A. assert (D0 : 0 < den e) by (apply p2pos; clear; lia). assert (P0 : 0 < P) by (apply p2pos; destruct (format_emax f Hf) as [F1 [F2 F3]]; clear - F1 F2 F3; lia).
    apply Z.mul_le_mono_nonneg_l; [clear - P0; lia|]. apply Z.mul_le_mono_nonneg_r; [clear - D0; lia|]. apply Z.pow_le_mono_r; [lia|clear - KU; lia].
  - intros HQ. unfold all_digits, digits_after, digits_before, s_decimals. unfold v, shown_as. cbn [s_int s_dec]. rewrite DL, IL. destruct (Z.eqb_spec n 0) as [n0|n0].
    + specialize (P01 (or_introl n0)). rewrite P01 in *. cmp; lia.
    + destruct (Z.ltb_spec (part_r n E) 0) as [R|R]; [|left; lia]. right. assert (n1 : n = 1) by (destruct (Z.eq_dec n 1) as [n1|n1]; [exact n1|specialize (PR n0 n1); lia]). split; [exact n1|].
      unfold fixed_int, fixed_dec. destruct (Z.ltb_spec (part_r n E) 0); [|lia]. split; [reflexivity|]. exists (Z.to_nat (- (part_r n E + 1))), (digs f (Z.to_nat q) y). split; [reflexivity|]. rewrite (ds_len f c Hf Hl y Y Iy By q ltac:(lia)). exact HQ.
Qed.
End Number.
