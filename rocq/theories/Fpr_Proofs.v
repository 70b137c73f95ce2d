(** The number between one and ten, and its exponent. *)
From Verif Require Import Base Flt_Model Flt_Spec Flt_Proofs Flt_Proofs2 Ftx_Model Ftx_Spec Ftx_Proofs Ftx_Proofs2 Ftx_Proofs3 Ftx_Proofs4 Ftx_Proofs5 Ftx_Proofs6 Fpr_Model.
From Coq Require Import Lia ZArith Bool List.
Import ListNotations.
Open Scope Z_scope.

(** ** The constants *)
Definition consts (f : fmt) : list Z := (if is_double f then [256; 257; 128; 129; 64; 65] else []) ++ [0; 1; 2; 3; 4; 5; 8; 9; 16; 17; 32; 33].
Definition const_ok (f : fmt) (positive : bool) (s : Z) : bool :=
  match the_step f positive s with
  | Fin m e => (0 <? m) && (m <=? 2 ^ prec f) && (emin f <=? e) && (bits m + e <=? emax f)
      && (2 ^ prec f * Z.abs (m * 2 ^ (e + 1100) * De positive s - Nu positive s * 2 ^ 1100) <=? Nu positive s * 2 ^ 1100)
  | _ => false end.
Lemma const_rel f c positive s : is_format f -> low f c -> In s (consts f) ->
  exists B, isv f c (the_step f positive s) B /\ 0 < B /\ relz (2 ^ prec f) 1 (B * De positive s) (Nu positive s * 2 ^ (- c)).
Proof.
  intros Hf Hl H. destruct (low_facts f c Hf Hl) as [L1 [L2 [L3 [L4 L5]]]].
  assert (Hs : 0 <= s) by (unfold consts in H; destruct (is_double f); cbn in H; lia).
  assert (A : forallb (const_ok f positive) (consts f) = true) by (destruct Hf as [->| ->], positive; vm_compute; reflexivity).
  rewrite forallb_forall in A. specialize (A s H). unfold const_ok in A. destruct (the_step f positive s) as [m e|b|] eqn:E; try discriminate.
  rewrite !andb_true_iff in A. destruct A as [[[[A1 A2] A3] A4] A]. apply Z.ltb_lt in A1. apply Z.leb_le in A2, A3, A4, A.
  assert (R : relz (2 ^ prec f) 1 (m * 2 ^ (e + 1100) * De positive s) (Nu positive s * 2 ^ 1100)) by (unfold relz; rewrite Z.mul_1_l; exact A).
  assert (Em : - 1080 <= e) by (destruct Hf as [->| ->]; unfold emin in *; cbn [prec emax binary32 binary64] in *; lia).
  assert (C : c <= -1100) by (unfold low in Hl; destruct Hf as [->| ->]; unfold emin in *; cbn [prec emax binary32 binary64] in *; lia).
  exists (at_unit c m e). split; [apply isv_fin_mk; repeat split; [lia|lia|right; lia]|]. split; [unfold at_unit; apply Z.mul_pos_pos; [lia|apply p2pos; lia]|].
  apply (rel_scale _ _ _ _ (2 ^ (- c - 1100)) ltac:(apply Z.lt_le_incl, p2pos; lia)) in R.
  replace (m * 2 ^ (e + 1100) * De positive s * 2 ^ (- c - 1100)) with (at_unit c m e * De positive s) in R; [|].
  - replace (Nu positive s * 2 ^ 1100 * 2 ^ (- c - 1100)) with (Nu positive s * 2 ^ (- c)) in R; [exact R|].
    rewrite <- Z.mul_assoc, <- p2add by lia. do 2 f_equal. lia.
  - unfold at_unit. replace (m * 2 ^ (e + 1100) * De positive s * 2 ^ (- c - 1100)) with (m * (2 ^ (e + 1100) * 2 ^ (- c - 1100)) * De positive s) by ring.
    rewrite <- p2add by lia. do 3 f_equal. lia.
Qed.

(** ** Comparisons and products *)
Lemma fge_isv f c x y X Y : is_format f -> low f c -> isv f c x X -> isv f c y Y -> fge x y = (Y <=? X).
Proof.
  intros Hf Hl [m [e [-> [[_ [F1 _]] V]]]] [m' [e' [-> [[_ [F2 _]] V']]]]. destruct (low_facts f c Hf Hl) as [L1 _]. cbn [fge]. unfold cmp.
  set (k := Z.min e e'). assert (0 < 2 ^ (k - c)) by (apply p2pos; unfold k; lia).
  assert (X = m * 2 ^ (e - k) * 2 ^ (k - c)) by (rewrite <- V; unfold at_unit; rewrite <- Z.mul_assoc, <- p2add by (unfold k; lia); do 2 f_equal; lia).
  assert (Y = m' * 2 ^ (e' - k) * 2 ^ (k - c)) by (rewrite <- V'; unfold at_unit; rewrite <- Z.mul_assoc, <- p2add by (unfold k; lia); do 2 f_equal; lia).
  rewrite H0, H1. clear V V' H0 H1. set (a := m * 2 ^ (e - k)) in *. set (b := m' * 2 ^ (e' - k)) in *. clearbody a b.
  assert (Q : b * 2 ^ (k - c) <= a * 2 ^ (k - c) <-> b <= a) by (symmetry; apply Z.mul_le_mono_pos_r; assumption).
  destruct (Z.leb_spec (b * 2 ^ (k - c)) (a * 2 ^ (k - c))) as [Z1|Z1].
  - apply Q in Z1. destruct (Z.compare_spec a b); [reflexivity|lia|reflexivity].
  - destruct (Z.compare_spec a b) as [Z2|Z2|Z2]; [|reflexivity|]; exfalso; assert (Z3 : b <= a) by lia; apply Q in Z3; exact (Zlt_not_le _ _ Z1 Z3).
Qed.
Lemma fgt_isv f c x y X Y : is_format f -> low f c -> isv f c x X -> isv f c y Y -> fgt x y = (Y <? X).
Proof.
  intros Hf Hl Hx Hy. unfold fgt. rewrite (fge_isv f c x y X Y), (fge_isv f c y x Y X) by assumption. destruct (Z.leb_spec Y X), (Z.leb_spec X Y), (Z.ltb_spec Y X); cbn; try reflexivity; lia.
Qed.
Lemma one_isv f c : is_format f -> isv f c one (2 ^ (- c)).
Proof. intros Hf. unfold one. rewrite <- (Z.mul_1_l (2 ^ _)). apply int_isv; [exact Hf|]. pose proof (P_big f Hf). change (2 ^ 24) with 16777216 in H. lia. Qed.
Lemma tenc_isv f c : is_format f -> isv f c (ten f) (10 * 2 ^ (- c)).
Proof. intros Hf. rewrite ten_eq by exact Hf. apply int_isv; [exact Hf|]. pose proof (P_big f Hf). change (2 ^ 24) with 16777216 in H. lia. Qed.

Lemma rel_upper P w A B : 0 < P -> relz P w A B -> P * A <= (P + w) * B.
Proof. unfold relz. intros HP H. assert (A - B <= Z.abs (A - B)) by lia. assert (P * (A - B) <= P * Z.abs (A - B)) by (apply Z.mul_le_mono_nonneg_l; lia). lia. Qed.
Lemma rel_lower P w A B : 0 < P -> relz P w A B -> (P - w) * B <= P * A.
Proof. unfold relz. intros HP H. assert (B - A <= Z.abs (A - B)) by lia. assert (P * (B - A) <= P * Z.abs (A - B)) by (apply Z.mul_le_mono_nonneg_l; lia). lia. Qed.

(** a product with a constant *)
Lemma mul_const f c positive s x X y Y : is_format f -> low f c -> In s (consts f) -> isv f c x X -> 0 <= X -> isv f c y Y ->
  2 * norm f c * De positive s <= X * Nu positive s -> 2 * (X * Nu positive s) <= De positive s * Y ->
  exists v, isv f c (fmul f x (the_step f positive s)) v /\ relz (2 ^ prec f) 3 (v * De positive s) (X * Nu positive s).
Proof.
  intros Hf Hl Hs Ix HX Iy Hn HY. destruct (low_facts f c Hf Hl) as [L1 [L2 [L3 [L4 L5]]]]. pose proof (P_big f Hf) as PB. change (2 ^ 24) with 16777216 in PB. set (P := 2 ^ prec f) in *.
  pose proof (p2pos (- c) ltac:(lia)) as PU. set (U := 2 ^ (- c)) in *.
  assert (Hs0 : 0 <= s) by (unfold consts in Hs; destruct (is_double f); cbn in Hs; lia).
  pose proof (De_pos positive s Hs0) as HD. pose proof (Nu_pos positive s Hs0) as HN. set (D := De positive s) in *. set (N := Nu positive s) in *.
  destruct (const_rel f c positive s Hf Hl Hs) as [B [IB [HB RB]]]. fold P D N U in RB.
  destruct (fmul_exact f c x _ X B Hf Hl Ix IB) as [m [e [E [Hc V]]]]. fold U in V. set (W := at_unit c m e) in *.
  assert (R1 : relz P 1 (W * D) (X * N)).
  { apply (rel_cancel P 1 _ _ U PU). replace (W * D * U) with (B * D * X) by (replace (B * D * X) with (X * B * D) by ring; rewrite <- V; ring).
    replace (X * N * U) with (N * U * X) by ring. apply rel_scale; assumption. }
  assert (XN : 0 <= X * N) by (apply Z.mul_nonneg_nonneg; lia).
  pose proof (rel_half P 1 _ _ ltac:(lia) ltac:(lia) XN R1) as H2. pose proof (rel_upper P 1 _ _ ltac:(lia) R1) as H3.
  assert (W1 : norm f c <= W) by (apply (Z.mul_le_mono_pos_r _ _ D ltac:(lia)); lia).
  assert (H4 : W * D <= 2 * (X * N)).
  { apply (Z.mul_le_mono_pos_l _ _ P ltac:(lia)). apply Z.le_trans with ((P + 1) * (X * N)); [exact H3|]. replace (P * (2 * (X * N))) with ((2 * P) * (X * N)) by ring. apply Z.mul_le_mono_nonneg_r; lia. }
  assert (W2 : W <= Y) by (apply (Z.mul_le_mono_pos_r _ _ D ltac:(lia)); lia).
  pose proof (p2pos (emin f + prec f - c)) as PN. fold (norm f c) in PN. destruct (format_emax f Hf) as [P1 [P2 P3]]. specialize (PN ltac:(lia)).
  destruct (rnd_isv f c m e y Y Hf Hl Hc Iy) as [v [Iv _]]; [fold W; lia|]. exists v. rewrite E. split; [exact Iv|].
  pose proof (rnd_rel f c m e v Hf Hl Hc Iv W1) as R2. fold P W in R2. change 3 with (1 + 1 + 1). apply (rel_trans P 1 1 (v * D) (W * D) (X * N)); try lia; [exact R1|].
  apply rel_scale; [lia|exact R2].
Qed.

(** ** The steps *)
Inductive halving : Z -> list Z -> Prop :=
| h_nil : halving 1 []
| h_cons s r : 1 <= s -> halving s r -> halving (2 * s) (s :: r).
Lemma halving_pos t ss : halving t ss -> 1 <= t.
Proof. induction 1; lia. Qed.
Definition top (f : fmt) : Z := if is_double f then 512 else 64.
Lemma all_halving f : is_format f -> halving (top f) (all_steps f).
Proof.
  assert (H : halving 64 [32; 16; 8; 4; 2; 1]) by (do 6 (match goal with |- halving ?t _ => let u := eval compute in (t / 2) in change t with (2 * u) end; apply h_cons; [lia|]); apply h_nil).
  intros [->| ->]; unfold top, all_steps, steps; cbn [is_double prec binary32 binary64 Z.ltb Z.compare Pos.compare Pos.compare_cont app].
  - exact H.
  - do 3 (match goal with |- halving ?t _ => let u := eval compute in (t / 2) in change t with (2 * u) end; apply h_cons; [lia|]). exact H.
Qed.
Lemma norm_small f c s : is_format f -> low f c -> In s (consts f) -> 16 * norm f c * 10 ^ s <= 2 ^ (- c).
Proof.
  intros Hf Hl Hs. destruct (low_facts f c Hf Hl) as [L1 [L2 [L3 [L4 L5]]]]. destruct (format_emax f Hf) as [P1 [P2 P3]].
  assert (A : forallb (fun s => 16 * 10 ^ s <=? 2 ^ (emax f - 3)) (consts f) = true) by (destruct Hf as [->| ->]; vm_compute; reflexivity).
  rewrite forallb_forall in A. specialize (A s Hs). apply Z.leb_le in A. unfold norm. replace (2 ^ (- c)) with (2 ^ (emax f - 3) * 2 ^ (emin f + prec f - c)).
  - replace (16 * 2 ^ (emin f + prec f - c) * 10 ^ s) with (16 * 10 ^ s * 2 ^ (emin f + prec f - c)) by ring. apply Z.mul_le_mono_nonneg_r; [apply Z.lt_le_incl, p2pos; lia|exact A].
  - rewrite <- p2add by lia. f_equal. unfold emin. lia.
Qed.
Lemma steps_consts f s : is_format f -> In s (all_steps f) -> In s (consts f) /\ In (s + 1) (consts f) /\ 1 <= s.
Proof.
  intros [->| ->]; unfold all_steps, steps, consts; cbn [is_double prec binary32 binary64 Z.ltb Z.compare Pos.compare Pos.compare_cont app]; cbn [In]; lia.
Qed.

Section Steps.
Variables (f : fmt) (c X0 : Z).
Hypothesis (Hf : is_format f) (Hl : low f c) (HX0 : 0 <= X0).
Let P := 2 ^ prec f.
Let U := 2 ^ (- c).
Lemma PU_facts : 16777216 <= P /\ 0 < U.
Proof. split; [exact (P_big f Hf)|]. apply p2pos. destruct (low_facts f c Hf Hl) as [L1 [L2 _]]. lia. Qed.

Lemma reduce_all ss t : halving t ss -> (forall s, In s ss -> In s (all_steps f)) -> forall x X e w,
  isv f c x X -> 0 <= e -> 0 <= w -> w + 5 * zlen ss <= 60 ->
  relz P w (X * 10 ^ e) X0 -> (P - w) * U <= P * X -> P * X <= (P + w) * (10 ^ t * U) ->
  exists x' X' e', fold_left (reduce f) ss (x, e) = (x', e') /\ isv f c x' X' /\ 0 <= e' <= e + t
  /\ relz P (w + 5 * zlen ss) (X' * 10 ^ e') X0 /\ (P - (w + 5 * zlen ss)) * U <= P * X' /\ P * X' <= (P + (w + 5 * zlen ss)) * (10 * U).
Proof.
  destruct PU_facts as [PB PU]. intros Hh. induction Hh as [|s r Hs1 Hh IH]; intros Hin x X e w Ix He Hw Hw60 R Lo Up.
  - exists x, X, e. unfold zlen. cbn [fold_left length]. change (w + 5 * Z.of_nat 0) with (w + 0). rewrite Z.add_0_r. change (10 ^ 1) with 10 in Up.
    split; [reflexivity|]. split; [exact Ix|]. split; [lia|]. split; [exact R|]. split; [exact Lo|exact Up].
  - destruct (steps_consts f s Hf (Hin s (or_introl eq_refl))) as [C1 [C2 _]]. pose proof (halving_pos _ _ Hh) as Ht.
    unfold zlen in *. cbn [length] in *. rewrite Nat2Z.inj_succ in *. set (l := Z.of_nat (length r)) in *. assert (0 <= l) by (unfold l; lia).
    cbn [fold_left]. unfold reduce at 2.
    destruct (const_rel f c true s Hf Hl C1) as [B [IB [HB RB]]]. cbn [the_step De Nu] in IB, RB. rewrite Z.mul_1_r in RB. fold P U in RB.
    pose proof (ten_ge s ltac:(lia)) as HT. set (T := 10 ^ s) in *.
    assert (TU : 0 <= T * U) by (apply Z.mul_nonneg_nonneg; lia).
    rewrite (fge_isv f c x _ X B Hf Hl Ix IB). replace (w + 5 * Z.succ l) with ((w + 5) + 5 * l) in * by lia.
    assert (X0p : 0 <= X).
    { apply (Z.mul_le_mono_pos_l _ _ P ltac:(lia)). rewrite Z.mul_0_r. apply Z.le_trans with ((P - w) * U); [apply Z.mul_nonneg_nonneg; lia|exact Lo]. }
    destruct (Z.leb_spec B X) as [L|L].
    + pose proof (rel_lower P 1 _ _ ltac:(lia) RB) as RL.
      assert (XL : T * U <= 2 * X).
      { apply (Z.mul_le_mono_pos_l _ _ P ltac:(lia)). assert (P * B <= P * X) by (apply Z.mul_le_mono_nonneg_l; lia).
        assert (P * (T * U) <= 2 * ((P - 1) * (T * U))) by (rewrite (Z.mul_assoc 2); apply Z.mul_le_mono_nonneg_r; lia). lia. }
      assert (NS := norm_small f c s Hf Hl C1). fold T U in NS.
      assert (UT : U <= T * U) by (rewrite <- (Z.mul_1_l U) at 1; apply Z.mul_le_mono_nonneg_r; lia).
      pose proof (p2pos (emin f + prec f - c)) as PN. fold (norm f c) in PN. destruct (format_emax f Hf) as [P1 [P2 P3]]. destruct (low_facts f c Hf Hl) as [L1 _]. specialize (PN ltac:(lia)).
      assert (NT : 0 <= norm f c * T) by (apply Z.mul_nonneg_nonneg; lia).
      destruct (mul_const f c false s x X x X Hf Hl C1 Ix X0p Ix) as [v [Iv Rv]]; cbn [De Nu]; fold T.
      * rewrite Z.mul_1_r. lia.
      * rewrite Z.mul_1_r. apply Z.mul_le_mono_nonneg_r; [exact X0p|]. change 2 with (0 + 2). unfold T. change 10 with (10 ^ 1). pose proof (Z.pow_le_mono_r 10 1 s ltac:(lia) ltac:(lia)). change (10 ^ 1) with 10 in *. lia.
      * cbn [De Nu the_step] in Rv, Iv. fold P T in Rv. rewrite Z.mul_1_r in Rv.
        assert (T0 : 0 < T) by lia. pose proof (rel_lower P 3 _ _ ltac:(lia) Rv) as VL. pose proof (rel_upper P 3 _ _ ltac:(lia) Rv) as VU.
        destruct (IH ltac:(intros; apply Hin; right; assumption) _ v (e + s) (w + 5) Iv ltac:(lia) ltac:(lia) ltac:(lia)) as [x' [X' [e' [E [Ix' [He' [R' [Lo' Up']]]]]]]].
        -- rewrite Z.pow_add_r by lia. fold T. replace (v * (10 ^ e * T)) with (v * T * 10 ^ e) by ring.
           apply (rel_le P (w + 3 + 1)); [exact HX0|lia|]. apply (rel_trans P w 3 _ (X * 10 ^ e)); try lia; [exact R|]. apply rel_scale; [apply Z.pow_nonneg; lia|exact Rv].
        -- apply (Z.mul_le_mono_pos_r _ _ T T0). apply (Z.mul_le_mono_pos_l _ _ P ltac:(lia)).
           assert (G1 : (P - 3) * (P * X) <= P * (P * (v * T))) by (apply (Z.mul_le_mono_nonneg_l _ _ P) in VL; lia).
           assert (G2 : (P - 3) * ((P - 1) * (T * U)) <= (P - 3) * (P * X)).
           { apply Z.mul_le_mono_nonneg_l; [lia|]. apply Z.le_trans with (P * B); [exact RL|apply Z.mul_le_mono_nonneg_l; lia]. }
           assert (G3 : P * ((P - (w + 5)) * U * T) <= (P - 3) * ((P - 1) * (T * U))).
           { replace (P * ((P - (w + 5)) * U * T)) with ((P * (P - (w + 5))) * (T * U)) by ring. rewrite (Z.mul_assoc (P - 3)). apply Z.mul_le_mono_nonneg_r; [exact TU|]. rewrite !Z.mul_sub_distr_l, !Z.mul_sub_distr_r.
             assert (0 <= P * w) by (apply Z.mul_nonneg_nonneg; lia). rewrite Z.mul_add_distr_l. lia. }
           lia.
        -- apply (Z.mul_le_mono_pos_r _ _ T T0). apply (Z.mul_le_mono_pos_l _ _ P ltac:(lia)).
           assert (G1 : P * (P * (v * T)) <= (P + 3) * (P * X)) by (apply (Z.mul_le_mono_nonneg_l _ _ P) in VU; lia).
           assert (G2 : (P + 3) * (P * X) <= (P + 3) * ((P + w) * (10 ^ (2 * s) * U))) by (apply Z.mul_le_mono_nonneg_l; [lia|exact Up]).
           replace (10 ^ (2 * s)) with (T * T) in G2 by (unfold T; rewrite <- Z.pow_add_r by lia; f_equal; lia).
           assert (G3 : (P + 3) * ((P + w) * (T * T * U)) <= P * ((P + (w + 5)) * (T * U) * T)).
           { replace (P * ((P + (w + 5)) * (T * U) * T)) with ((P * (P + (w + 5))) * (T * T * U)) by ring. rewrite (Z.mul_assoc (P + 3)). apply Z.mul_le_mono_nonneg_r.
             - apply Z.mul_nonneg_nonneg; [apply Z.mul_nonneg_nonneg; lia|lia].
             - rewrite !Z.mul_add_distr_l, !Z.mul_add_distr_r. lia. }
           lia.
        -- exists x', X', e'. split; [exact E|]. split; [exact Ix'|]. split; [lia|]. split; [exact R'|]. split; [exact Lo'|exact Up'].
    + pose proof (rel_upper P 1 _ _ ltac:(lia) RB) as RU.
      destruct (IH ltac:(intros; apply Hin; right; assumption) x X e (w + 5) Ix He ltac:(lia) ltac:(lia)) as [x' [X' [e' [E [Ix' [He' [R' [Lo' Up']]]]]]]].
      * apply (rel_le P w); [exact HX0|lia|exact R].
      * apply Z.le_trans with ((P - w) * U); [apply Z.mul_le_mono_nonneg_r; lia|exact Lo].
      * apply Z.le_trans with ((P + 1) * (T * U)); [apply Z.le_trans with (P * B); [apply Z.mul_le_mono_nonneg_l; lia|exact RU]|apply Z.mul_le_mono_nonneg_r; lia].
      * exists x', X', e'. split; [exact E|]. split; [exact Ix'|]. split; [lia|]. split; [exact R'|]. split; [exact Lo'|exact Up'].
Qed.

(** the multiplication of a step *)
Lemma increase_mul s x X : In s (consts f) -> In (s + 1) (consts f) -> 0 <= s -> isv f c x X -> 0 <= X -> 2 * norm f c <= X * 10 ^ (s + 1) -> P * (X * 10 ^ s) <= (P + 1) * U ->
  exists v, isv f c (fmul f x (big_step f (s + 1))) v /\ relz P 3 v (X * 10 ^ (s + 1)) /\ P * v <= (P + 5) * (10 * U).
Proof.
  destruct PU_facts as [PB PU]. intros C1 C2 Hs Ix X0p Lo Up. pose proof (ten_ge s Hs) as HT.
  assert (T1 : 10 ^ (s + 1) = 10 * 10 ^ s) by (rewrite Z.pow_add_r by lia; change (10 ^ 1) with 10; ring).
  rewrite T1 in Lo |- *. set (T := 10 ^ s) in *.
  pose proof (p2pos (emin f + prec f - c)) as PN. fold (norm f c) in PN. destruct (format_emax f Hf) as [P1 [P2 P3]]. destruct (low_facts f c Hf Hl) as [L1 [L2 [L3 [L4 L5]]]]. specialize (PN ltac:(lia)).
  assert (XT : 0 <= X * T) by (apply Z.mul_nonneg_nonneg; lia).
  assert (XT2 : X * T <= 2 * U).
  { apply (Z.mul_le_mono_pos_l _ _ P ltac:(lia)). apply Z.le_trans with ((P + 1) * U); [exact Up|]. rewrite Z.mul_assoc. apply Z.mul_le_mono_nonneg_r; lia. }
  assert (Iy : isv f c (Fin 1 7) (1 * 2 ^ (7 - c))) by (apply pow_isv; [exact Hf|lia|lia|destruct Hf as [->| ->]; cbn [emax binary32 binary64]; lia]).
  assert (E7 : 2 ^ (7 - c) = 128 * U) by (unfold U; replace (7 - c) with (7 + - c) by lia; rewrite p2add by lia; change (2 ^ 7) with 128; reflexivity). rewrite E7 in Iy.
  destruct (mul_const f c true (s + 1) x X _ _ Hf Hl C2 Ix X0p Iy) as [v [Iv Rv]]; cbn [De Nu]; rewrite ?T1.
  - rewrite Z.mul_1_r. exact Lo.
  - replace (2 * (X * (10 * T))) with (20 * (X * T)) by ring. lia.
  - cbn [De Nu the_step] in Rv, Iv. rewrite Z.mul_1_r, T1 in Rv. fold P in Rv. exists v. split; [exact Iv|]. split; [exact Rv|].
    pose proof (rel_upper P 3 _ _ ltac:(lia) Rv) as VU. apply (Z.mul_le_mono_pos_l _ _ P ltac:(lia)).
    replace (X * (10 * T)) with (10 * (X * T)) in VU by ring.
    assert (G1 : P * (P * v) <= (P + 3) * 10 * (P * (X * T))) by (apply (Z.mul_le_mono_nonneg_l _ _ P) in VU; lia).
    assert (G2 : (P + 3) * 10 * (P * (X * T)) <= (P + 3) * 10 * ((P + 1) * U)) by (apply Z.mul_le_mono_nonneg_l; lia).
    assert (G3 : (P + 3) * 10 * ((P + 1) * U) <= P * ((P + 5) * (10 * U))).
    { replace ((P + 3) * 10 * ((P + 1) * U)) with ((P + 3) * (P + 1) * (10 * U)) by ring. rewrite (Z.mul_assoc P (P + 5)). apply Z.mul_le_mono_nonneg_r; [lia|]. rewrite !Z.mul_add_distr_l, !Z.mul_add_distr_r. lia. }
    lia.
Qed.
Lemma increase_all ss t : halving t ss -> (forall s, In s ss -> In s (all_steps f)) -> forall x X n w,
  isv f c x X -> 0 <= n -> 0 <= w -> w + 5 * zlen ss <= 60 ->
  relz P w X (X0 * 10 ^ n) -> (P - w) * U <= P * (X * 10 ^ t) -> P * X <= (P + w) * (10 * U) ->
  exists x' X' n', fold_left (increase f) ss (x, - n) = (x', - n') /\ isv f c x' X' /\ 0 <= n' <= n + 2 * t
  /\ relz P (w + 5 * zlen ss) X' (X0 * 10 ^ n') /\ (P - (w + 5 * zlen ss)) * U <= P * (X' * 10) /\ P * X' <= (P + (w + 5 * zlen ss)) * (10 * U).
Proof.
  destruct PU_facts as [PB PU]. intros Hh. induction Hh as [|s r Hs1 Hh IH]; intros Hin x X n w Ix He Hw Hw60 R Lo Up.
  - exists x, X, n. unfold zlen. cbn [fold_left length]. change (w + 5 * Z.of_nat 0) with (w + 0). rewrite Z.add_0_r. change (10 ^ 1) with 10 in Lo.
    split; [reflexivity|]. split; [exact Ix|]. split; [lia|]. split; [exact R|]. split; [exact Lo|exact Up].
  - destruct (steps_consts f s Hf (Hin s (or_introl eq_refl))) as [C1 [C2 _]]. pose proof (halving_pos _ _ Hh) as Ht.
    unfold zlen in *. cbn [length] in *. rewrite Nat2Z.inj_succ in *. set (l := Z.of_nat (length r)) in *. assert (0 <= l) by (unfold l; lia).
    cbn [fold_left]. unfold increase at 2.
    destruct (const_rel f c false s Hf Hl C1) as [B [IB [HB RB]]]. cbn [the_step De Nu] in IB, RB. rewrite Z.mul_1_l in RB. fold P U in RB.
    pose proof (ten_ge s ltac:(lia)) as HT.
    rewrite (fge_isv f c _ x B X Hf Hl IB Ix). replace (w + 5 * Z.succ l) with ((w + 5) + 5 * l) in * by lia.
    pose proof (Z.pow_pos_nonneg 10 (2 * s) ltac:(lia) ltac:(lia)) as T2p.
    assert (X0p : 0 <= X).
    { apply (Z.mul_le_mono_pos_r _ _ (10 ^ (2 * s)) ltac:(lia)). apply (Z.mul_le_mono_pos_l _ _ P ltac:(lia)). rewrite Z.mul_0_l, Z.mul_0_r. apply Z.le_trans with ((P - w) * U); [apply Z.mul_nonneg_nonneg; lia|exact Lo]. }
    destruct (Z.leb_spec X B) as [L|L].
    + pose proof (rel_upper P 1 _ _ ltac:(lia) RB) as RU.
      assert (XU : P * (X * 10 ^ s) <= (P + 1) * U).
      { apply Z.le_trans with (P * (B * 10 ^ s)); [apply Z.mul_le_mono_nonneg_l; [lia|apply Z.mul_le_mono_nonneg_r; lia]|exact RU]. }
      assert (XL : U <= 2 * (X * 10 ^ (2 * s))).
      { apply (Z.mul_le_mono_pos_l _ _ P ltac:(lia)). assert (P * U <= 2 * ((P - w) * U)) by (rewrite (Z.mul_assoc 2); apply Z.mul_le_mono_nonneg_r; lia). lia. }
      assert (NX : 2 * norm f c <= X * 10 ^ (s + 1)).
      { assert (NS := norm_small f c s Hf Hl C1). fold U in NS. apply (Z.mul_le_mono_pos_r _ _ (10 ^ s) ltac:(lia)). replace (X * 10 ^ (s + 1) * 10 ^ s) with (X * (10 ^ (2 * s) * 10)) by (replace (2 * s) with (s + s) by lia; rewrite !Z.pow_add_r by lia; change (10 ^ 1) with 10; ring).
        replace (2 * norm f c * 10 ^ s) with (2 * (norm f c * 10 ^ s)) by ring. replace (16 * norm f c * 10 ^ s) with (16 * (norm f c * 10 ^ s)) in NS by ring.
        replace (X * (10 ^ (2 * s) * 10)) with (10 * (X * 10 ^ (2 * s))) by ring. lia. }
      destruct (increase_mul s x X C1 C2 ltac:(lia) Ix X0p NX XU) as [v [Iv [Rv Uv]]].
      pose proof (rel_lower P 3 _ _ ltac:(lia) Rv) as VL.
      replace (- n - (s + 1)) with (- (n + (s + 1))) by lia.
      destruct (IH ltac:(intros; apply Hin; right; assumption) _ v (n + (s + 1)) (w + 5) Iv ltac:(lia) ltac:(lia) ltac:(lia)) as [x' [X' [e' [E [Ix' [He' [R' [Lo' Up']]]]]]]].
      * rewrite Z.pow_add_r by lia. apply (rel_le P (w + 3 + 1)); [apply Z.mul_nonneg_nonneg; [exact HX0|apply Z.mul_nonneg_nonneg; apply Z.pow_nonneg; lia]|lia|].
        assert (HC : 0 <= X0 * (10 ^ n * 10 ^ (s + 1))) by (apply Z.mul_nonneg_nonneg; [exact HX0|apply Z.mul_nonneg_nonneg; apply Z.pow_nonneg; lia]).
        apply (rel_trans P w 3 _ (X * 10 ^ (s + 1))); try lia; [|exact Rv].
        rewrite Z.mul_assoc. apply rel_scale; [apply Z.pow_nonneg; lia|exact R].
      * replace (10 ^ (2 * s)) with (10 ^ s * 10 ^ s) in * by (rewrite <- Z.pow_add_r by lia; f_equal; lia).
        replace (10 ^ (s + 1)) with (10 * 10 ^ s) in * by (rewrite Z.pow_add_r by lia; change (10 ^ 1) with 10; ring). set (T := 10 ^ s) in *.
        assert (XTT : 0 <= X * (T * T)) by (apply Z.mul_nonneg_nonneg; [exact X0p|lia]).
        apply (Z.mul_le_mono_pos_l _ _ P ltac:(lia)).
        assert (G1 : (P - 3) * (P * (X * (T * T))) <= P * (P * (v * T))).
        { assert (Q : (P - 3) * (X * (10 * T)) * T <= P * v * T) by (apply Z.mul_le_mono_nonneg_r; [lia|exact VL]). apply (Z.mul_le_mono_nonneg_l _ _ P) in Q; [|lia].
          replace (P * ((P - 3) * (X * (10 * T)) * T)) with (10 * ((P - 3) * (P * (X * (T * T))))) in Q by ring. replace (P * (P * v * T)) with (P * (P * (v * T))) in Q by ring.
          assert (0 <= (P - 3) * (P * (X * (T * T)))) by (apply Z.mul_nonneg_nonneg; [lia|apply Z.mul_nonneg_nonneg; lia]). lia. }
        assert (G2 : (P - 3) * ((P - w) * U) <= (P - 3) * (P * (X * (T * T)))) by (apply Z.mul_le_mono_nonneg_l; lia).
        assert (G3 : P * ((P - (w + 5)) * U) <= (P - 3) * ((P - w) * U)).
        { rewrite !Z.mul_assoc. apply Z.mul_le_mono_nonneg_r; [lia|]. rewrite !Z.mul_sub_distr_l, !Z.mul_sub_distr_r, Z.mul_add_distr_l. lia. }
        lia.
      * apply Z.le_trans with ((P + 5) * (10 * U)); [exact Uv|apply Z.mul_le_mono_nonneg_r; lia].
      * exists x', X', e'. split; [exact E|]. split; [exact Ix'|]. split; [lia|]. split; [exact R'|]. split; [exact Lo'|exact Up'].
    + pose proof (rel_lower P 1 _ _ ltac:(lia) RB) as RL.
      destruct (IH ltac:(intros; apply Hin; right; assumption) x X n (w + 5) Ix He ltac:(lia) ltac:(lia)) as [x' [X' [e' [E [Ix' [He' [R' [Lo' Up']]]]]]]].
      * apply (rel_le P w); [apply Z.mul_nonneg_nonneg; [exact HX0|apply Z.pow_nonneg; lia]|lia|exact R].
      * apply Z.le_trans with ((P - 1) * U); [apply Z.mul_le_mono_nonneg_r; lia|]. apply Z.le_trans with (P * (B * 10 ^ s)); [exact RL|]. apply Z.mul_le_mono_nonneg_l; [lia|apply Z.mul_le_mono_nonneg_r; lia].
      * apply Z.le_trans with ((P + w) * (10 * U)); [exact Up|apply Z.mul_le_mono_nonneg_r; lia].
      * exists x', X', e'. split; [exact E|]. split; [exact Ix'|]. split; [lia|]. split; [exact R'|]. split; [exact Lo'|exact Up'].
Qed.
End Steps.

(** ** The normalized number *)
Lemma small_zero f c : is_format f -> c <= -1000 -> isv f c (Fin (2 ^ (prec f - 1)) (1 - prec f)) (2 ^ (- c)).
Proof.
  intros Hf L. exists (2 ^ (prec f - 1)), (1 - prec f). split; [reflexivity|]. destruct (format_emax f Hf) as [P1 [P2 P3]]. split.
  - split; [rewrite Z.abs_eq by (apply Z.pow_nonneg; lia); apply p2le; lia|]. split; [destruct Hf as [->| ->]; unfold emin; cbn [prec emax binary32 binary64]; lia|].
    right. pose proof (bits_le (2 ^ (prec f - 1)) (prec f) ltac:(lia)) as B. rewrite Z.abs_eq in B by (apply Z.pow_nonneg; lia). specialize (B ltac:(apply Z.pow_lt_mono_r; lia)). lia.
  - assert (prec f <= 53) by (destruct Hf as [->| ->]; cbn; lia). unfold at_unit. rewrite <- p2add by lia. f_equal. lia.
Qed.
Definition normalized (f : fmt) (c X : Z) (y : fl) (Y e : Z) : Prop :=
  isv f c y Y /\ -1100 <= e <= 1100 /\ relz (2 ^ prec f) 60 (Y * 10 ^ Z.max 0 e) (X * 10 ^ Z.max 0 (- e))
  /\ (2 ^ prec f - 60) * 2 ^ (- c) <= 2 ^ prec f * Y /\ 2 ^ prec f * Y <= (2 ^ prec f + 60) * (10 * 2 ^ (- c)).
Lemma normalize_ok f c x X : is_format f -> low f c -> isv f c x X -> 0 < X -> exists y Y e, normalize f x = (y, e) /\ normalized f c X y Y e.
Proof.
  intros Hf Hl Ix HX. destruct (PU_facts f c Hf Hl) as [PB PU]. destruct (low_facts f c Hf Hl) as [L1 [L2 [L3 [L4 L5]]]]. destruct (format_emax f Hf) as [P1 [P2 P3]].
  pose proof (all_halving f Hf) as Hh. assert (Hlen : 0 <= zlen (all_steps f) <= 9) by (destruct Hf as [->| ->]; vm_compute; split; discriminate).
  assert (Htop : 1 <= top f <= 512) by (unfold top; destruct (is_double f); lia).
  unfold normalize. rewrite (fgt_isv f c x zero X 0 Hf Hl Ix (zero_isv f c Hf)). destruct (Z.ltb_spec 0 X); [|lia].
  rewrite (fge_isv f c x one X _ Hf Hl Ix (one_isv f c Hf)).
  pose proof Ix as [m [e0 [Ex [[Fm [Fe Fb]] V]]]].
  assert (m0 : 0 < m) by (unfold at_unit in V; pose proof (p2pos (e0 - c) ltac:(lia)); destruct (Z.leb_spec m 0); [assert (m * 2 ^ (e0 - c) <= 0) by (apply Z.mul_nonpos_nonneg; lia)|]; lia).
  set (P := 2 ^ prec f) in *. set (U := 2 ^ (- c)) in *.
  destruct (Z.leb_spec U X) as [B|B].
  - destruct (reduce_all f c X Hf Hl ltac:(lia) _ _ Hh ltac:(auto) x X 0 0 Ix ltac:(lia) ltac:(lia) ltac:(lia)) as [y [Y [e [E [Iy [He [R [Lo Up]]]]]]]].
    + change (10 ^ 0) with 1. apply rel_eq; lia.
    + fold P U. rewrite Z.sub_0_r. apply Z.mul_le_mono_nonneg_l; lia.
    + fold P U. rewrite Z.add_0_r. apply Z.mul_le_mono_nonneg_l; [lia|]. apply Z.le_trans with (2 ^ emax f * U).
      * destruct Fb as [Fb|Fb]; [lia|]. pose proof (bits_pos m ltac:(lia)) as [_ [_ Hb]]. rewrite Z.abs_eq in Hb by lia. rewrite <- V. unfold at_unit, U.
        rewrite <- p2add by (destruct Hf as [->| ->]; cbn [emax binary32 binary64]; lia).
        apply Z.le_trans with (2 ^ bits m * 2 ^ (e0 - c)); [apply Z.mul_le_mono_nonneg_r; [apply Z.lt_le_incl, p2pos; lia|lia]|]. rewrite <- p2add by (try apply bits_nonneg; lia). apply p2le. lia.
      * apply Z.mul_le_mono_nonneg_r; [lia|]. destruct Hf as [->| ->]; vm_compute; discriminate.
    + fold P U in R, Lo, Up. exists y, Y, e. split; [exact E|]. unfold normalized. fold P U. split; [exact Iy|]. split; [lia|].
      rewrite (Z.max_r 0 e) by lia. rewrite (Z.max_l 0 (- e)) by lia. change (10 ^ 0) with 1. rewrite Z.mul_1_r.
      split; [apply (rel_le P (0 + 5 * zlen (all_steps f))); [lia|lia|exact R]|]. split.
      * apply Z.le_trans with ((P - (0 + 5 * zlen (all_steps f))) * U); [apply Z.mul_le_mono_nonneg_r; lia|exact Lo].
      * apply Z.le_trans with ((P + (0 + 5 * zlen (all_steps f))) * (10 * U)); [exact Up|apply Z.mul_le_mono_nonneg_r; lia].
  - rewrite fold_left_app.
    destruct (increase_all f c X Hf Hl ltac:(lia) _ _ Hh ltac:(auto) x X 0 0 Ix ltac:(lia) ltac:(lia) ltac:(lia)) as [y [Y [n [E [Iy [He [R [Lo Up]]]]]]]].
    + change (10 ^ 0) with 1. apply rel_eq; lia.
    + fold P U. rewrite Z.sub_0_r. apply Z.mul_le_mono_nonneg_l; [lia|]. apply Z.le_trans with (2 ^ (emin f - c) * 10 ^ top f).
      * unfold U. replace (- c) with ((emin f - c) + - emin f) by lia. rewrite p2add by lia. apply Z.mul_le_mono_nonneg_l; [apply Z.lt_le_incl, p2pos; lia|]. destruct Hf as [->| ->]; vm_compute; discriminate.
      * apply Z.mul_le_mono_nonneg_r; [apply Z.pow_nonneg; lia|]. rewrite <- V. unfold at_unit. rewrite <- (Z.mul_1_l (2 ^ (emin f - c))). apply Z.mul_le_mono_nonneg; [lia|lia|apply Z.lt_le_incl, p2pos; lia|apply p2le; lia].
    + fold P U. rewrite Z.add_0_r. apply Z.mul_le_mono_nonneg_l; lia.
    + fold P U in R, Lo, Up. change (- 0) with 0 in E. rewrite E. cbn [fold_left]. unfold increase.
      set (w := 0 + 5 * zlen (all_steps f)) in *. assert (W : 0 <= w <= 45) by (unfold w; lia).
      assert (C0 : In 0 (consts f)) by (unfold consts; apply in_or_app; right; cbn; tauto). assert (C1 : In (0 + 1) (consts f)) by (unfold consts; apply in_or_app; right; cbn; tauto).
      assert (I1 : isv f c (small_step f 0) U).
      { replace (small_step f 0) with (Fin (2 ^ (prec f - 1)) (1 - prec f)) by (destruct Hf as [->| ->]; vm_compute; reflexivity).
        apply small_zero; assumption. }
      rewrite (fge_isv f c _ y U Y Hf Hl I1 Iy).
      assert (Y0 : 0 <= Y).
      { apply (Z.mul_le_mono_pos_r _ _ 10 ltac:(lia)). apply (Z.mul_le_mono_pos_l _ _ P ltac:(lia)). rewrite Z.mul_0_l, Z.mul_0_r. apply Z.le_trans with ((P - w) * U); [apply Z.mul_nonneg_nonneg; lia|exact Lo]. }
      destruct (Z.leb_spec Y U) as [L|L].
      * destruct (increase_mul f c Hf Hl 0 y Y C0 C1 ltac:(lia) Iy Y0) as [v [Iv [Rv Uv]]]; fold P U.
        -- assert (NS := norm_small f c 0 Hf Hl C0). change (10 ^ 0) with 1 in NS. change (10 ^ (0 + 1)) with 10. fold U in NS.
           assert (YL : U <= 2 * (Y * 10)).
           { apply (Z.mul_le_mono_pos_l _ _ P ltac:(lia)). assert (P * U <= 2 * ((P - w) * U)) by (rewrite (Z.mul_assoc 2); apply Z.mul_le_mono_nonneg_r; lia). lia. }
           lia.
        -- change (10 ^ 0) with 1. rewrite Z.mul_1_r. apply Z.mul_le_mono_nonneg; lia.
        -- fold P U in Uv. fold P in Rv. change (10 ^ (0 + 1)) with 10 in Rv. exists (fmul f y (big_step f (0 + 1))), v, (- (n + 1)). split; [f_equal; lia|]. unfold normalized. fold P U. split; [exact Iv|]. split; [lia|].
           rewrite (Z.max_l 0 (- (n + 1))) by lia. rewrite (Z.max_r 0 (- - (n + 1))) by lia. rewrite Z.opp_involutive.
           change (10 ^ 0) with 1. rewrite Z.mul_1_r, Z.pow_add_r by lia. change (10 ^ 1) with 10.
           assert (0 <= X * (10 ^ n * 10)) by (apply Z.mul_nonneg_nonneg; [lia|apply Z.mul_nonneg_nonneg; [apply Z.pow_nonneg; lia|lia]]).
           split; [|split].
           ++ apply (rel_le P (w + 3 + 1)); [assumption|lia|]. apply (rel_trans P w 3 _ (Y * 10)); try lia; [|exact Rv]. rewrite Z.mul_assoc. apply rel_scale; [lia|exact R].
           ++ pose proof (rel_lower P 3 _ _ ltac:(lia) Rv) as VL. apply (Z.mul_le_mono_pos_l _ _ P ltac:(lia)).
              assert (G1 : (P - 3) * (P * (Y * 10)) <= P * (P * v)) by (apply (Z.mul_le_mono_nonneg_l _ _ P) in VL; lia).
              assert (G2 : (P - 3) * ((P - w) * U) <= (P - 3) * (P * (Y * 10))) by (apply Z.mul_le_mono_nonneg_l; lia).
              assert (G3 : P * ((P - 60) * U) <= (P - 3) * ((P - w) * U)).
              { rewrite !Z.mul_assoc. apply Z.mul_le_mono_nonneg_r; [lia|]. rewrite !Z.mul_sub_distr_l, !Z.mul_sub_distr_r. assert (P * w <= P * 45) by (apply Z.mul_le_mono_nonneg_l; lia). lia. }
              lia.
           ++ apply Z.le_trans with ((P + 5) * (10 * U)); [exact Uv|apply Z.mul_le_mono_nonneg_r; lia].
      * exists y, Y, (- n). split; [reflexivity|]. unfold normalized. fold P U. split; [exact Iy|]. split; [lia|]. rewrite (Z.max_l 0 (- n)) by lia. rewrite (Z.max_r 0 (- - n)) by lia. rewrite Z.opp_involutive.
        change (10 ^ 0) with 1. rewrite Z.mul_1_r. split; [apply (rel_le P w); [apply Z.mul_nonneg_nonneg; [lia|apply Z.pow_nonneg; lia]|lia|exact R]|]. split.
        -- apply Z.mul_le_mono_nonneg; lia.
        -- apply Z.le_trans with ((P + w) * (10 * U)); [exact Up|apply Z.mul_le_mono_nonneg_r; lia].
Qed.
