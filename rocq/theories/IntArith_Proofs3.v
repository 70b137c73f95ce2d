(** Double-width integers. *)
From Verif Require Import Base BitsBase IntArith_Model IntArith_Spec IntArith_Proofs.

Definition dval (t : ity) (d : dint) : Z := double_value t (d_up d) (d_lo d).
Definition dwf (t : ity) (d : dint) : Prop := in_ty t (d_up d) /\ in_ty t (d_lo d).

Lemma dval_testbit t up lo i : 0 < ibits t -> 0 <= i ->
  Z.testbit (double_value t up lo) i = if i <? ibits t then Z.testbit lo i else Z.testbit up (i - ibits t).
Proof.
  intros Ht Hi. unfold double_value. pose proof (uwrap_range (ibits t) lo ltac:(lia)) as U.
  assert (P : 0 < 2 ^ ibits t) by (apply Z.pow_pos_nonneg; lia).
  destruct (i <? ibits t) eqn:E.
  - rewrite <- (Z.mod_pow2_bits_low _ (ibits t)) by lia. rewrite Z.add_comm, Z.mod_add by lia.
    rewrite Z.mod_small by lia. rewrite uwrap_testbit, E by lia. reflexivity.
  - replace i with ((i - ibits t) + ibits t) at 1 by lia. rewrite <- Z.shiftr_spec by lia. f_equal.
    rewrite Z.shiftr_div_pow2, Z.div_add_l by lia. rewrite Z.div_small by lia. lia.
Qed.

Lemma dval_range t d : 0 < ibits t -> dwf t d -> in_ty (double_ty t) (dval t d).
Proof.
  intros Ht [Hu Hl]. unfold dval, double_value, in_ty, imin, imax, double_ty in *. cbn [isgn ibits].
  pose proof (uwrap_range (ibits t) (d_lo d) ltac:(lia)) as U.
  assert (P : 0 < 2 ^ ibits t) by (apply Z.pow_pos_nonneg; lia).
  destruct (isgn t).
  - replace (2 * ibits t - 1) with ((ibits t - 1) + ibits t) by lia. rewrite Z.pow_add_r by lia. nia.
  - replace (2 * ibits t) with (ibits t + ibits t) by lia. rewrite Z.pow_add_r by lia. nia.
Qed.

Lemma di_wf_cast t u l : 0 < ibits t -> dwf t (DI (cast t u) (cast t l)).
Proof. intros; split; apply cast_range; lia. Qed.

Lemma dval_eq_cast t d z : 0 < ibits t -> dwf t d ->
  (exists q, dval t d = z + q * 2 ^ (2 * ibits t)) -> dval t d = cast (double_ty t) z.
Proof.
  intros Ht Hd (q & E). rewrite <- (cast_id (double_ty t) (dval t d)); [|cbn [double_ty ibits]; lia|apply dval_range; auto].
  apply cast_eq_mod; [cbn [double_ty ibits]; lia|]. cbn [double_ty ibits]. rewrite E. apply Z.mod_add. apply Z.pow_nonzero; lia.
Qed.

Lemma cast_repr t z : 0 < ibits t -> exists q, cast t z = z + q * 2 ^ ibits t.
Proof.
  intros Ht. pose proof (cast_mod t z Ht) as C.
  pose proof (Z.div_mod (cast t z) (2 ^ ibits t) ltac:(apply Z.pow_nonzero; lia)) as D1.
  pose proof (Z.div_mod z (2 ^ ibits t) ltac:(apply Z.pow_nonzero; lia)) as D2.
  exists (cast t z / 2 ^ ibits t - z / 2 ^ ibits t). rewrite C in D1. nia.
Qed.

Lemma uwrap_in_ty t z : 0 < ibits t -> in_ty t z ->
  uwrap (ibits t) z = if z <? 0 then z + 2 ^ ibits t else z.
Proof.
  intros Ht Hz. unfold in_ty, imin, imax in Hz. pose proof (pow2_half (ibits t) Ht).
  assert (0 < 2 ^ (ibits t - 1)) by (apply Z.pow_pos_nonneg; lia).
  destruct (z <? 0) eqn:N.
  - destruct (isgn t); [|lia]. unfold uwrap. symmetry. apply Z.mod_unique with (-1); [left; lia|lia].
  - apply uwrap_id. destruct (isgn t); lia.
Qed.

Lemma uwrap_cast t z : 0 < ibits t -> uwrap (ibits t) (cast t z) = uwrap (ibits t) z.
Proof. intros. unfold uwrap. apply cast_mod. lia. Qed.

Lemma uwrap_sum w a b : 0 < w -> uwrap w (a + b) =
  if uwrap w a + uwrap w b <? 2 ^ w then uwrap w a + uwrap w b else uwrap w a + uwrap w b - 2 ^ w.
Proof.
  intros Hw. pose proof (uwrap_range w a ltac:(lia)). pose proof (uwrap_range w b ltac:(lia)).
  assert (E : uwrap w (a + b) = (uwrap w a + uwrap w b) mod 2 ^ w) by (unfold uwrap; apply Zplus_mod).
  rewrite E. destruct (_ <? _) eqn:L.
  - apply Z.mod_small. lia.
  - symmetry. apply Z.mod_unique with 1; [left; lia|lia].
Qed.

Lemma uwrap_diff w a b : 0 < w -> uwrap w (a - b) =
  if uwrap w a <? uwrap w b then uwrap w a - uwrap w b + 2 ^ w else uwrap w a - uwrap w b.
Proof.
  intros Hw. pose proof (uwrap_range w a ltac:(lia)). pose proof (uwrap_range w b ltac:(lia)).
  assert (E : uwrap w (a - b) = (uwrap w a - uwrap w b) mod 2 ^ w) by (unfold uwrap; apply Zminus_mod).
  rewrite E. destruct (_ <? _) eqn:L.
  - symmetry. apply Z.mod_unique with (-1); [left; lia|lia].
  - apply Z.mod_small. lia.
Qed.

Lemma cast_cast_add t z c : 0 < ibits t -> cast t (cast t z + c) = cast t (z + c).
Proof.
  intros Ht. apply cast_eq_mod; [auto|]. rewrite <- Zplus_mod_idemp_l, cast_mod, Zplus_mod_idemp_l by auto. reflexivity.
Qed.

(** The upper half is incremented exactly when the lower halves carry. *)
Lemma di_add_norm t a b : 0 < ibits t -> dwf t a -> dwf t b ->
  di_add t a b = DI (cast t (d_up a + d_up b + (if uwrap (ibits t) (d_lo a) + uwrap (ibits t) (d_lo b) <? 2 ^ ibits t then 0 else 1)))
                    (cast t (d_lo a + d_lo b)).
Proof.
  intros Ht [Ha La] [Hb Lb]. unfold di_add.
  pose proof (pow2_half (ibits t) Ht) as PH. assert (P : 0 < 2 ^ (ibits t - 1)) by (apply Z.pow_pos_nonneg; lia).
  set (la := d_lo a) in *. set (lb := d_lo b) in *. set (W := 2 ^ ibits t) in *.
  pose proof (cast_range t (la + lb) Ht) as RL.
  pose proof (uwrap_cast t (la + lb) Ht) as UL. rewrite uwrap_sum in UL by auto. fold W in UL.
  rewrite (uwrap_in_ty t (cast t (la + lb))), (uwrap_in_ty t la), (uwrap_in_ty t lb) in UL by auto.
  rewrite (uwrap_in_ty t la), (uwrap_in_ty t lb) by auto. fold W in UL. fold W.
  set (lo := cast t (la + lb)) in *.
  assert (Z0 : cast t (d_up a + d_up b + 0) = cast t (d_up a + d_up b)) by (f_equal; lia).
  unfold in_ty, imin, imax in La, Lb, RL. fold W in La, Lb, RL.
  destruct (isgn t) eqn:S; cbn [andb negb].
  - destruct (la <? 0) eqn:A, (lb <? 0) eqn:B; cbn [andb negb].
    + rewrite cast_cast_add by auto. replace (la + W + (lb + W) <? W) with false by lia. reflexivity.
    + destruct (la + W + lb <? W) eqn:C.
      * destruct (lo <? 0) eqn:D; [|lia]. replace (lo >=? 0) with false by lia. rewrite andb_false_r. rewrite Z0. reflexivity.
      * destruct (lo <? 0) eqn:D; [lia|]. replace (lo >=? 0) with true by lia.
        replace (((lo <? la) || (lo <? lb)) && true) with true by lia. rewrite cast_cast_add by auto. reflexivity.
    + destruct (la + (lb + W) <? W) eqn:C.
      * destruct (lo <? 0) eqn:D; [|lia]. replace (lo >=? 0) with false by lia. rewrite andb_false_r. rewrite Z0. reflexivity.
      * destruct (lo <? 0) eqn:D; [lia|]. replace (lo >=? 0) with true by lia.
        replace (((lo <? la) || (lo <? lb)) && true) with true by lia. rewrite cast_cast_add by auto. reflexivity.
    + replace (la + lb <? W) with true in * by lia. rewrite Z0.
      replace (((lo <? la) || (lo <? lb)) && (lo >=? 0)) with false; [reflexivity|].
      destruct (lo <? 0) eqn:D; lia.
  - replace (la <? 0) with false in * by lia. replace (lb <? 0) with false in * by lia. replace (lo <? 0) with false in * by lia.
    destruct (la + lb <? W) eqn:C.
    + replace (((lo <? la) || (lo <? lb)) && (lo >=? 0)) with false by lia. rewrite Z0. reflexivity.
    + replace (((lo <? la) || (lo <? lb)) && (lo >=? 0)) with true by lia. rewrite cast_cast_add by auto. reflexivity.
Qed.

Theorem di_add_exact t a b : 0 < ibits t -> dwf t a -> dwf t b ->
  dwf t (di_add t a b) /\ dval t (di_add t a b) = cast (double_ty t) (dval t a + dval t b).
Proof.
  intros Ht Ha Hb. rewrite di_add_norm by auto.
  set (c := if _ <? _ then 0 else 1).
  assert (WF := di_wf_cast t (d_up a + d_up b + c) (d_lo a + d_lo b) Ht). split; [exact WF|].
  apply dval_eq_cast; auto. destruct (cast_repr t (d_up a + d_up b + c) Ht) as (q & E).
  exists q. unfold dval, double_value. cbn [d_up d_lo]. rewrite uwrap_cast by auto. rewrite E, uwrap_sum by auto.
  replace (2 * ibits t) with (ibits t + ibits t) by lia. rewrite Z.pow_add_r by lia.
  unfold c. destruct (_ <? _); ring.
Qed.

Lemma di_sub_norm t a b : 0 < ibits t -> dwf t a -> dwf t b ->
  di_sub t a b = DI (cast t (d_up a - d_up b + (if uwrap (ibits t) (d_lo a) <? uwrap (ibits t) (d_lo b) then -1 else 0)))
                    (cast t (d_lo a - d_lo b)).
Proof.
  intros Ht [Ha La] [Hb Lb]. unfold di_sub.
  pose proof (pow2_half (ibits t) Ht) as PH. assert (P : 0 < 2 ^ (ibits t - 1)) by (apply Z.pow_pos_nonneg; lia).
  set (la := d_lo a) in *. set (lb := d_lo b) in *. set (W := 2 ^ ibits t) in *.
  rewrite (uwrap_in_ty t la), (uwrap_in_ty t lb) by auto. fold W.
  assert (Z0 : cast t (d_up a - d_up b + 0) = cast t (d_up a - d_up b)) by (f_equal; lia).
  assert (Z1 : cast t (cast t (d_up a - d_up b) - 1) = cast t (d_up a - d_up b + -1)) by (rewrite <- cast_cast_add by auto; reflexivity).
  unfold in_ty, imin, imax in La, Lb. fold W in La, Lb.
  destruct (isgn t) eqn:S; cbn [andb negb].
  - destruct (la <? 0) eqn:A, (lb <? 0) eqn:B.
    + replace (la >=? 0) with false by lia. replace (lb >=? 0) with false by lia. cbn [andb orb negb].
      destruct (la + W <? lb + W) eqn:C.
      * replace (lb >? la) with true by lia. rewrite Z1. reflexivity.
      * replace (lb >? la) with false by lia. rewrite Z0. reflexivity.
    + replace (la >=? 0) with false by lia. replace (lb >=? 0) with true by lia. cbn [andb orb negb].
      replace (la + W <? lb) with false by lia. rewrite Z0. reflexivity.
    + replace (la >=? 0) with true by lia. replace (lb >=? 0) with false by lia. cbn [andb orb negb].
      replace (la <? lb + W) with true by lia. rewrite Z1. reflexivity.
    + replace (la >=? 0) with true by lia. replace (lb >=? 0) with true by lia. cbn [andb orb negb].
      destruct (la <? lb) eqn:C.
      * replace (lb >? la) with true by lia. rewrite Z1. reflexivity.
      * replace (lb >? la) with false by lia. rewrite Z0. reflexivity.
  - cbn [orb negb andb]. replace (la <? 0) with false in * by lia. replace (lb <? 0) with false in * by lia.
    destruct (la <? lb) eqn:C.
    + replace (lb >? la) with true by lia. rewrite Z1. reflexivity.
    + replace (lb >? la) with false by lia. rewrite Z0. reflexivity.
Qed.

Theorem di_sub_exact t a b : 0 < ibits t -> dwf t a -> dwf t b ->
  dwf t (di_sub t a b) /\ dval t (di_sub t a b) = cast (double_ty t) (dval t a - dval t b).
Proof.
  intros Ht Ha Hb. rewrite di_sub_norm by auto.
  set (c := if _ <? _ then -1 else 0).
  assert (WF := di_wf_cast t (d_up a - d_up b + c) (d_lo a - d_lo b) Ht). split; [exact WF|].
  apply dval_eq_cast; auto. destruct (cast_repr t (d_up a - d_up b + c) Ht) as (q & E).
  exists q. unfold dval, double_value. cbn [d_up d_lo]. rewrite uwrap_cast by auto. rewrite E, uwrap_diff by auto.
  replace (2 * ibits t) with (ibits t + ibits t) by lia. rewrite Z.pow_add_r by lia.
  unfold c. destruct (_ <? _); ring.
Qed.

(** Comparisons *)
Lemma dval_compare t a b : 0 < ibits t -> dwf t a -> dwf t b ->
  dval t a > dval t b <-> (d_up a > d_up b \/ d_up a = d_up b /\ uwrap (ibits t) (d_lo a) > uwrap (ibits t) (d_lo b)).
Proof.
  intros Ht _ _. unfold dval, double_value.
  pose proof (uwrap_range (ibits t) (d_lo a) ltac:(lia)). pose proof (uwrap_range (ibits t) (d_lo b) ltac:(lia)).
  set (x := uwrap _ (d_lo a)) in *. set (y := uwrap _ (d_lo b)) in *. set (W := 2 ^ ibits t) in *. split.
  - intros G. destruct (Z.lt_trichotomy (d_up a) (d_up b)) as [L|[E|G']]; [exfalso; nia|right; split; [auto|nia]|left; lia].
  - intros [G|[E G]]; nia.
Qed.

Lemma dval_inj t a b : 0 < ibits t -> dwf t a -> dwf t b -> dval t a = dval t b -> a = b.
Proof.
  intros Ht [Ua La] [Ub Lb] E. unfold dval, double_value in E.
  pose proof (uwrap_range (ibits t) (d_lo a) ltac:(lia)). pose proof (uwrap_range (ibits t) (d_lo b) ltac:(lia)).
  set (W := 2 ^ ibits t) in *.
  assert (d_up a = d_up b) by nia.
  assert (uwrap (ibits t) (d_lo a) = uwrap (ibits t) (d_lo b)) by nia.
  destruct a as [u l], b as [u' l']. cbn [d_up d_lo] in *. f_equal; [auto|].
  rewrite <- (cast_id t l), <- (cast_id t l') by auto. apply cast_eq_mod; auto.
Qed.

Theorem di_gt_exact t a b : 0 < ibits t -> dwf t a -> dwf t b -> di_gt t a b = (dval t a >? dval t b).
Proof.
  intros Ht Ha Hb. pose proof (dval_compare t a b Ht Ha Hb) as C.
  destruct Ha as [Ua La], Hb as [Ub Lb]. unfold di_gt.
  rewrite !uwrap_in_ty in C by auto.
  pose proof (pow2_half (ibits t) Ht) as PH. assert (P : 0 < 2 ^ (ibits t - 1)) by (apply Z.pow_pos_nonneg; lia).
  unfold in_ty, imin, imax in La, Lb.
  destruct (d_up a =? d_up b) eqn:E; [|lia].
  destruct (isgn t) eqn:S; cbn [andb].
  - destruct (d_lo a <? 0) eqn:A, (d_lo b <? 0) eqn:B.
    + replace (d_lo b >=? 0) with false by lia. replace (d_lo a >=? 0) with false by lia. cbn [andb]. lia.
    + replace (d_lo b >=? 0) with true by lia. cbn [andb]. lia.
    + replace (d_lo a >=? 0) with true by lia. cbn [andb]. lia.
    + replace (d_lo b >=? 0) with true by lia. replace (d_lo a >=? 0) with true by lia. cbn [andb]. lia.
  - replace (d_lo a <? 0) with false in C by lia. replace (d_lo b <? 0) with false in C by lia. lia.
Qed.

Lemma di_ne_exact t a b : 0 < ibits t -> dwf t a -> dwf t b -> di_ne a b = negb (dval t a =? dval t b).
Proof.
  intros Ht Ha Hb. unfold di_ne. destruct (Z.eqb_spec (dval t a) (dval t b)) as [E|N].
  - apply dval_inj in E; auto. subst b. rewrite !Z.eqb_refl. reflexivity.
  - destruct (Z.eqb_spec (d_up a) (d_up b)) as [E1|]; [|reflexivity].
    destruct (Z.eqb_spec (d_lo a) (d_lo b)) as [E2|]; [|reflexivity].
    exfalso. apply N. unfold dval. rewrite E1, E2. reflexivity.
Qed.

Theorem di_compare_exact t a b : 0 < ibits t -> dwf t a -> dwf t b ->
  di_eq a b = (dval t a =? dval t b) /\ di_ne a b = negb (dval t a =? dval t b) /\
  di_gt t a b = (dval t a >? dval t b) /\ di_lt t a b = (dval t a <? dval t b) /\
  di_ge t a b = (dval t a >=? dval t b) /\ di_le t a b = (dval t a <=? dval t b).
Proof.
  intros Ht Ha Hb. unfold di_eq, di_ge, di_le, di_lt. rewrite !(di_ne_exact t), di_gt_exact by auto.
  repeat split; lia.
Qed.

(** Shifts, unsigned halves *)
Theorem di_shl_exact t a s : isgn t = false -> 0 < ibits t -> dwf t a -> 0 <= s < 2 * ibits t ->
  dwf t (di_shl t a s) /\ dval t (di_shl t a s) = cast (double_ty t) (dval t a * 2 ^ s).
Proof.
  intros S Ht Ha Hs.
  assert (Z00 : in_ty t 0) by (unfold in_ty, imin, imax; rewrite S; pose proof (Z.pow_pos_nonneg 2 (ibits t)); lia).
  assert (WF : dwf t (di_shl t a s)).
  { unfold di_shl. destruct (s >? 0); [|exact Ha]. destruct (s <? ibits t); split; cbn [d_up d_lo]; try apply cast_range; auto. }
  split; [exact WF|].
  apply (in_ty_bits_inj (double_ty t)); [cbn [double_ty ibits]; lia|apply dval_range; auto|apply cast_range; cbn [double_ty ibits]; lia|].
  cbn [double_ty ibits]. intros i Hi. rewrite cast_testbit by (cbn [double_ty ibits]; lia).
  rewrite Z.mul_pow2_bits by lia. unfold dval at 1. rewrite dval_testbit by lia.
  assert (LB : forall j, ibits t <= j -> Z.testbit (d_lo a) j = false).
  { intros j Hj. destruct Ha as [_ L]. unfold in_ty, imin, imax in L. rewrite S in L.
    destruct (Z.eq_dec (d_lo a) 0) as [->|N]; [apply Z.testbit_0_l|].
    apply Z.bits_above_log2; [lia|]. apply Z.lt_le_trans with (ibits t); [|lia]. apply Z.log2_lt_pow2; lia. }
  assert (DV : Z.testbit (dval t a) (i - s) = if i - s <? 0 then false else if i - s <? ibits t then Z.testbit (d_lo a) (i - s) else Z.testbit (d_up a) (i - s - ibits t)).
  { destruct (i - s <? 0) eqn:E; [apply Z.testbit_neg_r; lia|]. unfold dval. rewrite dval_testbit by lia. reflexivity. }
  rewrite DV. unfold di_shl.
  destruct (s >? 0) eqn:E0.
  - destruct (s <? ibits t) eqn:E1; cbn [d_up d_lo].
    + destruct (i <? ibits t) eqn:E2.
      * rewrite cast_testbit, shiftl_testbit by lia. replace (i - s <? ibits t) with true by lia.
        destruct (i - s <? 0) eqn:E3; [apply Z.testbit_neg_r; lia|reflexivity].
      * rewrite cast_testbit, Z.lor_spec, cast_testbit, shiftl_testbit, shiftr_testbit by lia.
        replace (i - s <? 0) with false by lia. destruct (i - s <? ibits t) eqn:E3.
        -- rewrite (Z.testbit_neg_r (d_up a)) by lia. cbn [orb]. f_equal. lia.
        -- rewrite (LB (i - ibits t + (ibits t - s))) by lia. rewrite orb_false_r. f_equal. lia.
    + destruct (i <? ibits t) eqn:E2.
      * replace (i - s <? 0) with true by lia. apply Z.testbit_0_l.
      * rewrite cast_testbit, shiftl_testbit by lia. replace (i - s <? ibits t) with true by lia.
        replace (i - ibits t - (s - ibits t)) with (i - s) by lia.
        destruct (i - s <? 0) eqn:E3; [apply Z.testbit_neg_r; lia|reflexivity].
  - assert (s = 0) by lia. subst s. rewrite Z.sub_0_r. replace (i <? 0) with false by lia. reflexivity.
Qed.

Theorem di_shr_exact t a s : isgn t = false -> 0 < ibits t -> dwf t a -> 0 <= s < 2 * ibits t ->
  dwf t (di_shr t a s) /\ dval t (di_shr t a s) = dval t a / 2 ^ s.
Proof.
  intros S Ht Ha Hs.
  assert (Z00 : in_ty t 0) by (unfold in_ty, imin, imax; rewrite S; pose proof (Z.pow_pos_nonneg 2 (ibits t)); lia).
  assert (U0 : d_up a <? 0 = false) by (destruct Ha as [U _]; unfold in_ty, imin in U; rewrite S in U; lia).
  assert (WF : dwf t (di_shr t a s)).
  { unfold di_shr. rewrite U0. destruct (s >? 0); [|exact Ha]. destruct (s <? ibits t); split; cbn [d_up d_lo]; try apply cast_range; auto. }
  split; [exact WF|]. rewrite <- Z.shiftr_div_pow2 by lia.
  apply Z.bits_inj'. intros i Hi. rewrite shiftr_testbit by lia. unfold dval. rewrite !dval_testbit by lia.
  assert (LB : forall x j, in_ty t x -> ibits t <= j -> Z.testbit x j = false).
  { intros x j L Hj. unfold in_ty, imin, imax in L. rewrite S in L.
    destruct (Z.eq_dec x 0) as [->|N]; [apply Z.testbit_0_l|].
    apply Z.bits_above_log2; [lia|]. apply Z.lt_le_trans with (ibits t); [|lia]. apply Z.log2_lt_pow2; lia. }
  assert (CB : forall x j, 0 <= j -> Z.testbit (cast t x) j = (j <? ibits t) && Z.testbit x j).
  { intros x j Hj. unfold cast. rewrite S. apply uwrap_testbit; lia. }
  destruct Ha as [Ua La]. unfold di_shr. rewrite U0.
  destruct (s >? 0) eqn:E0.
  - destruct (s <? ibits t) eqn:E1; cbn [d_up d_lo].
    + destruct (i <? ibits t) eqn:E2.
      * rewrite CB, E2, Z.lor_spec, CB, E2, shiftr_testbit, shiftl_testbit by lia. cbn [andb].
        destruct (i + s <? ibits t) eqn:E3.
        -- rewrite (Z.testbit_neg_r (d_up a)) by lia. apply orb_false_r.
        -- rewrite (LB (d_lo a)) by (auto; lia). cbn [orb]. f_equal. lia.
      * rewrite CB, shiftr_testbit by lia. replace (i + s <? ibits t) with false by lia.
        replace (i - ibits t + s) with (i + s - ibits t) by lia.
        destruct (i - ibits t <? ibits t) eqn:E3; [reflexivity|]. cbn [andb]. symmetry. apply LB; auto. lia.
    + replace (i + s <? ibits t) with false by lia. destruct (i <? ibits t) eqn:E2.
      * rewrite CB, E2, shiftr_testbit by lia. cbn [andb]. f_equal. lia.
      * rewrite Z.testbit_0_l. symmetry. apply LB; auto. lia.
  - assert (s = 0) by lia. subst s. rewrite Z.add_0_r. reflexivity.
Qed.

(** Bitwise operations *)
Lemma bitop_in_ty t z : 0 < ibits t -> cast t z = z -> in_ty t z.
Proof. intros Ht E. rewrite <- E. apply cast_range; auto. Qed.

Lemma in_ty_high t x : 0 < ibits t -> in_ty t x ->
  forall i, ibits t <= i -> Z.testbit x i = if isgn t then Z.testbit x (ibits t - 1) else false.
Proof.
  intros Ht Hx i Hi. rewrite <- (cast_id t x) by auto. unfold cast. destruct (isgn t).
  - rewrite !swrap_testbit by lia. replace (i <? ibits t) with false by lia. replace (ibits t - 1 <? ibits t) with true by lia. reflexivity.
  - rewrite uwrap_testbit by lia. replace (i <? ibits t) with false by lia. reflexivity.
Qed.

Lemma high_in_ty t x : 0 < ibits t ->
  (forall i, ibits t <= i -> Z.testbit x i = if isgn t then Z.testbit x (ibits t - 1) else false) -> in_ty t x.
Proof.
  intros Ht H. apply bitop_in_ty; auto. apply Z.bits_inj'. intros i Hi. unfold cast. destruct (isgn t) eqn:S.
  - rewrite swrap_testbit by lia. destruct (i <? ibits t) eqn:E; [reflexivity|]. symmetry. apply H. lia.
  - rewrite uwrap_testbit by lia. destruct (i <? ibits t) eqn:E; [reflexivity|]. symmetry. apply H. lia.
Qed.

Lemma land_in_ty t a b : 0 < ibits t -> in_ty t a -> in_ty t b -> in_ty t (Z.land a b).
Proof.
  intros Ht Ha Hb. apply high_in_ty; auto. intros i Hi. rewrite !Z.land_spec.
  rewrite (in_ty_high t a), (in_ty_high t b) by auto. destruct (isgn t); reflexivity.
Qed.
Lemma lor_in_ty t a b : 0 < ibits t -> in_ty t a -> in_ty t b -> in_ty t (Z.lor a b).
Proof.
  intros Ht Ha Hb. apply high_in_ty; auto. intros i Hi. rewrite !Z.lor_spec.
  rewrite (in_ty_high t a), (in_ty_high t b) by auto. destruct (isgn t); reflexivity.
Qed.

Theorem di_bitwise_exact t a b : 0 < ibits t -> dwf t a -> dwf t b ->
  dwf t (di_and t a b) /\ dval t (di_and t a b) = Z.land (dval t a) (dval t b) /\
  dwf t (di_or t a b) /\ dval t (di_or t a b) = Z.lor (dval t a) (dval t b) /\
  dwf t (di_not t a) /\ dval t (di_not t a) = cast (double_ty t) (Z.lnot (dval t a)).
Proof.
  intros Ht [Ua La] [Ub Lb].
  split; [split; apply land_in_ty; auto|]. split.
  { apply Z.bits_inj'. intros i Hi. rewrite Z.land_spec. unfold dval. rewrite !dval_testbit by lia. cbn [d_up d_lo di_and].
    destruct (i <? ibits t); apply Z.land_spec. }
  split; [split; apply lor_in_ty; auto|]. split.
  { apply Z.bits_inj'. intros i Hi. rewrite Z.lor_spec. unfold dval. rewrite !dval_testbit by lia. cbn [d_up d_lo di_or].
    destruct (i <? ibits t); apply Z.lor_spec. }
  assert (WF : dwf t (di_not t a)) by apply di_wf_cast, Ht.
  split; [exact WF|].
  apply (in_ty_bits_inj (double_ty t)); [cbn [double_ty ibits]; lia|apply dval_range; auto|apply cast_range; cbn [double_ty ibits]; lia|].
  cbn [double_ty ibits]. intros i Hi. rewrite cast_testbit by (cbn [double_ty ibits]; lia). rewrite Z.lnot_spec by lia.
  unfold dval. rewrite !dval_testbit by lia. cbn [d_up d_lo di_not].
  destruct (i <? ibits t) eqn:E; rewrite cast_testbit, Z.lnot_spec by lia; reflexivity.
Qed.

(** Conversion from an integer of another type *)
Theorem di_of_exact t t2 n : 0 < ibits t -> 0 < ibits t2 -> in_ty t2 n ->
  dwf t (di_of t t2 n) /\ dval t (di_of t t2 n) = cast (double_ty t) n.
Proof.
  intros Ht Ht2 Hn.
  assert (Z00 : in_ty t 0) by (apply in_ty_nonneg; [rewrite imax_usable; pose proof (Z.pow_pos_nonneg 2 (usable_bits t) ltac:(lia) ltac:(apply usable_pos; auto)); lia|auto]).
  assert (WF : dwf t (di_of t t2 n)).
  { unfold di_of. destruct (n =? 0); [split; auto|].
    destruct (n >? 0), (ibits t2 >? ibits t); split; cbn [d_up d_lo]; auto; apply cast_range; auto. }
  split; [exact WF|].
  apply (in_ty_bits_inj (double_ty t)); [cbn [double_ty ibits]; lia|apply dval_range; auto|apply cast_range; cbn [double_ty ibits]; lia|].
  cbn [double_ty ibits]. intros i Hi. rewrite cast_testbit by (cbn [double_ty ibits]; lia).
  unfold dval. rewrite dval_testbit by lia. unfold di_of.
  destruct (n =? 0) eqn:N0.
  { assert (n = 0) by lia. subst n. cbn [d_up d_lo]. rewrite !Z.testbit_0_l. destruct (_ <? _); reflexivity. }
  destruct (i <? ibits t) eqn:E.
  { destruct (n >? 0); cbn [d_lo]; rewrite cast_testbit by lia; reflexivity. }
  destruct (ibits t2 >? ibits t) eqn:G.
  { destruct (n >? 0); cbn [d_up]; rewrite cast_testbit, shiftr_testbit by lia; f_equal; lia. }
  rewrite (in_ty_high t2 n) by (auto; lia).
  destruct (n >? 0) eqn:NP; cbn [d_up].
  - rewrite Z.testbit_0_l. destruct (isgn t2) eqn:S2; [|reflexivity].
    unfold in_ty, imin, imax in Hn. rewrite S2 in Hn. symmetry. rewrite (testbit_sign_above (ibits t2)) by lia. lia.
  - rewrite cast_testbit, m1_testbit by lia. unfold in_ty, imin, imax in Hn. destruct (isgn t2) eqn:S2; [|lia].
    symmetry. rewrite (testbit_sign_above (ibits t2)) by lia. lia.
Qed.

(** Findings: with signed halves the shifts are wrong. *)
Theorem di_shl_signed_refuted : exists t a s, std_ty t /\ isgn t = true /\ dwf t a /\ 0 <= s < 2 * ibits t /\
  dval t (di_shl t a s) <> cast (double_ty t) (dval t a * 2 ^ s).
Proof.
  exists (ITy 32 true), (DI 0 (-2147483648)), 1. 
  split; [right; right; left; reflexivity|]. split; [reflexivity|].
  split; [split; unfold in_ty; vm_compute; split; discriminate|]. split; [cbn; lia|]. vm_compute. discriminate.
Qed.

Theorem di_shr_signed_refuted : exists t a s, std_ty t /\ isgn t = true /\ dwf t a /\ 0 <= s < 2 * ibits t /\
  dval t (di_shr t a s) <> dval t a / 2 ^ s.
Proof.
  exists (ITy 32 true), (DI 0 (-2147483648)), 1. 
  split; [right; right; left; reflexivity|]. split; [reflexivity|].
  split; [split; unfold in_ty; vm_compute; split; discriminate|]. split; [cbn; lia|]. vm_compute. discriminate.
Qed.
