From Verif Require Import Base BitsBase IntArith_Model IntArith_Spec.

Lemma imax_usable t : imax t = 2 ^ usable_bits t - 1.
Proof. unfold imax, usable_bits; destruct (isgn t); reflexivity. Qed.
Lemma imin_signed t : isgn t = true -> imin t = - 2 ^ usable_bits t.
Proof. unfold imin, usable_bits; intros ->; reflexivity. Qed.
Lemma usable_pos t : 0 < ibits t -> 0 <= usable_bits t.
Proof. unfold usable_bits; destruct (isgn t); lia. Qed.

Lemma shiftr_max a k : 0 <= k <= a -> Z.shiftr (2 ^ a - 1) k = 2 ^ (a - k) - 1.
Proof.
  intros H. rewrite Z.shiftr_div_pow2 by lia. symmetry.
  apply Z.div_unique with (2 ^ k - 1).
  - left. pose proof (Z.pow_pos_nonneg 2 k ltac:(lia) ltac:(lia)). lia.
  - replace a with (k + (a - k)) at 1 by lia. rewrite Z.pow_add_r by lia. ring.
Qed.

Lemma shiftr_min a k : 0 <= k <= a -> Z.shiftr (- 2 ^ a) k = - 2 ^ (a - k).
Proof.
  intros H. rewrite Z.shiftr_div_pow2 by lia.
  replace a with ((a - k) + k) at 1 by lia. rewrite Z.pow_add_r by lia.
  rewrite <- Z.mul_opp_l. apply Z.div_mul. pose proof (Z.pow_pos_nonneg 2 k ltac:(lia) ltac:(lia)). lia.
Qed.

Lemma in_ty_nonneg t z : 0 <= z <= imax t -> 0 < ibits t -> in_ty t z.
Proof.
  intros H Ht. unfold in_ty, imin. pose proof (Z.pow_pos_nonneg 2 (ibits t - 1) ltac:(lia) ltac:(lia)).
  destruct (isgn t); lia.
Qed.

Theorem saturate_clamp to_ ti n input :
  0 < ibits to_ -> 0 < ibits ti -> 0 < n <= ibits to_ -> in_ty ti input ->
  saturate_integer to_ ti n input = clamp (bit_min (isgn to_) n) (bit_max (isgn to_) n) input.
Proof.
  intros Ho Hi Hn Hin.
  set (un := if isgn to_ then n - 1 else n).
  assert (EM : bit_max (isgn to_) n = 2 ^ un - 1) by (unfold bit_max, un; destruct (isgn to_); reflexivity).
  assert (Pn : 0 < 2 ^ un) by (apply Z.pow_pos_nonneg; unfold un; destruct (isgn to_); lia).
  pose proof (usable_pos to_ Ho) as Uo. pose proof (usable_pos ti Hi) as Ui.
  pose proof (Z.pow_pos_nonneg 2 (usable_bits to_) ltac:(lia) Uo) as Po.
  pose proof (Z.pow_pos_nonneg 2 (usable_bits ti) ltac:(lia) Ui) as Pi.
  assert (Lno : 2 ^ un <= 2 ^ usable_bits to_).
  { apply Z.pow_le_mono_r; [lia|]. unfold un, usable_bits. destruct (isgn to_); lia. }
  assert (EX : cast to_ (Z.shiftr (imax to_) (ibits to_ - n)) = 2 ^ un - 1).
  { rewrite imax_usable, shiftr_max by (unfold usable_bits; destruct (isgn to_); lia).
    replace (usable_bits to_ - (ibits to_ - n)) with un by (unfold un, usable_bits; destruct (isgn to_); lia).
    apply cast_id; [auto|]. apply in_ty_nonneg; [rewrite imax_usable; lia|auto]. }
  unfold saturate_integer. rewrite EX, EM. unfold clamp.
  destruct (input >=? 0) eqn:Ein.
  - replace (input <? bit_min (isgn to_) n) with false
      by (unfold bit_min; pose proof (Z.pow_pos_nonneg 2 (n - 1) ltac:(lia) ltac:(lia)); destruct (isgn to_); lia).
    assert (Hin2 : 0 <= input <= 2 ^ usable_bits ti - 1) by (unfold in_ty in Hin; rewrite imax_usable in Hin; lia).
    destruct (usable_bits ti >? usable_bits to_) eqn:EU.
    + assert (2 ^ usable_bits to_ <= 2 ^ usable_bits ti) by (apply Z.pow_le_mono_r; lia).
      rewrite (cast_id ti) by (auto; (apply in_ty_nonneg; [rewrite imax_usable; lia|auto])).
      destruct (input >? 2 ^ un - 1) eqn:EG; [reflexivity|].
      apply cast_id; auto. apply in_ty_nonneg; [rewrite imax_usable; lia|auto].
    + assert (2 ^ usable_bits ti <= 2 ^ usable_bits to_) by (apply Z.pow_le_mono_r; lia).
      rewrite (cast_id to_ input) by (auto; (apply in_ty_nonneg; [rewrite imax_usable; lia|auto])). reflexivity.
  - assert (Si : isgn ti = true) by (unfold in_ty, imin in Hin; destruct (isgn ti); [reflexivity|lia]).
    assert (Hin2 : - 2 ^ usable_bits ti <= input < 0).
    { unfold in_ty in Hin. rewrite (imin_signed ti Si) in Hin. lia. }
    destruct (isgn to_) eqn:So; cbn [negb].
    + assert (un = n - 1) by reflexivity.
      assert (EN : cast to_ (Z.shiftr (imin to_) (ibits to_ - n)) = - 2 ^ un).
      { rewrite imin_signed, shiftr_min by (auto; unfold usable_bits; rewrite So; lia).
        replace (usable_bits to_ - (ibits to_ - n)) with un by (unfold usable_bits; rewrite So; lia).
        apply cast_id; [auto|]. unfold in_ty. rewrite imin_signed, imax_usable by auto. lia. }
      rewrite EN. unfold bit_min. rewrite <- H.
      destruct (usable_bits ti >? usable_bits to_) eqn:EU.
      * assert (2 ^ usable_bits to_ <= 2 ^ usable_bits ti) by (apply Z.pow_le_mono_r; lia).
        rewrite (cast_id ti) by (auto; unfold in_ty; rewrite imin_signed, imax_usable by auto; lia).
        destruct (input <? - 2 ^ un) eqn:EG; [reflexivity|].
        replace (input >? 2 ^ un - 1) with false by lia.
        apply cast_id; auto. unfold in_ty; rewrite imin_signed, imax_usable by auto; lia.
      * assert (2 ^ usable_bits ti <= 2 ^ usable_bits to_) by (apply Z.pow_le_mono_r; lia).
        rewrite (cast_id to_ input) by (auto; unfold in_ty; rewrite imin_signed, imax_usable by auto; lia).
        destruct (input <? - 2 ^ un) eqn:EG; [reflexivity|].
        replace (input >? 2 ^ un - 1) with false by lia. reflexivity.
    + unfold bit_min. replace (input <? 0) with true by lia. reflexivity.
Qed.

Theorem safe_number_exact ti to_ src :
  std_ty to_ -> std_ty ti -> in_ty ti src ->
  safe_number2number ti to_ src =
    ((imin to_ <=? src) && (src <=? imax to_), clamp (imin to_) (imax to_) src).
Proof.
  intros So_ Si_ Hs.
  assert (Ho : 8 <= ibits to_) by (unfold std_ty in So_; lia).
  assert (Hi : 8 <= ibits ti) by (unfold std_ty in Si_; lia). clear So_ Si_.
  pose proof (usable_pos to_ ltac:(lia)) as Uo. pose proof (usable_pos ti ltac:(lia)) as Ui.
  pose proof (Z.pow_pos_nonneg 2 (usable_bits to_) ltac:(lia) Uo) as Po.
  pose proof (Z.pow_pos_nonneg 2 (usable_bits ti) ltac:(lia) Ui) as Pi.
  assert (MO : imin to_ <= 0) by (unfold imin; destruct (isgn to_); [pose proof (Z.pow_pos_nonneg 2 (ibits to_ - 1)); lia|lia]).
  assert (MI : imin ti <= 0) by (unfold imin; destruct (isgn ti); [pose proof (Z.pow_pos_nonneg 2 (ibits ti - 1)); lia|lia]).
  assert (XO : 0 <= imax to_) by (rewrite imax_usable; lia).
  assert (XI : 0 <= imax ti) by (rewrite imax_usable; lia).
  unfold in_ty in Hs. unfold safe_number2number, clamp.
  (* the tests are exact comparisons with the bounds of the destination type *)
  assert (T1 : (if usable_bits ti >? usable_bits to_ then src >? cast ti (imax to_) else false) = (src >? imax to_)).
  { destruct (usable_bits ti >? usable_bits to_) eqn:E.
    - rewrite cast_id; [reflexivity|lia|]. apply in_ty_nonneg; [|lia]. rewrite !imax_usable in *.
      assert (2 ^ usable_bits to_ <= 2 ^ usable_bits ti) by (apply Z.pow_le_mono_r; lia). lia.
    - rewrite !imax_usable in *. assert (2 ^ usable_bits ti <= 2 ^ usable_bits to_) by (apply Z.pow_le_mono_r; lia). lia. }
  assert (T2 : (if usable_neg_bits ti >? usable_neg_bits to_ then src <? cast ti (imin to_) else false) = (src <? imin to_)).
  { unfold usable_neg_bits. destruct (isgn ti) eqn:Si.
    - destruct (ibits ti - 1 >? (if isgn to_ then ibits to_ - 1 else 0)) eqn:E.
      + rewrite cast_id; [reflexivity|lia|]. unfold in_ty, imin in *. rewrite Si in *. destruct (isgn to_) eqn:So; [|lia].
        assert (2 ^ (ibits to_ - 1) <= 2 ^ (ibits ti - 1)) by (apply Z.pow_le_mono_r; lia). lia.
      + unfold imin in *. rewrite Si in *. destruct (isgn to_) eqn:So; [|lia].
        assert (2 ^ (ibits ti - 1) <= 2 ^ (ibits to_ - 1)) by (apply Z.pow_le_mono_r; lia). lia.
    - replace (0 >? (if isgn to_ then ibits to_ - 1 else 0)) with false by (destruct (isgn to_); lia).
      unfold imin in Hs. rewrite Si in Hs. lia. }
  assert (CI : imin to_ <= src <= imax to_ -> cast to_ src = src) by (intros; apply cast_id; [lia|unfold in_ty; lia]).
  destruct (usable_bits ti >? usable_bits to_), (usable_neg_bits ti >? usable_neg_bits to_); rewrite ?T1, ?T2.
  - destruct (src >? imax to_) eqn:E1.
    + replace (src <? imin to_) with false by lia. f_equal. lia.
    + destruct (src <? imin to_) eqn:E2; f_equal; try lia; try (apply CI; lia).
  - replace (src <? imin to_) with false by lia. destruct (src >? imax to_) eqn:E1; f_equal; try lia; try (apply CI; lia).
  - replace (src >? imax to_) with false by lia. destruct (src <? imin to_) eqn:E2; f_equal; try lia; try (apply CI; lia).
  - replace (src >? imax to_) with false by lia. replace (src <? imin to_) with false by lia.
    f_equal; try lia; try (apply CI; lia).
Qed.

(** ** Bit fields *)

Lemma br_mask_testbit t n off i :
  0 < ibits t <= 64 -> 0 < n -> 0 <= off -> n + off <= ibits t -> 0 <= i < ibits t ->
  Z.testbit (br_mask t n off) i =
    if isgn t then off <=? i else (off <=? i) && (i <? off + n).
Proof.
  intros Ht Hn Ho Hw Hi. unfold br_mask. rewrite cast_testbit by lia. rewrite uwrap_testbit by lia.
  replace (i <? 64) with true by lia. cbn [andb]. rewrite shiftl_testbit by lia.
  destruct (Z.lt_ge_cases i off) as [L|L].
  - rewrite Z.testbit_neg_r by lia. replace (off <=? i) with false by lia. destruct (isgn t); reflexivity.
  - replace (off <=? i) with true by lia. rewrite uwrap_testbit by lia. replace (i - off <? 64) with true by lia.
    cbn [andb]. rewrite shiftr_testbit by lia. unfold cast. destruct (isgn t).
    + rewrite swrap_testbit by lia. apply Z.bits_m1. destruct (_ <? _) eqn:E; lia.
    + rewrite uwrap_testbit by lia. rewrite m1_testbit by lia. rewrite andb_true_r. lia.
Qed.

Lemma cast_land_in t a b : 0 < ibits t -> in_ty t (cast t (Z.land a b)).
Proof. intros. apply cast_range. lia. Qed.

(** Bits of the word after an assignment of the (saturated) value [v]. *)
Lemma br_assign_testbit t ti n off word input i :
  0 < ibits t <= 64 -> 0 < n -> 0 <= off -> n + off <= ibits t -> 0 <= i < ibits t ->
  Z.testbit (br_assign t ti n off word input) i =
    if Z.testbit (br_mask t n off) i then Z.testbit (saturate_integer t ti n input) (i - off)
    else Z.testbit word i.
Proof.
  intros Ht Hn Ho Hw Hi. unfold br_assign, br_notmask.
  rewrite cast_testbit, Z.lor_spec by lia. rewrite !cast_testbit, !Z.land_spec by lia.
  rewrite !cast_testbit, Z.lnot_spec, shiftl_testbit by lia.
  destruct (Z.testbit (br_mask t n off) i); cbn [negb]; rewrite ?andb_false_r, ?andb_true_r, ?orb_false_l, ?orb_false_r; reflexivity.
Qed.

Lemma clamp_range lo hi x : lo <= hi -> lo <= clamp lo hi x <= hi.
Proof. unfold clamp. intros. destruct (x <? lo) eqn:?, (x >? hi) eqn:?; lia. Qed.

Lemma br_read_testbit t n off word i :
  0 < ibits t <= 64 -> 0 < n -> 0 <= off -> n + off <= ibits t -> 0 <= i < ibits t ->
  Z.testbit (br_read t n off word) i =
    if i <? n then Z.testbit word (off + i) else if isgn t then Z.testbit word (off + n - 1) else false.
Proof.
  intros Ht Hn Ho Hw Hi. unfold br_read.
  assert (A : forall j, ibits t - n <= j < ibits t -> Z.testbit (cast t (Z.shiftl (cast t (Z.land word (br_mask t n off))) (ibits t - off - n))) j
             = Z.testbit word (j - (ibits t - off - n))).
  { intros j Hj. rewrite cast_testbit, shiftl_testbit, cast_testbit, Z.land_spec, br_mask_testbit by lia.
    replace (if isgn t then _ else _) with true by (destruct (isgn t); lia). apply andb_true_r. }
  rewrite cast_testbit, shiftr_testbit by lia.
  destruct (i <? n) eqn:E.
  - rewrite A by lia. f_equal. lia.
  - unfold cast at 1. destruct (isgn t) eqn:S.
    + rewrite swrap_testbit by lia. replace (i + (ibits t - n) <? ibits t) with false by lia.
      specialize (A (ibits t - 1) ltac:(lia)). rewrite cast_testbit in A by lia. rewrite A. f_equal. lia.
    + rewrite uwrap_testbit by lia. replace (i + (ibits t - n) <? ibits t) with false by lia. reflexivity.
Qed.

(** Reading the field back gives the saturated value, for signed and unsigned base types. *)
Theorem br_read_back t ti n off word input :
  0 < ibits t <= 64 -> 0 < ibits ti -> 0 < n -> 0 <= off -> n + off <= ibits t -> in_ty ti input ->
  br_read t n off (br_assign t ti n off word input) = clamp (bit_min (isgn t) n) (bit_max (isgn t) n) input.
Proof.
  intros Ht Hti Hn Ho Hw Hin.
  set (v := clamp (bit_min (isgn t) n) (bit_max (isgn t) n) input).
  assert (HV : bit_min (isgn t) n <= v <= bit_max (isgn t) n).
  { apply clamp_range. unfold bit_min, bit_max. pose proof (Z.pow_pos_nonneg 2 (n - 1) ltac:(lia) ltac:(lia)).
    pose proof (Z.pow_pos_nonneg 2 n ltac:(lia) ltac:(lia)). destruct (isgn t); lia. }
  assert (IV : in_ty t v).
  { unfold bit_min, bit_max, in_ty, imin, imax in *. destruct (isgn t).
    - assert (2 ^ (n - 1) <= 2 ^ (ibits t - 1)) by (apply Z.pow_le_mono_r; lia). lia.
    - assert (2 ^ n <= 2 ^ ibits t) by (apply Z.pow_le_mono_r; lia). lia. }
  apply (in_ty_bits_inj t); [lia|unfold br_read; apply cast_range; lia|exact IV|].
  intros i Hi. rewrite br_read_testbit by lia.
  assert (SB : forall j, 0 <= j < n -> Z.testbit (br_assign t ti n off word input) (off + j) = Z.testbit v j).
  { intros j Hj. rewrite br_assign_testbit, br_mask_testbit by lia.
    replace (if isgn t then _ else _) with true by (destruct (isgn t); lia).
    rewrite saturate_clamp by (auto; lia). fold v. f_equal. lia. }
  destruct (i <? n) eqn:E; [apply SB; lia|].
  unfold bit_min, bit_max in HV. destruct (isgn t) eqn:S.
  - replace (off + n - 1) with (off + (n - 1)) by lia. rewrite SB by lia.
    rewrite !(testbit_sign_above n) by lia. reflexivity.
  - symmetry. destruct (Z.eq_dec v 0) as [->|N]; [apply Z.testbit_0_l|].
    apply Z.bits_above_log2; [lia|]. apply Z.lt_le_trans with n; [|lia]. apply Z.log2_lt_pow2; lia.
Qed.

(** Frame: with an unsigned base type every bit outside the field keeps its value. *)
Theorem br_frame_unsigned t ti n off word input i :
  isgn t = false -> 0 < ibits t <= 64 -> 0 < n -> 0 <= off -> n + off <= ibits t -> 0 <= i < ibits t ->
  i < off \/ off + n <= i ->
  Z.testbit (br_assign t ti n off word input) i = Z.testbit word i.
Proof.
  intros S Ht Hn Ho Hw Hi Hout. rewrite br_assign_testbit, br_mask_testbit by lia. rewrite S.
  replace ((off <=? i) && (i <? off + n)) with false by lia. reflexivity.
Qed.

(** With a signed base type the bits below the field are kept and the bits above it become copies of the
    sign of the stored value. *)
Theorem br_frame_signed t ti n off word input i :
  isgn t = true -> 0 < ibits t <= 64 -> 0 < ibits ti -> in_ty ti input ->
  0 < n -> 0 <= off -> n + off <= ibits t -> 0 <= i < ibits t ->
  (i < off -> Z.testbit (br_assign t ti n off word input) i = Z.testbit word i) /\
  (off + n <= i -> Z.testbit (br_assign t ti n off word input) i =
                   (clamp (- 2 ^ (n - 1)) (2 ^ (n - 1) - 1) input <? 0)).
Proof.
  intros S Ht Hti Hin Hn Ho Hw Hi. rewrite br_assign_testbit, br_mask_testbit by lia. rewrite S. split; intros H.
  - replace (off <=? i) with false by lia. reflexivity.
  - replace (off <=? i) with true by lia. rewrite saturate_clamp by (auto; lia). rewrite S. unfold bit_min, bit_max.
    pose proof (Z.pow_pos_nonneg 2 (n - 1) ltac:(lia) ltac:(lia)).
    pose proof (clamp_range (- 2 ^ (n - 1)) (2 ^ (n - 1) - 1) input ltac:(lia)).
    apply (testbit_sign_above n); lia.
Qed.

Theorem br_word_range t ti n off word input :
  0 < ibits t -> in_ty t (br_assign t ti n off word input).
Proof. intros. unfold br_assign. apply cast_range; auto. Qed.

Theorem br_frame_signed_refuted : exists t ti n off word input i,
  std_ty t /\ isgn t = true /\ in_ty ti input /\ in_ty t word /\ 0 < n /\ 0 <= off /\ n + off <= ibits t /\
  off + n <= i < ibits t /\ Z.testbit (br_assign t ti n off word input) i <> Z.testbit word i.
Proof.
  exists (ITy 32 true), (ITy 32 true), 4, 8, (2 ^ 20), 0, 20.
  repeat split; try (vm_compute; congruence); try lia. right; right; left; reflexivity.
Qed.

(** BitBoolean *)
Lemma bb_mask_testbit t off i : 0 < ibits t -> 0 <= off < ibits t -> 0 <= i < ibits t ->
  Z.testbit (bb_mask t off) i = (i =? off).
Proof.
  intros Ht Ho Hi. unfold bb_mask. rewrite cast_testbit, Z.shiftl_1_l by lia. apply pow2_testbit. lia.
Qed.

Theorem bb_assign_bits t off word flag i :
  0 < ibits t -> 0 <= off < ibits t -> 0 <= i < ibits t ->
  Z.testbit (bb_assign t off word flag) i = if i =? off then flag else Z.testbit word i.
Proof.
  intros Ht Ho Hi. unfold bb_assign. destruct flag.
  - rewrite cast_testbit, Z.lor_spec, bb_mask_testbit by lia. destruct (i =? off); [apply orb_true_r|apply orb_false_r].
  - rewrite cast_testbit, Z.land_spec, cast_testbit, Z.lnot_spec, bb_mask_testbit by lia.
    destruct (i =? off); [apply andb_false_r|apply andb_true_r].
Qed.

Theorem bb_read_bit t off word : 0 < ibits t -> 0 <= off < ibits t -> in_ty t word ->
  bb_read t off word = Z.testbit word off.
Proof.
  intros Ht Ho Hw. unfold bb_read.
  assert (L : forall i, 0 <= i < ibits t -> Z.testbit (Z.land word (bb_mask t off)) i = (i =? off) && Z.testbit word off).
  { intros i Hi. rewrite Z.land_spec, bb_mask_testbit by lia. destruct (i =? off) eqn:E.
    - assert (i = off) by lia. subst. apply andb_true_r.
    - apply andb_false_r. }
  destruct (Z.eqb_spec (Z.land word (bb_mask t off)) 0) as [E|E]; cbn [negb].
  - specialize (L off Ho). rewrite E, Z.testbit_0_l, Z.eqb_refl in L. exact L.
  - destruct (Z.testbit word off) eqn:B; [reflexivity|]. exfalso. apply E.
    apply Z.bits_inj'. intros i Hi. rewrite Z.testbit_0_l. rewrite Z.land_spec.
    destruct (Z.lt_ge_cases i (ibits t)) as [Hl|Hl].
    + rewrite <- Z.land_spec, L by lia. apply andb_false_r.
    + unfold bb_mask, cast. unfold in_ty, imin, imax in Hw. destruct (isgn t) eqn:S.
      * rewrite swrap_testbit by lia. replace (i <? ibits t) with false by lia.
        rewrite Z.shiftl_1_l, pow2_testbit by lia.
        destruct (Z.eq_dec (ibits t - 1) off) as [F|F].
        -- rewrite (testbit_sign_above (ibits t)) by lia. rewrite <- F in B.
           rewrite (testbit_sign_above (ibits t)) in B by lia. rewrite B. reflexivity.
        -- replace (ibits t - 1 =? off) with false by lia. apply andb_false_r.
      * rewrite uwrap_testbit by lia. replace (i <? ibits t) with false by lia. apply andb_false_r.
Qed.
