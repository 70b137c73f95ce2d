(** Safe arithmetic and integer square root. *)
From Verif Require Import Base BitsBase IntArith_Model IntArith_Spec IntArith_Proofs.

Lemma land_sign x k : 0 <= k -> (Z.land x (- 2 ^ k) =? 0) = (Z.shiftr x k =? 0).
Proof.
  intros Hk. replace (- 2 ^ k) with (Z.lnot (Z.ones k)) by (unfold Z.lnot; rewrite Z.ones_equiv; lia).
  rewrite <- Z.ldiff_land, Z.ldiff_ones_r by lia. rewrite Z.shiftl_mul_pow2 by lia.
  pose proof (Z.pow_pos_nonneg 2 k ltac:(lia) ltac:(lia)).
  destruct (Z.eqb_spec (Z.shiftr x k) 0) as [->|N]; [reflexivity|]. apply Z.eqb_neq. nia.
Qed.

Lemma shiftr_sign x k : 0 <= k -> - 2 ^ k <= x < 2 ^ k -> Z.shiftr x k = if x <? 0 then -1 else 0.
Proof.
  intros Hk Hx. rewrite Z.shiftr_div_pow2 by lia. destruct (x <? 0) eqn:E.
  - symmetry. apply Z.div_unique with (x + 2 ^ k); lia.
  - apply Z.div_small. lia.
Qed.

Lemma sign_bit_signed t : 1 < ibits t -> isgn t = true -> sign_bit t = - 2 ^ (ibits t - 1).
Proof.
  intros Ht S. unfold sign_bit, cast. rewrite S. rewrite swrap_cases by lia.
  pose proof (pow2_half (ibits t) ltac:(lia)). pose proof (Z.pow_pos_nonneg 2 (ibits t - 1) ltac:(lia) ltac:(lia)).
  rewrite uwrap_id by lia. replace (_ <? _) with false by lia. lia.
Qed.

Lemma sign_test t x y : 1 < ibits t -> isgn t = true -> in_ty t x -> in_ty t y ->
  (Z.land (Z.lxor x y) (sign_bit t) =? 0) = Bool.eqb (x <? 0) (y <? 0).
Proof.
  intros Ht S Hx Hy. rewrite sign_bit_signed, land_sign by (auto; lia). rewrite Z.shiftr_lxor by lia.
  unfold in_ty, imin, imax in *. rewrite S in *.
  rewrite !shiftr_sign by lia. destruct (x <? 0), (y <? 0); reflexivity.
Qed.

Lemma sign_test1 t x : 1 < ibits t -> isgn t = true -> in_ty t x ->
  (Z.land x (sign_bit t) =? 0) = (0 <=? x).
Proof.
  intros Ht S Hx. rewrite sign_bit_signed, land_sign by (auto; lia).
  unfold in_ty, imin, imax in *. rewrite S in *.
  rewrite !shiftr_sign by lia. destruct (x <? 0) eqn:E; lia.
Qed.

(** Value of a conversion of something in a double range. *)
Lemma cast_once t z : 0 < ibits t -> 2 * imin t <= z <= 2 * imax t + 1 -> isgn t = true ->
  cast t z = if z <? imin t then z + 2 ^ ibits t else if z >? imax t then z - 2 ^ ibits t else z.
Proof.
  intros Ht Hz S. unfold imin, imax in *. rewrite S in *. pose proof (pow2_half (ibits t) Ht).
  assert (R : forall q, - 2 ^ (ibits t - 1) <= z + q * 2 ^ ibits t <= 2 ^ (ibits t - 1) - 1 -> cast t z = z + q * 2 ^ ibits t).
  { intros q Hq. rewrite <- (cast_id t (z + q * 2 ^ ibits t)); [|auto|unfold in_ty, imin, imax; rewrite S; lia].
    apply cast_eq_mod; [auto|]. rewrite Z.mod_add; [reflexivity|]. lia. }
  destruct (z <? _) eqn:E1; [rewrite (R 1); lia|]. destruct (z >? _) eqn:E2; [rewrite (R (-1)); lia|].
  rewrite (R 0); lia.
Qed.

Lemma cast_once_u t z : 0 < ibits t -> - 2 ^ ibits t <= z < 2 * 2 ^ ibits t -> isgn t = false ->
  cast t z = if z <? 0 then z + 2 ^ ibits t else if z >? imax t then z - 2 ^ ibits t else z.
Proof.
  intros Ht Hz S. unfold imax. rewrite S. pose proof (Z.pow_pos_nonneg 2 (ibits t) ltac:(lia) ltac:(lia)).
  assert (R : forall q, 0 <= z + q * 2 ^ ibits t <= 2 ^ ibits t - 1 -> cast t z = z + q * 2 ^ ibits t).
  { intros q Hq. rewrite <- (cast_id t (z + q * 2 ^ ibits t)); [|auto|unfold in_ty, imin, imax; rewrite S; lia].
    apply cast_eq_mod; [auto|]. rewrite Z.mod_add; [reflexivity|]. lia. }
  destruct (z <? _) eqn:E1; [rewrite (R 1); lia|]. destruct (z >? _) eqn:E2; [rewrite (R (-1)); lia|].
  rewrite (R 0); lia.
Qed.

Definition classify (t : ity) (exact : Z) : sm_err :=
  if exact >? imax t then SmOverflow else if exact <? imin t then SmUnderflow else SmOk.

Theorem sm_add_exact t a b : 1 < ibits t -> in_ty t a -> in_ty t b ->
  sm_add t a b = (classify t (a + b), cast t (a + b)).
Proof.
  intros Ht Ha Hb. unfold sm_add, classify. f_equal.
  pose proof (cast_range t (a + b) ltac:(lia)) as R.
  destruct (isgn t) eqn:S.
  - rewrite !sign_test, sign_test1 by auto. rewrite (cast_once t (a + b)) by (auto; unfold in_ty in *; lia).
    unfold in_ty, imin, imax in *. rewrite S in *. pose proof (pow2_half (ibits t) ltac:(lia)).
    pose proof (Z.pow_pos_nonneg 2 (ibits t - 1) ltac:(lia) ltac:(lia)).
    destruct (a + b <? _) eqn:E1.
    + replace (a + b >? _) with false by lia. replace (a <? 0) with true by lia. replace (b <? 0) with true by lia.
      replace (a + b + _ <? 0) with false by lia. replace (0 <=? a) with false by lia. reflexivity.
    + destruct (a + b >? _) eqn:E2.
      * replace (a <? 0) with false by lia. replace (b <? 0) with false by lia.
        replace (a + b - _ <? 0) with true by lia. replace (0 <=? a) with true by lia. reflexivity.
      * destruct (a <? 0) eqn:A, (b <? 0) eqn:B; cbn [Bool.eqb andb negb]; try reflexivity.
        -- replace (a + b <? 0) with true by lia. reflexivity.
        -- replace (a + b <? 0) with false by lia. reflexivity.
  - rewrite cast_once_u by (auto; unfold in_ty, imin, imax in *; rewrite S in *; lia).
    unfold in_ty, imin, imax in *. rewrite S in *.
    replace (a + b <? 0) with false by lia. destruct (a + b >? 2 ^ ibits t - 1) eqn:E.
    + replace (_ && _) with true by lia. reflexivity.
    + replace (_ && _) with false by lia. reflexivity.
Qed.

Theorem sm_sub_exact t a b : 1 < ibits t -> in_ty t a -> in_ty t b ->
  sm_sub t a b = (classify t (a - b), cast t (a - b)).
Proof.
  intros Ht Ha Hb. unfold sm_sub, classify. f_equal.
  destruct (isgn t) eqn:S.
  - pose proof (cast_range t (a - b) ltac:(lia)) as R.
    rewrite !sign_test, sign_test1 by auto. rewrite (cast_once t (a - b)) by (auto; unfold in_ty, imin, imax in *; rewrite S in *; lia).
    unfold in_ty, imin, imax in *. rewrite S in *. pose proof (pow2_half (ibits t) ltac:(lia)).
    pose proof (Z.pow_pos_nonneg 2 (ibits t - 1) ltac:(lia) ltac:(lia)).
    destruct (a - b <? _) eqn:E1.
    + replace (a - b >? _) with false by lia. replace (a <? 0) with true by lia. replace (b <? 0) with false by lia.
      replace (a - b + _ <? 0) with false by lia. replace (0 <=? a) with false by lia. reflexivity.
    + destruct (a - b >? _) eqn:E2.
      * replace (a <? 0) with false by lia. replace (b <? 0) with true by lia.
        replace (a - b - _ <? 0) with true by lia. replace (0 <=? a) with true by lia. reflexivity.
      * destruct (a <? 0) eqn:A, (b <? 0) eqn:B; cbn [Bool.eqb andb negb]; try reflexivity.
        -- replace (a - b <? 0) with true by lia. reflexivity.
        -- replace (a - b <? 0) with false by lia. reflexivity.
  - unfold in_ty, imin, imax in *. rewrite S in *. destruct (b >? a) eqn:E.
    + replace (a - b >? _) with false by lia. replace (a - b <? 0) with true by lia. reflexivity.
    + replace (a - b >? _) with false by lia. replace (a - b <? 0) with false by lia. reflexivity.
Qed.

Lemma double_range t a b : std_ty t -> in_ty t a -> in_ty t b -> in_ty (ITy (2 * ibits t) (isgn t)) (a * b).
Proof.
  intros Ht Ha Hb. assert (W : 8 <= ibits t) by (unfold std_ty in Ht; lia).
  unfold in_ty, imin, imax in *. cbn [ibits isgn].
  destruct (isgn t).
  - assert (E : 2 ^ (2 * ibits t - 1) = 2 * (2 ^ (ibits t - 1) * 2 ^ (ibits t - 1))).
    { replace (2 * ibits t - 1) with (1 + ((ibits t - 1) + (ibits t - 1))) by lia. rewrite !Z.pow_add_r by lia. reflexivity. }
    rewrite E. set (M := 2 ^ (ibits t - 1)) in *. assert (0 < M) by (apply Z.pow_pos_nonneg; lia).
    assert (Z.abs a <= M /\ Z.abs b <= M) as [A B] by lia.
    assert (Z.abs (a * b) <= M * M) by (rewrite Z.abs_mul; apply Z.mul_le_mono_nonneg; lia). nia.
  - replace (2 * ibits t) with (ibits t + ibits t) by lia. rewrite Z.pow_add_r by lia.
    set (M := 2 ^ ibits t) in *. assert (0 < M) by (apply Z.pow_pos_nonneg; lia). nia.
Qed.

Lemma land_mask_cast t r : std_ty t ->
  cast t (Z.land r (cast (ITy (2 * ibits t) (isgn t)) (if isgn t || (ibits t <? 32) then -1 else 2 ^ ibits t - 1))) = cast t r.
Proof.
  intros Ht. assert (W : 8 <= ibits t) by (unfold std_ty in Ht; lia).
  apply (in_ty_bits_inj t); [lia|apply cast_range; lia|apply cast_range; lia|]. intros i Hi.
  rewrite !cast_testbit by lia. rewrite Z.land_spec, cast_testbit by (cbn [ibits]; lia).
  destruct (isgn t || (ibits t <? 32)).
  - rewrite m1_testbit by lia. apply andb_true_r.
  - replace (2 ^ ibits t - 1) with (Z.ones (ibits t)) by (rewrite Z.ones_equiv; lia).
    rewrite ones_testbit by lia. replace (i <? ibits t) with true by lia. apply andb_true_r.
Qed.

(** Low and high parts: x1*x2 = high * 2^w + (low as bit pattern). *)
Theorem complete_multiply_exact t a b : std_ty t -> in_ty t a -> in_ty t b ->
  let '(lo, hi) := complete_multiply t a b in
  in_ty t lo /\ in_ty t hi /\ hi * 2 ^ ibits t + uwrap (ibits t) lo = a * b.
Proof.
  intros Ht Ha Hb. assert (W : 8 <= ibits t) by (unfold std_ty in Ht; lia).
  unfold complete_multiply. pose proof (double_range t a b Ht Ha Hb) as D.
  rewrite (cast_id (ITy (2 * ibits t) (isgn t)) (a * b)) by (auto; cbn [ibits]; lia).
  rewrite land_mask_cast by auto. split; [apply cast_range; lia|]. split; [apply cast_range; lia|].
  rewrite Z.shiftr_div_pow2 by lia.
  assert (P : 0 < 2 ^ ibits t) by (apply Z.pow_pos_nonneg; lia).
  rewrite (cast_id t (a * b / 2 ^ ibits t)).
  - assert (U : uwrap (ibits t) (cast t (a * b)) = uwrap (ibits t) (a * b)) by (unfold uwrap; apply cast_mod; lia).
    rewrite U. unfold uwrap. pose proof (Z.div_mod (a * b) (2 ^ ibits t) ltac:(lia)). lia.
  - lia.
  - unfold in_ty, imin, imax in *. cbn [ibits isgn] in D. destruct (isgn t).
    + replace (2 * ibits t - 1) with ((ibits t - 1) + ibits t) in D by lia. rewrite Z.pow_add_r in D by lia.
      split.
      * apply Z.div_le_lower_bound; [lia|]. lia.
      * assert (a * b / 2 ^ ibits t < 2 ^ (ibits t - 1)); [|lia]. apply Z.div_lt_upper_bound; lia.
    + replace (2 * ibits t) with (ibits t + ibits t) in D by lia. rewrite Z.pow_add_r in D by lia.
      split.
      * apply Z.div_pos; lia.
      * assert (a * b / 2 ^ ibits t < 2 ^ ibits t); [|lia]. apply Z.div_lt_upper_bound; lia.
Qed.

Theorem sm_mul_exact t a b : std_ty t -> in_ty t a -> in_ty t b ->
  sm_mul t a b = (a * b >? imax t, a * b <? imin t, cast t (a * b)).
Proof.
  intros Ht Ha Hb. pose proof (complete_multiply_exact t a b Ht Ha Hb) as X. unfold sm_mul.
  assert (LO : fst (complete_multiply t a b) = cast t (a * b)).
  { unfold complete_multiply. cbn [fst]. rewrite land_mask_cast by auto.
    pose proof (double_range t a b Ht Ha Hb) as D. rewrite (cast_id (ITy (2 * ibits t) (isgn t))); [reflexivity| |exact D].
    unfold std_ty in Ht; cbn [ibits]; lia. }
  destruct (complete_multiply t a b) as [lo hi]. cbn [fst] in LO. rewrite <- LO. destruct X as (L & H & E).
  assert (W : 8 <= ibits t) by (unfold std_ty in Ht; lia).
  assert (P : 0 < 2 ^ ibits t) by (apply Z.pow_pos_nonneg; lia).
  pose proof (uwrap_range (ibits t) lo ltac:(lia)) as U.
  pose proof (pow2_half (ibits t) ltac:(lia)) as PH.
  rewrite <- E. unfold in_ty, imin, imax in *. destruct (isgn t) eqn:S.
  - assert (AO : all_ones t = -1).
    { unfold all_ones, cast. rewrite S. rewrite swrap_cases by lia. rewrite uwrap_id by lia.
      replace (_ <? _) with false by lia. lia. }
    rewrite AO.
    assert (UL : uwrap (ibits t) lo = if lo <? 0 then lo + 2 ^ ibits t else lo).
    { destruct (lo <? 0) eqn:N.
      - unfold uwrap. symmetry. apply Z.mod_unique with (-1); [left; lia|lia].
      - apply uwrap_id. lia. }
    set (M := 2 ^ (ibits t - 1)) in *. rewrite PH in *.
    f_equal. f_equal.
    + destruct (hi >? 0) eqn:A; [|destruct (hi =? 0) eqn:B]; cbn [orb andb].
      * symmetry. assert (2 * M <= hi * (2 * M)) by nia. lia.
      * assert (hi = 0) by lia. subst hi. destruct (lo <? 0) eqn:C; rewrite UL; lia.
      * assert (hi * (2 * M) <= - (2 * M)) by nia. lia.
    + destruct (hi <? -1) eqn:A; [|destruct (hi =? -1) eqn:B]; cbn [orb andb].
      * symmetry. assert (hi * (2 * M) <= - 2 * (2 * M)) by nia. lia.
      * assert (hi = -1) by lia. subst hi. destruct (lo <? 0) eqn:C; rewrite UL; lia.
      * assert (0 <= hi * (2 * M)) by nia. lia.
  - f_equal. f_equal.
    + destruct (hi =? 0) eqn:A; cbn [negb].
      * assert (hi = 0) by lia. subst hi. lia.
      * assert (2 ^ ibits t <= hi * 2 ^ ibits t) by nia. lia.
    + assert (0 <= hi * 2 ^ ibits t) by nia. lia.
Qed.

(** The strict C++ reading: for int32/int64 the error cases of Addition/Subtraction are undefined. *)
Theorem sm_add_strict_spec t a b : std_ty t -> in_ty t a -> in_ty t b ->
  sm_add_strict t a b = if isgn t && (32 <=? ibits t) && negb ((imin t <=? a + b) && (a + b <=? imax t)) then None
                        else Some (classify t (a + b), cast t (a + b)).
Proof.
  intros Ht Ha Hb. unfold sm_add_strict, signed_ub. rewrite sm_add_exact by (auto; unfold std_ty in Ht; lia). reflexivity.
Qed.

(** ** Square root *)

Lemma sqrt_skip_spec fuel k tmp :
  0 <= tmp -> (Z.to_nat k < fuel)%nat -> 0 <= k ->
  sqrt_skip fuel (4 ^ k) tmp = if tmp =? 0 then 0 else 4 ^ (Z.min k (Z.log2 tmp / 2)).
Proof.
  intros Ht. revert k. induction fuel as [|f IH]; intros k Hf Hk; [lia|].
  cbn [sqrt_skip]. assert (P : 0 < 4 ^ k) by (apply Z.pow_pos_nonneg; lia).
  destruct (tmp =? 0) eqn:E0.
  - assert (tmp = 0) by lia. subst tmp. replace (4 ^ k >? 0) with true by lia.
    destruct (Z.eq_dec k 0) as [->|N].
    + change (4 ^ 0 / 4) with 0. destruct f; reflexivity.
    + replace (4 ^ k / 4) with (4 ^ (k - 1)).
      * rewrite IH by lia. reflexivity.
      * replace k with (Z.succ (k - 1)) at 2 by lia. rewrite Z.pow_succ_r by lia.
        rewrite Z.mul_comm, Z.div_mul by lia. reflexivity.
  - assert (LG : forall j, 0 <= j -> 4 ^ j <= tmp <-> j <= Z.log2 tmp / 2).
    { intros j Hj. change 4 with (2 ^ 2). rewrite <- Z.pow_mul_r by lia. rewrite Z.log2_le_pow2 by lia.
      pose proof (Z.div_mod (Z.log2 tmp) 2 ltac:(lia)). pose proof (Z.mod_pos_bound (Z.log2 tmp) 2 ltac:(lia)). lia. }
    destruct (4 ^ k >? tmp) eqn:E.
    + assert (N : k <> 0) by (intros ->; change (4 ^ 0) with 1 in E; lia).
      replace (4 ^ k / 4) with (4 ^ (k - 1)).
      2:{ replace k with (Z.succ (k - 1)) at 2 by lia. rewrite Z.pow_succ_r by lia.
          rewrite Z.mul_comm, Z.div_mul by lia. reflexivity. }
      rewrite IH by lia. f_equal. 
      assert (~ k <= Z.log2 tmp / 2) by (rewrite <- LG by lia; lia). lia.
    + assert (k <= Z.log2 tmp / 2) by (apply LG; lia). rewrite Z.min_l by lia. reflexivity.
Qed.

(** Invariant of the digit-by-digit loop: with bit = 4^k, the root found so far r
    is kept as res = r * 2^(k+1), and tmp = x - r^2 < (r + 2^(k+1))^2 - r^2. *)
Lemma sqrt_loop_spec t h fuel x k r :
  isgn t = false -> ibits t = 2 * h -> 0 < h ->
  -1 <= k < h -> (Z.to_nat (k + 1) <= fuel)%nat -> 0 <= r -> r + 2 ^ (k + 1) <= 2 ^ h ->
  r * r <= x < (r + 2 ^ (k + 1)) * (r + 2 ^ (k + 1)) ->
  let s := sqrt_loop t fuel (x - r * r) (r * 2 ^ (k + 1)) (if k =? -1 then 0 else 4 ^ k) in
  0 <= s < 2 ^ h /\ s * s <= x < (s + 1) * (s + 1).
Proof.
  intros S Hw Hh. revert k r. induction fuel as [|f IH]; intros k r Hk Hf Hr Hb Hx.
  - assert (k = -1) by lia. subst k. cbn [sqrt_loop]. change (2 ^ (-1 + 1)) with 1 in *. cbv zeta. rewrite !Z.mul_1_r. nia.
  - cbn [sqrt_loop]. cbv zeta. destruct (Z.eqb_spec k (-1)) as [->|Nk].
    + cbn [Z.eqb]. change (2 ^ (-1 + 1)) with 1 in *. rewrite !Z.mul_1_r. nia.
    + assert (P4 : 4 ^ k = 2 ^ k * 2 ^ k) by (change 4 with (2 * 2); apply Z.pow_mul_l).
      assert (P2 : 0 < 2 ^ k) by (apply Z.pow_pos_nonneg; lia).
      assert (P21 : 2 ^ (k + 1) = 2 * 2 ^ k) by (rewrite Z.pow_add_r by lia; change (2 ^ 1) with 2; lia).
      assert (PH : 2 * 2 ^ k <= 2 ^ h) by lia.
      assert (PW : 2 ^ ibits t = 2 ^ h * 2 ^ h) by (rewrite Hw; replace (2 * h) with (h + h) by lia; apply Z.pow_add_r; lia).
      assert (CI : forall z, 0 <= z < 2 ^ ibits t -> cast t z = z).
      { intros z Hz. apply cast_id; [lia|]. unfold in_ty, imin, imax. rewrite S. lia. }
      set (H2 := 2 ^ h) in *. set (K2 := 2 ^ k) in *. rewrite P21 in *. rewrite P4.
      replace (K2 * K2 =? 0) with false by nia.
      assert (NB : (if k - 1 =? -1 then 0 else 4 ^ (k - 1)) = K2 * K2 / 4).
      { destruct (Z.eqb_spec (k - 1) (-1)) as [E|E].
        - assert (k = 0) by lia. subst k. reflexivity.
        - rewrite <- P4. replace k with (Z.succ (k - 1)) at 2 by lia. rewrite Z.pow_succ_r by lia.
          rewrite Z.mul_comm, Z.div_mul by lia. reflexivity. }
      assert (R2 : r * (2 * K2) / 2 = r * K2).
      { replace (r * (2 * K2)) with (r * K2 * 2) by ring. apply Z.div_mul. lia. }
      assert (RB : r * (2 * K2) + K2 * K2 < H2 * H2) by nia.
      rewrite (CI (r * (2 * K2) + K2 * K2)) by nia. rewrite R2.
      rewrite <- NB.
      destruct (x - r * r >=? r * (2 * K2) + K2 * K2) eqn:E.
      * specialize (IH (k - 1) (r + K2) ltac:(lia) ltac:(lia) ltac:(lia)).
        replace (k - 1 + 1) with k in IH by lia. fold K2 in IH.
        rewrite (CI (x - r * r - (r * (2 * K2) + K2 * K2))) by nia.
        rewrite (CI (r * K2 + K2 * K2)) by nia.
        replace (x - r * r - (r * (2 * K2) + K2 * K2)) with (x - (r + K2) * (r + K2)) by ring.
        replace (r * K2 + K2 * K2) with ((r + K2) * K2) by ring.
        apply IH; nia.
      * specialize (IH (k - 1) r ltac:(lia) ltac:(lia) ltac:(lia)).
        replace (k - 1 + 1) with k in IH by lia. fold K2 in IH. apply IH; nia.
Qed.

Theorem square_root_u_exact t x : std_ty t -> isgn t = false -> in_ty t x ->
  let s := square_root_u t x in 0 <= s < 2 ^ (ibits t / 2) /\ s * s <= x < (s + 1) * (s + 1).
Proof.
  intros Ht S Hx. unfold square_root_u.
  set (h := ibits t / 2). assert (Hh : 4 <= h <= 32 /\ ibits t = 2 * h).
  { unfold h. unfold std_ty in Ht. destruct Ht as [->|[->|[->| ->]]]; cbn; lia. }
  clearbody h. destruct Hh as [Hh Hw].
  replace (2 ^ (ibits t - 2)) with (4 ^ (h - 1)).
  2:{ change 4 with (2 ^ 2). rewrite <- Z.pow_mul_r by lia. f_equal. lia. }
  unfold in_ty, imin, imax in Hx. rewrite S in Hx.
  rewrite sqrt_skip_spec by lia.
  assert (PH : 1 <= 2 ^ h) by (pose proof (Z.pow_pos_nonneg 2 h); lia).
  destruct (x =? 0) eqn:E.
  - assert (x = 0) by lia. subst x.
    pose proof (sqrt_loop_spec t h 40 0 (-1) 0 S Hw ltac:(lia) ltac:(lia) ltac:(lia) ltac:(lia)) as L.
    change (2 ^ (-1 + 1)) with 1 in L. specialize (L ltac:(lia) ltac:(lia)). exact L.
  - set (k := Z.min (h - 1) (Z.log2 x / 2)).
    assert (LP : 0 <= Z.log2 x / 2) by (apply Z.div_pos; [apply Z.log2_nonneg|lia]).
    assert (XB : x < 2 ^ (k + 1) * 2 ^ (k + 1)).
    { rewrite <- Z.pow_add_r by (unfold k; lia). unfold k. destruct (Z.min_spec (h - 1) (Z.log2 x / 2)) as [[_ ->]|[_ ->]].
      - replace (h - 1 + 1 + (h - 1 + 1)) with (ibits t) by lia. lia.
      - apply Z.log2_lt_pow2; [lia|]. pose proof (Z.div_mod (Z.log2 x) 2 ltac:(lia)). pose proof (Z.mod_pos_bound (Z.log2 x) 2 ltac:(lia)). lia. }
    assert (KH : 2 ^ (k + 1) <= 2 ^ h) by (apply Z.pow_le_mono_r; unfold k; lia).
    pose proof (sqrt_loop_spec t h 40 x k 0 S Hw ltac:(lia) ltac:(unfold k; lia) ltac:(unfold k; lia) ltac:(lia)) as L.
    rewrite !Z.add_0_l in L. specialize (L KH ltac:(lia)).
    replace (k =? -1) with false in L by (unfold k; lia). rewrite Z.mul_0_l in L. change (0 * 0) with 0 in L. rewrite Z.sub_0_r in L. exact L.
Qed.

Theorem square_root_s_exact t x : std_ty t -> isgn t = true -> in_ty t x ->
  let s := square_root_s t x in 0 <= s <= imax t /\ s * s <= Z.abs x < (s + 1) * (s + 1).
Proof.
  intros Ht S Hx. unfold square_root_s.
  assert (W : 8 <= ibits t) by (unfold std_ty in Ht; lia).
  pose proof (pow2_half (ibits t) ltac:(lia)) as PH.
  set (tu := ITy (ibits t) false).
  assert (A : cast tu (if x <? 0 then cast t (x * -1) else x) = Z.abs x).
  { pose proof (Z.pow_pos_nonneg 2 (ibits t - 1) ltac:(lia) ltac:(lia)).
    unfold in_ty, imin, imax in Hx. rewrite S in Hx.
    rewrite <- (cast_id tu (Z.abs x)).
    - apply cast_eq_mod; [cbn [tu ibits]; lia|]. cbn [tu ibits]. destruct (x <? 0) eqn:E.
      + rewrite cast_mod by lia. f_equal. lia.
      + f_equal. lia.
    - cbn [tu ibits]; lia.
    - unfold in_ty, imin, imax. cbn [tu isgn ibits]. lia. }
  rewrite A.
  assert (AI : in_ty tu (Z.abs x)).
  { pose proof (Z.pow_pos_nonneg 2 (ibits t - 1) ltac:(lia) ltac:(lia)).
    unfold in_ty, imin, imax in *. rewrite S in Hx. cbn [tu isgn ibits]. lia. }
  destruct (square_root_u_exact tu (Z.abs x) Ht eq_refl AI) as [B R].
  set (s := square_root_u tu (Z.abs x)) in *. cbn [tu ibits] in B.
  assert (LE : 2 ^ (ibits t / 2) <= 2 ^ (ibits t - 1)).
  { apply Z.pow_le_mono_r; [lia|]. apply Z.div_le_upper_bound; lia. }
  cbv zeta. rewrite cast_id; [|lia|unfold in_ty, imin, imax; rewrite S; lia].
  split; [unfold imax; rewrite S; lia|exact R].
Qed.
