(** Bits of wrapped integers. *)
From Verif Require Import Base.

Lemma uwrap_testbit w z i : 0 <= w -> 0 <= i -> Z.testbit (uwrap w z) i = (i <? w) && Z.testbit z i.
Proof.
  intros Hw Hi. unfold uwrap. destruct (i <? w) eqn:E.
  - rewrite Z.mod_pow2_bits_low by lia. reflexivity.
  - rewrite Z.mod_pow2_bits_high by lia. reflexivity.
Qed.

Lemma swrap_cases w z : 0 < w ->
  swrap w z = if uwrap w z <? 2 ^ (w - 1) then uwrap w z else uwrap w z - 2 ^ w.
Proof.
  intros Hw. unfold swrap, uwrap. pose proof (pow2_half w Hw).
  assert (P : 0 < 2 ^ (w - 1)) by lia.
  pose proof (Z.div_mod z (2 ^ w) ltac:(lia)) as D. pose proof (Z.mod_pos_bound z (2 ^ w) ltac:(lia)) as B.
  destruct (z mod 2 ^ w <? 2 ^ (w - 1)) eqn:E.
  - replace ((z + 2 ^ (w - 1)) mod 2 ^ w) with (z mod 2 ^ w + 2 ^ (w - 1)); [lia|].
    apply Z.mod_unique with (z / 2 ^ w); [left; lia|lia].
  - replace ((z + 2 ^ (w - 1)) mod 2 ^ w) with (z mod 2 ^ w + 2 ^ (w - 1) - 2 ^ w); [lia|].
    apply Z.mod_unique with (z / 2 ^ w + 1); [left; lia|lia].
Qed.

Lemma testbit_sign_above w v i : 0 < w -> - 2 ^ (w - 1) <= v < 2 ^ (w - 1) -> w - 1 <= i ->
  Z.testbit v i = (v <? 0).
Proof.
  intros Hw Hv Hi. destruct (v <? 0) eqn:E.
  - destruct (Z.eq_dec v (-1)) as [->|N]; [apply Z.bits_m1; lia|].
    apply Z.bits_above_log2_neg; [lia|].
    apply Z.lt_le_trans with (w - 1); [|lia]. apply Z.log2_lt_pow2; [|lia]. lia.
  - destruct (Z.eq_dec v 0) as [->|N]; [apply Z.testbit_0_l|].
    apply Z.bits_above_log2; [lia|]. apply Z.lt_le_trans with (w - 1); [|lia]. apply Z.log2_lt_pow2; lia.
Qed.

Lemma swrap_testbit w z i : 0 < w -> 0 <= i ->
  Z.testbit (swrap w z) i = Z.testbit z (if i <? w then i else w - 1).
Proof.
  intros Hw Hi.
  assert (LOW : forall j, 0 <= j < w -> Z.testbit (swrap w z) j = Z.testbit z j).
  { intros j Hj. rewrite <- (Z.mod_pow2_bits_low (swrap w z) w j), <- (Z.mod_pow2_bits_low z w j) by lia.
    f_equal. pose proof (cast_mod (ITy w true) z ltac:(cbn; lia)) as C. exact C. }
  destruct (i <? w) eqn:E; [apply LOW; lia|].
  rewrite <- (LOW (w - 1)) by lia. pose proof (swrap_range w z Hw).
  rewrite !(testbit_sign_above w) by lia. reflexivity.
Qed.

(** Bit [i] of a converted value, for a bit inside the type. *)
Lemma cast_testbit t z i : 0 < ibits t -> 0 <= i < ibits t -> Z.testbit (cast t z) i = Z.testbit z i.
Proof.
  intros Ht Hi. unfold cast. destruct (isgn t).
  - rewrite swrap_testbit by lia. replace (i <? ibits t) with true by lia. reflexivity.
  - rewrite uwrap_testbit by lia. replace (i <? ibits t) with true by lia. reflexivity.
Qed.

(** Two values of a type are equal when they agree on the bits inside the type. *)
Lemma in_ty_bits_inj t a b : 0 < ibits t -> in_ty t a -> in_ty t b ->
  (forall i, 0 <= i < ibits t -> Z.testbit a i = Z.testbit b i) -> a = b.
Proof.
  intros Ht Ha Hb H. rewrite <- (cast_id t a), <- (cast_id t b) by auto.
  apply cast_eq_mod; [lia|]. apply Z.bits_inj'. intros i Hi.
  destruct (Z.lt_ge_cases i (ibits t)).
  - rewrite !Z.mod_pow2_bits_low by lia. auto.
  - rewrite !Z.mod_pow2_bits_high by lia. reflexivity.
Qed.

Lemma ones_testbit n i : 0 <= n -> 0 <= i -> Z.testbit (Z.ones n) i = (i <? n).
Proof.
  intros Hn Hi. destruct (i <? n) eqn:E.
  - apply Z.ones_spec_low; lia.
  - apply Z.ones_spec_high; lia.
Qed.

Lemma shiftl_testbit a n i : 0 <= i -> Z.testbit (Z.shiftl a n) i = Z.testbit a (i - n).
Proof. apply Z.shiftl_spec. Qed.

Lemma shiftr_testbit a n i : 0 <= i -> Z.testbit (Z.shiftr a n) i = Z.testbit a (i + n).
Proof. apply Z.shiftr_spec. Qed.

Lemma m1_testbit i : 0 <= i -> Z.testbit (-1) i = true.
Proof. intros. rewrite Z.bits_m1 by lia. reflexivity. Qed.

Lemma pow2_testbit n i : 0 <= n -> Z.testbit (2 ^ n) i = (i =? n).
Proof.
  intros Hn. destruct (Z.eq_dec i n) as [->|N].
  - rewrite Z.pow2_bits_true by lia. lia.
  - rewrite Z.pow2_bits_false by lia. lia.
Qed.

Lemma in_ty_dec t z : {in_ty t z} + {~ in_ty t z}.
Proof. unfold in_ty. destruct (Z_le_dec (imin t) z), (Z_le_dec z (imax t)); [left|right|right|right]; lia. Qed.

Lemma lor_shiftl_add a b n : 0 <= n -> 0 <= b < 2 ^ n -> Z.lor (Z.shiftl a n) b = a * 2 ^ n + b.
Proof.
  intros Hn Hb. apply Z.bits_inj'. intros i Hi. rewrite Z.lor_spec, shiftl_testbit by lia.
  assert (P : 0 < 2 ^ n) by lia.
  destruct (Z.lt_ge_cases i n) as [L|L].
  - rewrite Z.testbit_neg_r by lia. cbn [orb]. rewrite <- (Z.mod_pow2_bits_low (a * 2 ^ n + b) n i) by lia.
    rewrite Z.add_comm, Z.mod_add, Z.mod_small by lia. reflexivity.
  - replace (Z.testbit b i) with false.
    + rewrite orb_false_r. replace i with ((i - n) + n) at 2 by lia. rewrite <- Z.shiftr_spec by lia.
      rewrite Z.shiftr_div_pow2, Z.div_add_l, (Z.div_small b) by lia. f_equal. lia.
    + destruct (Z.eq_dec b 0) as [->|N]; [rewrite Z.testbit_0_l; reflexivity|].
      symmetry. apply Z.bits_above_log2; [lia|]. apply Z.lt_le_trans with n; [|lia]. apply Z.log2_lt_pow2; lia.
Qed.

Lemma land_ones_mod a n : 0 <= n -> Z.land a (2 ^ n - 1) = a mod 2 ^ n.
Proof. intros. rewrite <- Z.land_ones by lia. rewrite Z.ones_equiv. f_equal. Qed.
