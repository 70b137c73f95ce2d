(** Proofs about the conversion of bit ranges. *)
From Verif Require Import Base BitsBase Bsb_Model Bsb_Spec.
Local Open Scope Z_scope.

(** ** Memory as one number *)

Lemma word_bound l : bytes l -> 0 <= word_of l < 2 ^ (8 * Z.of_nat (length l)).
Proof.
  induction 1 as [|b l Hb H IH]; cbn [word_of length]; [cbn; lia|].
  replace (8 * Z.of_nat (S (length l))) with (8 + 8 * Z.of_nat (length l)) by lia.
  rewrite Z.pow_add_r by lia. change (2 ^ 8) with 256. lia.
Qed.

Lemma word_testbit l i : bytes l -> 0 <= i -> Z.testbit (word_of l) i = bit l i.
Proof.
  intros H. revert i. induction H as [|b l Hb H IH]; intros i Hi; cbn [word_of].
  - unfold bit. destruct (Z.to_nat (i / 8)); cbn [nth]; rewrite !Z.testbit_0_l; reflexivity.
  - replace (b + 256 * word_of l) with (Z.lor (Z.shiftl (word_of l) 8) b)
      by (rewrite lor_shiftl_add by (change (2 ^ 8) with 256; lia); change (2 ^ 8) with 256; lia).
    rewrite Z.lor_spec, shiftl_testbit by lia. unfold bit.
    destruct (Z_lt_ge_dec i 8) as [L|G].
    + rewrite Z.testbit_neg_r by lia. rewrite Z.div_small, Z.mod_small by lia. reflexivity.
    + rewrite IH by lia. unfold bit.
      replace (Z.testbit b i) with false.
      * rewrite orb_false_r.
        assert (E1 : i / 8 = (i - 8) / 8 + 1)
          by (replace i with (i - 8 + 1 * 8) at 1 by lia; rewrite Z.div_add by lia; reflexivity).
        assert (E2 : i mod 8 = (i - 8) mod 8)
          by (replace i with (i - 8 + 1 * 8) at 1 by lia; rewrite Z.mod_add by lia; reflexivity).
        rewrite E1, E2.
        replace (Z.to_nat ((i - 8) / 8 + 1)) with (S (Z.to_nat ((i - 8) / 8)))
          by (pose proof (Z.div_pos (i - 8) 8 ltac:(lia) ltac:(lia)); lia).
        reflexivity.
      * symmetry. destruct (Z.eq_dec b 0) as [->|]; [apply Z.testbit_0_l|].
        apply Z.bits_above_log2; [lia|].
        assert (Z.log2 b < 8); [apply Z.log2_lt_pow2; [lia|change (2 ^ 8) with 256; lia]|lia].
Qed.

Lemma bytes_of_length n v : length (bytes_of n v) = n.
Proof. revert v; induction n as [|n IH]; intros v; cbn; [reflexivity|now rewrite IH]. Qed.

Lemma bytes_of_bytes n v : bytes (bytes_of n v).
Proof.
  revert v; induction n as [|n IH]; intros v; cbn; constructor; [|apply IH].
  apply Z.mod_pos_bound; lia.
Qed.

Lemma word_bytes n v : word_of (bytes_of n v) = v mod 2 ^ (8 * Z.of_nat n).
Proof.
  revert v; induction n as [|n IH]; intros v; cbn [bytes_of word_of].
  - change (8 * Z.of_nat 0) with 0. rewrite Z.pow_0_r, Z.mod_1_r. reflexivity.
  - rewrite IH. replace (8 * Z.of_nat (S n)) with (8 + 8 * Z.of_nat n) by lia.
    rewrite Z.pow_add_r by lia. change (2 ^ 8) with 256.
    rewrite Z.rem_mul_r by (try lia; apply Z.pow_pos_nonneg; lia). reflexivity.
Qed.

Lemma bytes_of_bit n v i : 0 <= i < 8 * Z.of_nat n -> bit (bytes_of n v) i = Z.testbit v i.
Proof.
  intros H. rewrite <- word_testbit by (try apply bytes_of_bytes; lia).
  rewrite word_bytes, Z.mod_pow2_bits_low by lia. reflexivity.
Qed.

Lemma bytes_app a b : bytes a -> bytes b -> bytes (a ++ b).
Proof. intros; apply Forall_app; auto. Qed.

Lemma bytes_firstn n m : bytes m -> bytes (firstn n m).
Proof.
  unfold bytes; intros H. rewrite <- (firstn_skipn n m) in H. apply Forall_app in H. tauto.
Qed.

Lemma bytes_skipn n m : bytes m -> bytes (skipn n m).
Proof.
  unfold bytes; intros H. rewrite <- (firstn_skipn n m) in H. apply Forall_app in H. tauto.
Qed.

Lemma bit_app a b i : 0 <= i ->
  bit (a ++ b) i = if i <? 8 * Z.of_nat (length a) then bit a i else bit b (i - 8 * Z.of_nat (length a)).
Proof.
  intros Hi. unfold bit. destruct (i <? 8 * Z.of_nat (length a)) eqn:E.
  - rewrite app_nth1; [reflexivity|].
    assert (i / 8 < Z.of_nat (length a)) by (apply Z.div_lt_upper_bound; lia).
    pose proof (Z.div_pos i 8 Hi ltac:(lia)). lia.
  - set (k := Z.of_nat (length a)) in *.
    assert (E1 : i / 8 = (i - 8 * k) / 8 + k)
      by (replace i with (i - 8 * k + k * 8) at 1 by lia; rewrite Z.div_add by lia; reflexivity).
    assert (E2 : i mod 8 = (i - 8 * k) mod 8)
      by (replace i with (i - 8 * k + k * 8) at 1 by lia; rewrite Z.mod_add by lia; reflexivity).
    pose proof (Z.div_pos (i - 8 * k) 8 ltac:(lia) ltac:(lia)).
    rewrite E1, E2, app_nth2 by (subst k; lia). f_equal. f_equal. subst k; lia.
Qed.

Lemma bit_firstn n m i : 0 <= i -> i < 8 * Z.of_nat n -> bit (firstn n m) i = bit m i.
Proof.
  intros Hi L. destruct (le_lt_dec (length m) n) as [G|G]; [rewrite firstn_all2 by lia; reflexivity|].
  rewrite <- (firstn_skipn n m) at 2. rewrite bit_app, firstn_length_le by lia.
  replace (i <? _) with true by lia. reflexivity.
Qed.

Lemma bit_skipn n m i : (n <= length m)%nat -> 0 <= i -> bit (skipn n m) i = bit m (i + 8 * Z.of_nat n).
Proof.
  intros G Hi. rewrite <- (firstn_skipn n m) at 2. rewrite bit_app, firstn_length_le by lia.
  replace (_ <? _) with false by lia. f_equal. lia.
Qed.

(** ** The fields *)

Lemma unsigned_bound m n : forall o, 0 <= unsigned_field m o n < 2 ^ Z.of_nat n.
Proof.
  induction n as [|n IH]; intros o; cbn [unsigned_field]; [cbn; lia|].
  replace (Z.of_nat (S n)) with (1 + Z.of_nat n) by lia. rewrite Z.pow_add_r by lia.
  specialize (IH (o + 1)). destruct (bit m o); cbn [Z.b2z]; change (2 ^ 1) with 2; lia.
Qed.

Lemma unsigned_testbit m n : forall o i, 0 <= i ->
  Z.testbit (unsigned_field m o n) i = (i <? Z.of_nat n) && bit m (o + i).
Proof.
  induction n as [|n IH]; intros o i Hi; cbn [unsigned_field].
  - rewrite Z.testbit_0_l. replace (i <? _) with false by lia. reflexivity.
  - rewrite Z.add_comm. destruct (Z.eq_dec i 0) as [->|N].
    + rewrite Z.testbit_0_r. replace (0 <? _) with true by lia.
      rewrite Z.add_0_r. reflexivity.
    + replace i with (Z.succ (i - 1)) at 1 by lia. rewrite Z.testbit_succ_r by lia.
      rewrite IH by lia. f_equal; [lia|f_equal; lia].
Qed.

(** ** The masks *)

Lemma inv0 w : 0 <= w -> inv w 0 = Z.ones w.
Proof.
  intros H. unfold inv. apply Z.bits_inj'. intros i Hi.
  rewrite uwrap_testbit, Z.lnot_spec, Z.testbit_0_l, ones_testbit by lia. cbn. apply andb_true_r.
Qed.

Lemma mask_ones w n : 1 <= n <= w -> w <= 128 -> lsr w (inv w 0) (w - n) = Z.ones n.
Proof.
  intros H H2. unfold lsr. rewrite uwrap_id by (change (2 ^ 8) with 256; lia).
  replace (_ <? _) with true by lia. rewrite inv0 by lia.
  apply Z.bits_inj'. intros i Hi. rewrite shiftr_testbit, !ones_testbit by lia. lia.
Qed.

Lemma lsl_testbit w x k i : 0 <= k < w -> w <= 128 -> 0 <= i ->
  Z.testbit (lsl w x k) i = (i <? w) && Z.testbit x (i - k).
Proof.
  intros H H2 Hi. unfold lsl. rewrite uwrap_id by (change (2 ^ 8) with 256; lia).
  replace (k <? w) with true by lia. rewrite uwrap_testbit, shiftl_testbit by lia. reflexivity.
Qed.

Lemma lsr_val w x k : 0 <= k < w -> w <= 128 -> lsr w x k = Z.shiftr x k.
Proof.
  intros H H2. unfold lsr. rewrite uwrap_id by (change (2 ^ 8) with 256; lia).
  replace (k <? w) with true by lia. reflexivity.
Qed.

Lemma sign_mask w n : 1 <= n <= w -> w <= 128 -> lsl w 1 (n - 1) = 2 ^ (n - 1).
Proof.
  intros H H2. unfold lsl. rewrite uwrap_id by (change (2 ^ 8) with 256; lia).
  replace (_ <? _) with true by lia. rewrite Z.shiftl_1_l. apply uwrap_id.
  split; [apply Z.pow_nonneg; lia|apply Z.pow_lt_mono_r; lia].
Qed.

Lemma ones_half n : 1 <= n -> Z.shiftr (Z.ones n) 1 = Z.ones (n - 1).
Proof.
  intros H. apply Z.bits_inj'. intros i Hi. rewrite shiftr_testbit, !ones_testbit by lia. lia.
Qed.

Lemma ones_val n : Z.ones n = 2 ^ n - 1.
Proof. rewrite Z.ones_equiv. lia. Qed.

Lemma top_set u n : 1 <= n -> 0 <= u < 2 ^ n -> Z.testbit u (n - 1) = (2 ^ (n - 1) <=? u).
Proof.
  intros Hn Hu. pose proof (pow2_half n ltac:(lia)). rewrite Z.testbit_eqb by lia.
  destruct (2 ^ (n - 1) <=? u) eqn:E.
  - replace (u / 2 ^ (n - 1)) with 1; [reflexivity|].
    apply Z.div_unique with (u - 2 ^ (n - 1)); lia.
  - rewrite Z.div_small by lia. reflexivity.
Qed.

Lemma land_pow_zero u n : 0 <= n -> (Z.land u (2 ^ n) =? 0) = negb (Z.testbit u n).
Proof.
  intros Hn. destruct (Z.testbit u n) eqn:E; cbn [negb].
  - apply Z.eqb_neq. intros Q.
    assert (Z.testbit (Z.land u (2 ^ n)) n = false) by (rewrite Q; apply Z.testbit_0_l).
    rewrite Z.land_spec, pow2_testbit, E in H by lia. lia.
  - apply Z.eqb_eq. apply Z.bits_inj'. intros i Hi.
    rewrite Z.land_spec, pow2_testbit, Z.testbit_0_l by lia.
    destruct (i =? n) eqn:E2; [|apply andb_false_r].
    assert (i = n) as -> by lia. rewrite E. reflexivity.
Qed.

(** The bits of [u], a number of [a] bits, from bit [b] are all ones when [u] is not below. *)
Lemma land_top u a b : 0 <= b <= a -> 0 <= u < 2 ^ a ->
  (Z.land u (2 ^ a - 2 ^ b) =? 2 ^ a - 2 ^ b) = (2 ^ a - 2 ^ b <=? u).
Proof.
  intros Hb Hu.
  assert (Pb : 0 < 2 ^ b) by (apply Z.pow_pos_nonneg; lia).
  assert (E : 2 ^ a = 2 ^ (a - b) * 2 ^ b) by (rewrite <- Z.pow_add_r by lia; f_equal; lia).
  assert (M : 2 ^ a - 2 ^ b = Z.shiftl (Z.ones (a - b)) b)
    by (rewrite Z.shiftl_mul_pow2, ones_val by lia; rewrite E; lia).
  assert (V : Z.land u (2 ^ a - 2 ^ b) = Z.shiftl (u / 2 ^ b) b).
  { rewrite M, <- Z.shiftr_div_pow2 by lia. apply Z.bits_inj'. intros i Hi.
    rewrite Z.land_spec, !shiftl_testbit by lia.
    destruct (Z_lt_ge_dec i b) as [L|G].
    - rewrite !(Z.testbit_neg_r _ (i - b)) by lia. apply andb_false_r.
    - rewrite ones_testbit, shiftr_testbit by lia. replace (i - b + b) with i by lia.
      destruct (Z_lt_ge_dec i a) as [L|G2].
      + replace (_ <? _) with true by lia. apply andb_true_r.
      + replace (_ <? _) with false by lia. rewrite andb_false_r. symmetry.
        destruct (Z.eq_dec u 0) as [->|]; [apply Z.testbit_0_l|].
        apply Z.bits_above_log2; [lia|].
        assert (Z.log2 u < a) by (apply Z.log2_lt_pow2; lia). lia. }
  rewrite V, M, !Z.shiftl_mul_pow2 by lia. rewrite ones_val.
  pose proof (Z.div_mod u (2 ^ b) ltac:(lia)) as D.
  pose proof (Z.mod_pos_bound u (2 ^ b) ltac:(lia)) as R.
  assert (Q : u / 2 ^ b < 2 ^ (a - b)) by (apply Z.div_lt_upper_bound; lia).
  set (q := u / 2 ^ b) in *. set (p := 2 ^ (a - b)) in *. set (t := 2 ^ b) in *.
  clearbody q p t. clear V M.
  destruct (Z.eq_dec q (p - 1)) as [->|N].
  - transitivity true; [apply Z.eqb_refl|symmetry; apply Z.leb_le; lia].
  - transitivity false; [apply Z.eqb_neq; nia|symmetry; apply Z.leb_gt; nia].
Qed.

Lemma lor_top u a b : 0 <= b <= a -> 0 <= u < 2 ^ b -> Z.lor u (2 ^ a - 2 ^ b) = u + (2 ^ a - 2 ^ b).
Proof.
  intros Hb Hu.
  assert (E : 2 ^ a = 2 ^ (a - b) * 2 ^ b) by (rewrite <- Z.pow_add_r by lia; f_equal; lia).
  assert (M : 2 ^ a - 2 ^ b = Z.shiftl (Z.ones (a - b)) b)
    by (rewrite Z.shiftl_mul_pow2, ones_val by lia; rewrite E; lia).
  rewrite Z.lor_comm, M, lor_shiftl_add by lia. rewrite Z.shiftl_mul_pow2 by lia. lia.
Qed.

(** ** The number converted *)

(** The source number is negative, it fits in a narrower signed destination. *)
Definition narrowed (sz dz : Z) (sg dg : bool) (v : Z) : bool :=
  sg && dg && (dz <? sz) && (v <? 0) && (- 2 ^ (dz - 1) <=? v).

Definition signed_value (u n : Z) (sg : bool) : Z := if sg && (2 ^ (n - 1) <=? u) then u - 2 ^ n else u.

Lemma converted_value w s ss sz sg dz dg u :
  8 <= w <= 128 -> 0 <= ss < w -> 1 <= sz <= w -> 1 <= dz <= w ->
  Z.land (Z.shiftr s ss) (Z.ones sz) = u -> 0 <= u < 2 ^ sz ->
  let v := signed_value u sz sg in
  let c := converted w s ss sz sg dz dg in
  0 <= c < 2 ^ w /\ c mod 2 ^ dz = nearest dz dg v mod 2 ^ dz /\
  (narrowed sz dz sg dg v = false -> c < 2 ^ dz).
Proof.
  intros Hw Hss Hsz Hdz Hu Ru v c.
  assert (C : c = if sg && (2 ^ (sz - 1) <=? u) then
                    if negb dg then 0
                    else if dz <? sz then
                      if 2 ^ sz - 2 ^ (dz - 1) <=? u then u else 2 ^ (dz - 1)
                    else u + (2 ^ dz - 2 ^ sz)
                  else Z.min u (highest dz dg)).
  { unfold c, converted. rewrite !mask_ones by lia. rewrite !sign_mask by lia.
    rewrite !lsr_val by lia. rewrite Hu, ones_half by lia.
    rewrite land_pow_zero, negb_involutive, top_set by lia.
    destruct (sg && (2 ^ (sz - 1) <=? u)).
    - destruct dg; cbn [negb]; [|reflexivity].
      destruct (dz <? sz) eqn:Ez.
      + assert (L : 2 ^ (dz - 1) <= 2 ^ sz) by (apply Z.pow_le_mono_r; lia).
        assert (L2 : 2 ^ sz <= 2 ^ w) by (apply Z.pow_le_mono_r; lia).
        assert (P : 0 < 2 ^ (dz - 1)) by (apply Z.pow_pos_nonneg; lia).
        rewrite uwrap_id by (rewrite !ones_val; lia).
        replace (Z.ones sz - Z.ones (dz - 1)) with (2 ^ sz - 2 ^ (dz - 1)) by (rewrite !ones_val; lia).
        rewrite land_top by lia. destruct (_ <=? u); reflexivity.
      + assert (L : 2 ^ sz <= 2 ^ dz) by (apply Z.pow_le_mono_r; lia).
        assert (L2 : 2 ^ dz <= 2 ^ w) by (apply Z.pow_le_mono_r; lia).
        assert (P : 0 < 2 ^ sz) by (apply Z.pow_pos_nonneg; lia).
        rewrite uwrap_id by (rewrite !ones_val; lia).
        replace (Z.ones dz - Z.ones sz) with (2 ^ dz - 2 ^ sz) by (rewrite !ones_val; lia).
        apply lor_top; lia.
    - unfold highest. rewrite !ones_val. destruct dg; destruct (_ <? u) eqn:E; lia. }
  clearbody c. subst c.
  assert (L1 : 2 ^ sz <= 2 ^ w) by (apply Z.pow_le_mono_r; lia).
  assert (L2 : 2 ^ dz <= 2 ^ w) by (apply Z.pow_le_mono_r; lia).
  pose proof (pow2_half sz ltac:(lia)) as Hs. pose proof (pow2_half dz ltac:(lia)) as Hd.
  assert (P1 : 0 < 2 ^ (sz - 1)) by (apply Z.pow_pos_nonneg; lia).
  assert (P2 : 0 < 2 ^ (dz - 1)) by (apply Z.pow_pos_nonneg; lia).
  unfold v, signed_value, narrowed, nearest, lowest, highest.
  destruct (sg && (2 ^ (sz - 1) <=? u)) eqn:Eg.
  - apply andb_prop in Eg. destruct Eg as [-> Eg]. cbn [andb].
    destruct dg; cbn [negb andb].
    + destruct (dz <? sz) eqn:Ez; cbn [andb].
      * assert (L3 : 2 ^ dz <= 2 ^ (sz - 1)) by (apply Z.pow_le_mono_r; lia).
        destruct (2 ^ sz - 2 ^ (dz - 1) <=? u) eqn:Ef.
        -- split; [lia|]. split; [|intros Q; replace (u - 2 ^ sz <? 0) with true in Q by lia;
             replace (_ <=? _) with true in Q by lia; discriminate].
           replace (Z.max _ _) with (u - 2 ^ sz) by lia.
           replace (2 ^ sz) with (2 ^ (sz - dz) * 2 ^ dz)
             by (rewrite <- Z.pow_add_r by lia; f_equal; lia).
           rewrite <- (Z.mod_add u (- 2 ^ (sz - dz)) (2 ^ dz)) by lia. f_equal. lia.
        -- split; [lia|]. split; [|intros _; lia].
           replace (Z.max _ _) with (- 2 ^ (dz - 1)) by lia.
           rewrite <- (Z.mod_add (- 2 ^ (dz - 1)) 1 (2 ^ dz)) by lia. f_equal. lia.
      * assert (L3 : 2 ^ sz <= 2 ^ dz) by (apply Z.pow_le_mono_r; lia).
        split; [lia|]. split; [|intros _; lia].
        replace (Z.max _ _) with (u - 2 ^ sz) by lia.
        rewrite <- (Z.mod_add (u - 2 ^ sz) 1 (2 ^ dz)) by lia. f_equal. lia.
    + split; [lia|]. split; [|intros _; lia]. f_equal. lia.
  - destruct dg; (split; [lia|split; [f_equal; lia|intros _; lia]]).
Qed.

(** ** The word written *)

Lemma merged_testbit w d ds dz c i :
  w <= 128 -> 0 <= ds -> 1 <= dz -> ds + dz <= w -> 0 <= c < 2 ^ w -> 0 <= i < w ->
  Z.testbit (merged w d ds dz c) i =
    if (ds <=? i) && (i <? ds + dz) then Z.testbit c (i - ds)
    else Z.testbit d i || Z.testbit c (i - ds).
Proof.
  intros Hw Hds Hdz He Hc Hi. unfold merged. rewrite mask_ones by lia.
  rewrite Z.lor_spec, Z.land_spec, lsl_testbit by lia. unfold inv.
  rewrite uwrap_testbit, Z.lnot_spec, lsl_testbit by lia.
  replace (i <? w) with true by lia. cbn [andb].
  destruct (Z_lt_ge_dec i ds) as [L|G].
  - rewrite !(Z.testbit_neg_r _ (i - ds)) by lia. replace (ds <=? i) with false by lia.
    cbn. now rewrite orb_false_r.
  - rewrite ones_testbit by lia. replace (ds <=? i) with true by lia. cbn [andb].
    destruct (i <? ds + dz) eqn:E.
    + replace (i - ds <? dz) with true by lia. cbn. apply orb_false_r.
    + replace (i - ds <? dz) with false by lia. cbn. apply orb_comm.
Qed.

Lemma above_zero c n i : 0 <= c < 2 ^ n -> 0 <= n <= i -> Z.testbit c i = false.
Proof.
  intros Hc Hi. destruct (Z.eq_dec c 0) as [->|]; [apply Z.testbit_0_l|].
  apply Z.bits_above_log2; [lia|]. assert (Z.log2 c < n) by (apply Z.log2_lt_pow2; lia). lia.
Qed.

(** ** BSToBS *)

Lemma span_bounds sz ss : 0 <= ss -> 1 <= sz ->
  ss + sz <= 8 * Z.of_nat (span sz ss) < ss + sz + 8.
Proof.
  intros H1 H2. unfold span. pose proof (Z.div_mod (sz + ss + 7) 8 ltac:(lia)).
  pose proof (Z.mod_pos_bound (sz + ss + 7) 8 ltac:(lia)). rewrite Z2Nat.id; [|apply Z.div_pos; lia]. lia.
Qed.

Definition wide (w : Z) : Prop := w = 8 \/ w = 16 \/ w = 32 \/ w = 64 \/ w = 128.

Lemma span_in sz ss w : 0 <= ss -> 1 <= sz -> wide w -> ss + sz <= w -> 8 * Z.of_nat (span sz ss) <= w.
Proof.
  intros H1 H2 Hw H. pose proof (span_bounds sz ss H1 H2).
  assert (exists k, w = 8 * k) as [k ->]
    by (destruct Hw as [->|[->|[->|[->| ->]]]]; [exists 1|exists 2|exists 4|exists 8|exists 16]; reflexivity).
  lia.
Qed.

Lemma load_ok w m p n : (p + n <= length m)%nat -> 8 * Z.of_nat n <= w ->
  load w m p n = Some (word_of (firstn n (skipn p m))).
Proof.
  intros H1 H2. unfold load. replace (_ <=? _)%nat with true by (symmetry; apply Nat.leb_le; lia).
  replace (_ <=? w) with true by lia. reflexivity.
Qed.

Lemma loaded_testbit m p n i : bytes m -> (p + n <= length m)%nat -> 0 <= i ->
  Z.testbit (word_of (firstn n (skipn p m))) i = (i <? 8 * Z.of_nat n) && bit m (8 * Z.of_nat p + i).
Proof.
  intros B L Hi.
  assert (Bf : bytes (firstn n (skipn p m))) by (apply bytes_firstn, bytes_skipn, B).
  destruct (i <? 8 * Z.of_nat n) eqn:E; cbn [andb].
  - rewrite word_testbit by auto. rewrite bit_firstn by lia. rewrite bit_skipn by lia. f_equal. lia.
  - apply above_zero with (8 * Z.of_nat n); [|lia].
    pose proof (word_bound _ Bf) as W. rewrite firstn_length_le in W by (rewrite skipn_length; lia). exact W.
Qed.

Lemma loaded_field m p ss sz : bytes m -> 0 <= ss -> 1 <= sz -> (p + span sz ss <= length m)%nat ->
  Z.land (Z.shiftr (word_of (firstn (span sz ss) (skipn p m))) ss) (Z.ones sz)
  = unsigned_field m (8 * Z.of_nat p + ss) (Z.to_nat sz).
Proof.
  intros B H1 H2 L. apply Z.bits_inj'. intros i Hi.
  rewrite Z.land_spec, shiftr_testbit, ones_testbit, unsigned_testbit, loaded_testbit by (auto; lia).
  pose proof (span_bounds sz ss H1 H2). rewrite Z2Nat.id by lia.
  destruct (i <? sz) eqn:E; [|apply andb_false_r].
  replace (_ <? _) with true by lia. rewrite andb_true_r. cbn [andb]. f_equal. lia.
Qed.

Lemma nearest_range n sg z : 1 <= n -> lowest n sg <= nearest n sg z <= highest n sg.
Proof.
  intros H. unfold nearest, lowest, highest. pose proof (pow2_half n ltac:(lia)).
  assert (0 < 2 ^ (n - 1)) by (apply Z.pow_pos_nonneg; lia). destruct sg; lia.
Qed.

Lemma signed_mod n sg z : 1 <= n -> lowest n sg <= z <= highest n sg ->
  signed_value (z mod 2 ^ n) n sg = z.
Proof.
  intros H. unfold lowest, highest, signed_value. pose proof (pow2_half n ltac:(lia)).
  assert (0 < 2 ^ (n - 1)) by (apply Z.pow_pos_nonneg; lia).
  destruct sg; cbn [andb]; intros R.
  - destruct (Z_lt_ge_dec z 0) as [L|G].
    + replace (z mod 2 ^ n) with (z + 2 ^ n) by (rewrite <- (Z.mod_add z 1), Z.mod_small by lia; lia).
      replace (_ <=? _) with true by lia. lia.
    + rewrite Z.mod_small by lia. replace (_ <=? _) with false by lia. reflexivity.
  - apply Z.mod_small; lia.
Qed.

Theorem bs_to_bs_ok w dm dp ds dz dg sm sp ss sz sg :
  wide w -> bytes dm -> bytes sm -> 0 <= ds < 8 -> 0 <= ss < 8 -> 1 <= dz -> 1 <= sz ->
  ds + dz <= w -> ss + sz <= w ->
  8 * Z.of_nat dp + ds + dz <= 8 * Z.of_nat (length dm) ->
  8 * Z.of_nat sp + ss + sz <= 8 * Z.of_nat (length sm) ->
  exists m, bs_to_bs w dm dp ds dz dg sm sp ss sz sg = Some m /\
    length m = length dm /\ bytes m /\
    field m (8 * Z.of_nat dp + ds) dz dg = nearest dz dg (field sm (8 * Z.of_nat sp + ss) sz sg) /\
    (forall i, 0 <= i ->
       i < 8 * Z.of_nat dp + ds \/
       8 * Z.of_nat dp + ds + dz <= i /\
         (8 * Z.of_nat (dp + span dz ds) <= i \/
          narrowed sz dz sg dg (field sm (8 * Z.of_nat sp + ss) sz sg) = false) ->
       bit m i = bit dm i).
Proof.
  intros Hw Bd Bs Hds Hss Hdz Hsz Ed Es Ld Ls.
  assert (W : 8 <= w <= 128) by (destruct Hw as [->|[->|[->|[->| ->]]]]; lia).
  pose proof (span_bounds dz ds ltac:(lia) Hdz) as Sd. pose proof (span_bounds sz ss ltac:(lia) Hsz) as Ss.
  pose proof (span_in dz ds w ltac:(lia) Hdz Hw Ed) as Wd. pose proof (span_in sz ss w ltac:(lia) Hsz Hw Es) as Ws.
  set (kd := span dz ds) in *. set (ks := span sz ss) in *.
  assert (Ld' : (dp + kd <= length dm)%nat) by (clear -Ld Sd Hds; lia).
  assert (Ls' : (sp + ks <= length sm)%nat) by (clear -Ls Ss Hss; lia).
  unfold bs_to_bs. fold kd ks. rewrite !load_ok by auto.
  set (s := word_of (firstn ks (skipn sp sm))). set (d := word_of (firstn kd (skipn dp dm))).
  set (u := unsigned_field sm (8 * Z.of_nat sp + ss) (Z.to_nat sz)).
  assert (Hu : Z.land (Z.shiftr s ss) (Z.ones sz) = u) by (apply loaded_field; auto; lia).
  assert (Ru : 0 <= u < 2 ^ sz) by (pose proof (unsigned_bound sm (Z.to_nat sz) (8 * Z.of_nat sp + ss)) as R;
    rewrite Z2Nat.id in R by lia; exact R).
  destruct (converted_value w s ss sz sg dz dg u W ltac:(lia) ltac:(lia) ltac:(lia) Hu Ru) as (Rc & Vc & Nc).
  set (c := converted w s ss sz sg dz dg) in *.
  change (signed_value u sz sg) with (field sm (8 * Z.of_nat sp + ss) sz sg) in *.
  set (v := field sm (8 * Z.of_nat sp + ss) sz sg) in *.
  unfold store. replace (_ <=? _)%nat with true by (symmetry; apply Nat.leb_le; lia).
  replace (_ <=? w) with true by (clear -Wd; lia). cbn [andb].
  eexists; split; [reflexivity|].
  set (x := merged w d ds dz c).
  assert (Len : length (firstn dp dm ++ bytes_of kd x ++ skipn (dp + kd) dm) = length dm).
  { rewrite !app_length, firstn_length_le, bytes_of_length, skipn_length by lia. lia. }
  assert (Byt : bytes (firstn dp dm ++ bytes_of kd x ++ skipn (dp + kd) dm)).
  { apply bytes_app; [apply bytes_firstn, Bd|]. apply bytes_app; [apply bytes_of_bytes|apply bytes_skipn, Bd]. }
  split; [exact Len|]. split; [exact Byt|].
  assert (Bits : forall i, 0 <= i -> bit (firstn dp dm ++ bytes_of kd x ++ skipn (dp + kd) dm) i =
    if (8 * Z.of_nat dp <=? i) && (i <? 8 * Z.of_nat (dp + kd)) then Z.testbit x (i - 8 * Z.of_nat dp)
    else bit dm i).
  { intros i Hi. rewrite bit_app, firstn_length_le by lia.
    destruct (i <? 8 * Z.of_nat dp) eqn:E1.
    - replace (8 * Z.of_nat dp <=? i) with false by lia. apply bit_firstn; lia.
    - replace (8 * Z.of_nat dp <=? i) with true by lia. rewrite bit_app, bytes_of_length by lia. cbn [andb].
      destruct (i - 8 * Z.of_nat dp <? 8 * Z.of_nat kd) eqn:E2.
      + replace (i <? _) with true by lia. apply bytes_of_bit; lia.
      + replace (i <? _) with false by lia. rewrite bit_skipn by lia. f_equal. lia. }
  assert (Xd : forall i, 0 <= i -> Z.testbit d i = (i <? 8 * Z.of_nat kd) && bit dm (8 * Z.of_nat dp + i))
    by (intros; apply loaded_testbit; auto).
  set (m := firstn dp dm ++ bytes_of kd x ++ skipn (dp + kd) dm) in *. clearbody m.
  split.
  - assert (F : unsigned_field m (8 * Z.of_nat dp + ds) (Z.to_nat dz) = c mod 2 ^ dz).
    { apply Z.bits_inj'. intros i Hi. rewrite unsigned_testbit by lia. rewrite Z2Nat.id by lia.
      destruct (i <? dz) eqn:E; cbn [andb].
      - rewrite Z.mod_pow2_bits_low by lia. rewrite Bits by lia.
        replace (8 * Z.of_nat dp <=? _) with true by lia.
        replace (_ <? 8 * Z.of_nat (dp + kd)) with true by lia. cbn [andb].
        unfold x. rewrite merged_testbit by lia.
        replace (ds <=? _) with true by lia. replace (_ <? ds + dz) with true by lia. cbn [andb].
        f_equal. lia.
      - rewrite Z.mod_pow2_bits_high by lia. reflexivity. }
    unfold field. rewrite F, Vc. change (signed_value (nearest dz dg v mod 2 ^ dz) dz dg = nearest dz dg v).
    apply signed_mod; [lia|apply nearest_range; lia].
  - intros i Hi Ho. rewrite Bits by lia.
    destruct ((8 * Z.of_nat dp <=? i) && (i <? 8 * Z.of_nat (dp + kd))) eqn:E; [|reflexivity].
    unfold x. rewrite merged_testbit by lia.
    replace ((ds <=? _) && (_ <? ds + dz)) with false by lia.
    rewrite Xd by lia. replace (_ <? 8 * Z.of_nat kd) with true by lia. cbn [andb].
    replace (Z.testbit c (i - 8 * Z.of_nat dp - ds)) with false.
    + rewrite orb_false_r. f_equal. lia.
    + symmetry. destruct Ho as [Ho|[Ho [Ho2|Ho2]]].
      * apply Z.testbit_neg_r. lia.
      * lia.
      * apply above_zero with dz; [split; [lia|apply Nc, Ho2]|lia].
Qed.

(** ** BitSetToBitSet *)

Lemma width_ok a b : 0 <= a <= 128 -> 0 <= b <= 128 ->
  exists w, width a b = Some w /\ wide w /\ a <= w /\ b <= w.
Proof.
  intros Ha Hb. unfold width, wide.
  repeat match goal with |- context [if ?c then _ else _] => destruct c eqn:? end;
    [exists 8|exists 16|exists 32|exists 64|exists 128|lia];
    (split; [reflexivity|lia]).
Qed.

(** The normalised pointer and shift. *)
Lemma normalised (p : nat) (s : Z) : 0 <= s -> exists p' s',
  (if 8 <=? s then ((p + Z.to_nat (Z.shiftr s 3))%nat, Z.land s 7) else (p, s)) = (p', s') /\
  s' = s mod 8 /\ 8 * Z.of_nat p' + s' = 8 * Z.of_nat p + s.
Proof.
  intros H. destruct (8 <=? s) eqn:E.
  - do 2 eexists. split; [reflexivity|].
    rewrite Z.shiftr_div_pow2 by lia. change 7 with (2 ^ 3 - 1). rewrite land_ones_mod by lia.
    change (2 ^ 3) with 8. split; [reflexivity|].
    pose proof (Z.div_mod s 8 ltac:(lia)). pose proof (Z.div_pos s 8 ltac:(lia) ltac:(lia)). lia.
  - exists p, s. split; [reflexivity|]. rewrite Z.mod_small by lia. lia.
Qed.

(** The first bit after [o] that begins a byte. *)
Definition next_byte (o : Z) : Z := 8 * ((o + 7) / 8).

Lemma span_next p s z : 0 <= s -> 1 <= z ->
  8 * Z.of_nat (p + span z s) = next_byte (8 * Z.of_nat p + s + z).
Proof.
  intros H1 H2. unfold next_byte, span.
  replace (8 * Z.of_nat p + s + z + 7) with (z + s + 7 + Z.of_nat p * 8) by lia.
  rewrite Z.div_add by lia. pose proof (Z.div_pos (z + s + 7) 8 ltac:(lia) ltac:(lia)). lia.
Qed.

Theorem bitset_ok dm dp ds dz dg sm sp ss sz sg :
  bytes dm -> bytes sm -> 0 <= ds -> 0 <= ss ->
  let d := 8 * Z.of_nat dp + ds in
  let s := 8 * Z.of_nat sp + ss in
  inside dm d dz -> inside sm s sz -> ds mod 8 + dz <= 128 -> ss mod 8 + sz <= 128 ->
  exists o, bitset_to_bitset dm dp ds dz dg sm sp ss sz sg = Some o /\ o_ret o = true /\
    8 * Z.of_nat (o_dp o) + o_ds o = d + dz /\ 8 * Z.of_nat (o_sp o) + o_ss o = s + sz /\
    length (o_mem o) = length dm /\ bytes (o_mem o) /\
    field (o_mem o) d dz dg = nearest dz dg (field sm s sz sg) /\
    (forall i, 0 <= i ->
       i < d \/ d + dz <= i /\ (next_byte (d + dz) <= i \/ narrowed sz dz sg dg (field sm s sz sg) = false) ->
       bit (o_mem o) i = bit dm i).
Proof.
  intros Bd Bs Hds Hss d s (Id1 & Id2 & Id3) (Is1 & Is2 & Is3) Wd Ws.
  unfold bitset_to_bitset.
  destruct (normalised sp ss Hss) as (sp' & ss' & -> & Es1 & Es2).
  destruct (normalised dp ds Hds) as (dp' & ds' & -> & Ed1 & Ed2).
  rewrite <- Es1 in Ws. rewrite <- Ed1 in Wd.
  pose proof (Z.mod_pos_bound ss 8 ltac:(lia)) as Rs. pose proof (Z.mod_pos_bound ds 8 ltac:(lia)) as Rd.
  rewrite <- Es1 in Rs. rewrite <- Ed1 in Rd.
  rewrite !uwrap_id by (change (2 ^ 8) with 256; lia).
  destruct (width_ok (ss' + sz) (ds' + dz) ltac:(lia) ltac:(lia)) as (w & -> & Hw & W1 & W2).
  destruct (bs_to_bs_ok w dm dp' ds' dz dg sm sp' ss' sz sg Hw Bd Bs Rd Rs Id2 Is2 W2 W1 ltac:(lia) ltac:(lia))
    as (m & -> & L & B & F & Fr).
  eexists; split; [reflexivity|]. cbn [o_ret o_mem o_dp o_ds o_sp o_ss].
  rewrite Es2, Ed2 in *. rewrite (span_next dp' ds' dz) in Fr by lia. rewrite Ed2 in Fr.
  repeat (split; [auto; lia|]). exact Fr.
Qed.

(** Too long: nothing is written. *)
Theorem bitset_refused dm dp ds dz dg sm sp ss sz sg :
  0 <= ds -> 0 <= ss -> 0 <= dz -> 0 <= sz ->
  ds mod 8 + dz < 256 -> ss mod 8 + sz < 256 -> 128 < ds mod 8 + dz \/ 128 < ss mod 8 + sz ->
  exists o, bitset_to_bitset dm dp ds dz dg sm sp ss sz sg = Some o /\ o_ret o = false /\ o_mem o = dm.
Proof.
  intros Hds Hss Hdz Hsz Wd Ws H. unfold bitset_to_bitset.
  destruct (normalised sp ss Hss) as (sp' & ss' & -> & Es1 & _).
  destruct (normalised dp ds Hds) as (dp' & ds' & -> & Ed1 & _).
  rewrite <- Es1 in *. rewrite <- Ed1 in *.
  pose proof (Z.mod_pos_bound ss 8 ltac:(lia)) as Rs. pose proof (Z.mod_pos_bound ds 8 ltac:(lia)) as Rd.
  rewrite !uwrap_id by (change (2 ^ 8) with 256; lia).
  replace (width (ss' + sz) (ds' + dz)) with (@None Z); [eexists; split; [reflexivity|]; auto|].
  unfold width.
  repeat match goal with |- context [if ?c then _ else _] => destruct c eqn:? end; lia || reflexivity.
Qed.
