(** C12: BitSet is the set of its bit indices, seen as the binary number [value]. *)
From Verif Require Import Base BitSet_Model BitSet_Spec BitSet_Proofs.

(** Bit and Set: reading, and changing exactly one index; every other index keeps its membership,
    however far beyond the current size the written index is. *)
Theorem C12_bit_is_membership a i : Forall is_word a -> 0 <= i -> bit a i = member a i.
Proof. apply bit_member. Qed.
Theorem C12_set_changes_one_index a i v j : Forall is_word a -> 0 <= i -> 0 <= j ->
  bit (set a i v) j = if j =? i then v else bit a j.
Proof.
  intros F Hi Hj. destruct (set_member a i v j F Hi Hj) as (F2 & _ & M). rewrite !bit_member by auto. exact M.
Qed.

(** & | ^ on operands of any two sizes *)
Theorem C12_operators_are_bitwise a b i : Forall is_word a -> Forall is_word b -> 0 <= i ->
  bit (band a b) i = bit a i && bit b i /\ bit (bor a b) i = bit a i || bit b i /\ bit (bxor a b) i = xorb (bit a i) (bit b i).
Proof.
  intros A B Hi. destruct (binops_words a b A B) as ((Fa & Fo & Fx) & _). rewrite !bit_member by auto. unfold member.
  rewrite band_value, bor_value, bxor_value by auto. rewrite Z.land_spec, Z.lor_spec, Z.lxor_spec. auto.
Qed.

(** ~ complements the represented words and adds nothing above them. *)
Theorem C12_complement a i : Forall is_word a -> 0 <= i -> bit (bnot a) i = (i <? 32 * nel a) && negb (bit a i).
Proof.
  intros F Hi. rewrite !bit_member; auto; [apply bnot_member; auto|].
  apply Forall_forall. intros x Hx. apply in_map_iff in Hx. destruct Hx as (w & <- & _). apply uwrap_word.
Qed.

(** << and >> move every index, across words; nothing is lost by <<. *)
Theorem C12_shift_left a r i : bitset a -> 0 <= r -> 32 * nel a + r < 2 ^ 32 -> 0 <= i ->
  bit (bshl a r) i = (r <=? i) && bit a (i - r).
Proof.
  intros B Hr Hb Hi. destruct (bshl_value a r B Hr Hb) as [V F]. destruct B as [FA _]. rewrite bit_member by auto.
  unfold member. rewrite V, <- Z.shiftl_mul_pow2 by lia. rewrite Z.shiftl_spec by lia.
  destruct (r <=? i) eqn:E; cbn [andb]; [rewrite bit_member by (auto; lia); reflexivity|apply Z.testbit_neg_r; lia].
Qed.
Theorem C12_shift_right a r i : bitset a -> 0 <= r -> 0 <= i -> bit (bshr a r) i = bit a (i + r).
Proof.
  intros B Hr Hi. destruct (bshr_value a r B Hr) as [V F]. destruct B as [FA _]. rewrite !bit_member by (auto; lia).
  unfold member. rewrite V, <- Z.shiftr_div_pow2 by lia. rewrite Z.shiftr_spec by lia. reflexivity.
Qed.

(** The number represented: words, operators and shifts as arithmetic. *)
Theorem C12_as_numbers a b r : bitset a -> bitset b -> 0 <= r -> 32 * nel a + r < 2 ^ 32 ->
  value (band a b) = Z.land (value a) (value b) /\ value (bor a b) = Z.lor (value a) (value b) /\
  value (bxor a b) = Z.lxor (value a) (value b) /\ value (bshl a r) = value a * 2 ^ r /\ value (bshr a r) = value a / 2 ^ r.
Proof.
  intros A B Hr Hb. pose proof (bshl_value a r A Hr Hb). pose proof (bshr_value a r A Hr). destruct A, B.
  rewrite band_value, bor_value, bxor_value by auto. tauto.
Qed.

(** == : same set of indices, whatever the two sizes. *)
Theorem C12_equality a b : Forall is_word a -> Forall is_word b ->
  (beq a b = true <-> forall i, 0 <= i -> bit a i = bit b i).
Proof.
  intros A B. rewrite beq_value by auto. split.
  - intros E i Hi. rewrite !bit_member by auto. unfold member. rewrite E. reflexivity.
  - intros H. apply value_ext; auto. intros i Hi. rewrite <- !bit_member by auto. auto.
Qed.
Theorem C12_equality_u32 a v : Forall is_word a -> 0 <= v < 2 ^ 32 -> (beq_u32 a v = true <-> value a = v).
Proof. apply beq_u32_value. Qed.
Theorem C12_equality_u64 a v : Forall is_word a -> 0 <= v < 2 ^ 64 -> nel a <> 1 ->
  exists b, beq_u64 a v = Some b /\ (b = true <-> value a = v).
Proof. apply beq_u64_value. Qed.
(** The hypothesis nel a <> 1 is needed: a one-word set compared with its own value reads array[1]. *)
Theorem C12_equality_u64_one_word_refuted : ~ (forall a v, Forall is_word a -> 0 <= v < 2 ^ 64 -> beq_u64 a v <> None).
Proof. intros H. apply (H [5] 5); [repeat constructor; cbn; lia|lia|reflexivity]. Qed.

(** Conversions *)
Theorem C12_conversions a v : Forall is_word a -> 0 <= v < 2 ^ 64 ->
  to_u32 a = value a mod 2 ^ 32 /\ value (of_u64 v) = v /\ (nel a <= 2 -> to_u64 a = value a).
Proof.
  intros F Hv. split; [apply to_u32_value; auto|]. split; [apply of_u64_value; auto|]. apply to_u64_value; auto.
Qed.
(** The uint64 conversion is not the low 64 bits of a longer set: the high word is dropped. *)
Theorem C12_to_u64_refuted : ~ (forall a, Forall is_word a -> to_u64 a = value a mod 2 ^ 64).
Proof. intros H. specialize (H [1; 1; 0] ltac:(repeat constructor; cbn; lia)). vm_compute in H. discriminate. Qed.

Example C12_nonvacuous :
  bit (bshl [2147483649; 1] 33) 97 = false /\ bit (bshl [2147483649; 1] 33) 64 = true /\ bit (bshl [2147483649; 1] 33) 65 = true /\
  bit (bshr [2147483649; 3] 32) 1 = true /\ set [1] 70 true = [1; 0; 64] /\ beq [5; 0] [5] = true /\ bnot [1] = [4294967294].
Proof. vm_compute. auto 10. Qed.
Example C12_nonvacuous_hyps : bitset [2147483649; 3] /\ 32 * nel [2147483649; 3] + 33 < 2 ^ 32.
Proof. unfold bitset, is_word, nel; cbn [length]. split; [split; [constructor; [lia|constructor; [lia|constructor]]|]|]; lia. Qed.

Print Assumptions C12_bit_is_membership.
Print Assumptions C12_set_changes_one_index.
Print Assumptions C12_operators_are_bitwise.
Print Assumptions C12_complement.
Print Assumptions C12_shift_left.
Print Assumptions C12_shift_right.
Print Assumptions C12_as_numbers.
Print Assumptions C12_equality.
Print Assumptions C12_equality_u32.
Print Assumptions C12_equality_u64.
Print Assumptions C12_equality_u64_one_word_refuted.
Print Assumptions C12_conversions.
Print Assumptions C12_to_u64_refuted.
