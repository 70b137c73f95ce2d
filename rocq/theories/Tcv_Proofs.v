(** Proofs about TypeConvert: memory and the conversion of one element. *)
From Verif Require Import Base BitsBase Bsb_Model Bsb_Spec Bsb_Proofs Tcv_Model Tcv_Spec.
From Verif Require IntText_Spec IntText_Model IntText_Props Bsb_Props.
Local Open Scope nat_scope.

(** ** Memory *)

Definition put (m : list Z) (p : nat) (bs : list Z) : list Z := firstn p m ++ bs ++ skipn (p + length bs) m.

Lemma put_length m p bs : p + length bs <= length m -> length (put m p bs) = length m.
Proof. intros H. unfold put. rewrite !app_length, firstn_length_le, skipn_length by lia. lia. Qed.

Lemma nth_skipn {A} (l : list A) n i x : nth i (skipn n l) x = nth (n + i) l x.
Proof.
  revert l. induction n as [|n IH]; intros l; [reflexivity|]. destruct l as [|a l]; [|apply IH].
  cbn. destruct i; reflexivity.
Qed.

Lemma nth_firstn {A} (l : list A) n i x : i < n -> nth i (firstn n l) x = nth i l x.
Proof.
  revert l i. induction n as [|n IH]; intros l i H; [lia|]. destruct l as [|a l]; [destruct i; reflexivity|].
  destruct i as [|i]; [reflexivity|]. cbn. apply IH. lia.
Qed.

Lemma put_nth m p bs i : p + length bs <= length m ->
  nth i (put m p bs) 0%Z = if (p <=? i) && (i <? p + length bs) then nth (i - p) bs 0%Z else nth i m 0%Z.
Proof.
  intros H. unfold put.
  destruct (lt_dec i p) as [L|G].
  - rewrite app_nth1 by (rewrite firstn_length_le; lia).
    replace (p <=? i) with false by (symmetry; apply Nat.leb_gt; lia). apply nth_firstn. lia.
  - replace (p <=? i) with true by (symmetry; apply Nat.leb_le; lia). cbn [andb].
    rewrite app_nth2 by (rewrite firstn_length_le; lia). rewrite firstn_length_le by lia.
    destruct (lt_dec i (p + length bs)) as [L2|G2].
    + replace (i <? _) with true by (symmetry; apply Nat.ltb_lt; lia). rewrite app_nth1 by lia. reflexivity.
    + replace (i <? _) with false by (symmetry; apply Nat.ltb_ge; lia). rewrite app_nth2 by lia.
      rewrite nth_skipn. f_equal. lia.
Qed.

Lemma list_ext (a b : list Z) : length a = length b ->
  (forall i, i < length a -> nth i a 0%Z = nth i b 0%Z) -> a = b.
Proof. intros L H. apply (nth_ext a b 0%Z 0%Z); auto. Qed.

Lemma slice_length m p n : p + n <= length m -> length (slice m p n) = n.
Proof. intros H. unfold slice. rewrite firstn_length_le; [reflexivity|rewrite skipn_length; lia]. Qed.

Lemma slice_nth m p n i : i < n -> nth i (slice m p n) 0%Z = nth (p + i) m 0%Z.
Proof. intros H. unfold slice. rewrite nth_firstn by lia. apply nth_skipn. Qed.

Lemma slice_bytes m p n : bytes m -> bytes (slice m p n).
Proof. intros B. apply bytes_firstn, bytes_skipn, B. Qed.

Lemma slice_ext m m' p n : p + n <= length m -> length m' = length m ->
  (forall i, p <= i < p + n -> nth i m' 0%Z = nth i m 0%Z) -> slice m' p n = slice m p n.
Proof.
  intros H L E. apply list_ext; rewrite !slice_length by lia; [reflexivity|].
  intros i Hi. rewrite !slice_nth by lia. apply E. lia.
Qed.

Lemma put_bytes m p bs : bytes m -> bytes bs -> bytes (put m p bs).
Proof.
  intros B1 B2. unfold put. apply bytes_app; [apply bytes_firstn, B1|]. apply bytes_app; [exact B2|apply bytes_skipn, B1].
Qed.

Lemma slice_put m p bs : p + length bs <= length m -> slice (put m p bs) p (length bs) = bs.
Proof.
  intros H. apply list_ext; rewrite slice_length by (rewrite put_length; lia); [reflexivity|].
  intros i Hi. rewrite slice_nth, put_nth by lia.
  replace (p <=? p + i) with true by (symmetry; apply Nat.leb_le; lia).
  replace (p + i <? p + length bs) with true by (symmetry; apply Nat.ltb_lt; lia). cbn [andb].
  f_equal. lia.
Qed.

Lemma write_put m p bs : p + length bs <= length m -> write m p bs = Some (put m p bs).
Proof.
  intros H. unfold write. replace (_ <=? _) with true by (symmetry; apply Nat.leb_le; lia). reflexivity.
Qed.

Lemma read_slice m p n : p + n <= length m -> read m p n = Some (slice m p n).
Proof. intros H. unfold read. replace (_ <=? _) with true by (symmetry; apply Nat.leb_le; lia). reflexivity. Qed.

(** Writing the beginning of a region. *)
Lemma put_front m p n bs : length bs <= n -> p + n <= length m ->
  put m p bs = put m p (bs ++ skipn (length bs) (slice m p n)).
Proof.
  intros H1 H2.
  assert (L : length (bs ++ skipn (length bs) (slice m p n)) = n)
    by (rewrite app_length, skipn_length, slice_length by lia; lia).
  apply list_ext; rewrite !put_length by (rewrite ?L; lia); [reflexivity|].
  intros i Hi. rewrite !put_nth by (rewrite ?L; lia). rewrite L.
  destruct (le_dec p i) as [G|G].
  - replace (p <=? i) with true by (symmetry; apply Nat.leb_le; lia). cbn [andb].
    destruct (lt_dec i (p + length bs)) as [G2|G2].
    + replace (i <? p + length bs) with true by (symmetry; apply Nat.ltb_lt; lia).
      replace (i <? p + n) with true by (symmetry; apply Nat.ltb_lt; lia).
      rewrite app_nth1 by lia. reflexivity.
    + replace (i <? p + length bs) with false by (symmetry; apply Nat.ltb_ge; lia).
      destruct (lt_dec i (p + n)) as [G3|G3].
      * replace (i <? p + n) with true by (symmetry; apply Nat.ltb_lt; lia).
        rewrite app_nth2, nth_skipn, slice_nth by lia. f_equal. lia.
      * replace (i <? p + n) with false by (symmetry; apply Nat.ltb_ge; lia). reflexivity.
  - replace (p <=? i) with false by (symmetry; apply Nat.leb_gt; lia). reflexivity.
Qed.

Lemma put_twice m p a k b : p + length a <= length m -> k + length b <= length a ->
  put (put m p a) (p + k) b = put m p (put a k b).
Proof.
  intros H1 H2.
  apply list_ext; rewrite !put_length by (rewrite ?put_length; lia); [reflexivity|].
  intros i Hi. rewrite !put_nth by (rewrite ?put_length; lia). rewrite !put_length by lia.
  repeat match goal with |- context [?x <=? ?y] => destruct (Nat.leb_spec x y) end;
  repeat match goal with |- context [?x <? ?y] => destruct (Nat.ltb_spec x y) end; cbn [andb]; try lia; try reflexivity.
  all: try (f_equal; lia).
  all: rewrite put_nth by lia;
    repeat match goal with |- context [?x <=? ?y] => destruct (Nat.leb_spec x y) end;
    repeat match goal with |- context [?x <? ?y] => destruct (Nat.ltb_spec x y) end; cbn [andb]; try lia; try reflexivity;
    f_equal; lia.
Qed.

(** ** Numbers in memory *)

Lemma unsigned_word b k : bytes b -> length b = k -> unsigned_field b 0 (8 * k) = word_of b.
Proof.
  intros B L. apply Z.bits_inj'. intros i Hi. rewrite unsigned_testbit by lia. rewrite word_testbit by auto.
  destruct (i <? Z.of_nat (8 * k))%Z eqn:E; cbn [andb]; [f_equal; lia|].
  symmetry. rewrite <- word_testbit by auto. apply above_zero with (8 * Z.of_nat k)%Z; [|lia].
  pose proof (word_bound b B) as W. rewrite L in W. exact W.
Qed.

Lemma unsigned_slice m p k : bytes m -> p + k <= length m ->
  unsigned_field m (8 * Z.of_nat p) (8 * k) = word_of (slice m p k).
Proof.
  intros B L. apply Z.bits_inj'. intros i Hi. rewrite unsigned_testbit by lia.
  unfold slice. rewrite loaded_testbit by (auto; lia). f_equal; lia.
Qed.

Lemma field_word b bits sg : bytes b -> (0 < bits)%Z -> (bits mod 8 = 0)%Z -> length b = Z.to_nat (bits / 8) ->
  field b 0 bits sg = cast (ITy bits sg) (word_of b).
Proof.
  intros B H0 H8 L. unfold field.
  assert (E : Z.to_nat bits = 8 * Z.to_nat (bits / 8))
    by (pose proof (Z.div_mod bits 8 ltac:(lia)); pose proof (Z.div_pos bits 8 ltac:(lia) ltac:(lia)); lia).
  rewrite E, (unsigned_word b _ B L).
  pose proof (word_bound b B) as W. rewrite L in W.
  replace (8 * Z.of_nat (Z.to_nat (bits / 8)))%Z with bits in W
    by (pose proof (Z.div_mod bits 8 ltac:(lia)); pose proof (Z.div_pos bits 8 ltac:(lia) ltac:(lia)); lia).
  unfold cast. cbn [isgn ibits]. destruct sg; cbn [andb].
  - rewrite swrap_cases by lia. rewrite uwrap_id by lia.
    destruct (2 ^ (bits - 1) <=? word_of b)%Z eqn:E2; destruct (word_of b <? 2 ^ (bits - 1))%Z eqn:E3; lia.
  - rewrite uwrap_id by lia. reflexivity.
Qed.

Lemma field_slice m p bits sg : bytes m -> (0 < bits)%Z -> (bits mod 8 = 0)%Z ->
  p + Z.to_nat (bits / 8) <= length m ->
  field m (8 * Z.of_nat p) bits sg = field (slice m p (Z.to_nat (bits / 8))) 0 bits sg.
Proof.
  intros B H0 H8 L. unfold field.
  assert (E : Z.to_nat bits = 8 * Z.to_nat (bits / 8))
    by (pose proof (Z.div_mod bits 8 ltac:(lia)); pose proof (Z.div_pos bits 8 ltac:(lia) ltac:(lia)); lia).
  rewrite E. rewrite unsigned_slice by auto.
  rewrite (unsigned_word (slice m p _) (Z.to_nat (bits / 8))) by (try apply slice_bytes; auto; apply slice_length; lia).
  reflexivity.
Qed.

Lemma std_bits b s : standard (TInt b s) -> (0 < b)%Z /\ (b mod 8 = 0)%Z /\ (8 * (b / 8) = b)%Z /\
  1 <= Z.to_nat (b / 8) <= 8 /\ std_ty (ITy b s).
Proof.
  unfold standard, std_ty. cbn [ibits].
  intros [->|[->|[->| ->]]]; (split; [lia|]); (split; [reflexivity|]); (split; [reflexivity|]);
    (split; [vm_compute; lia|]); tauto.
Qed.

(** Memories that agree in all bits agree in all bytes. *)
Lemma same_bits_nth m m' i : bytes m -> bytes m' ->
  (forall j, (8 * Z.of_nat i <= j < 8 * Z.of_nat i + 8)%Z -> bit m' j = bit m j) -> nth i m' 0%Z = nth i m 0%Z.
Proof.
  intros B B' H.
  assert (R : forall l, bytes l -> (0 <= nth i l 0 < 256)%Z).
  { intros l Bl. destruct (lt_dec i (length l)) as [L|G].
    - unfold bytes in Bl. rewrite Forall_forall in Bl. apply Bl, nth_In, L.
    - rewrite nth_overflow by lia. lia. }
  apply Z.bits_inj'. intros k Hk.
  destruct (Z_lt_ge_dec k 8) as [L|G].
  - specialize (H (8 * Z.of_nat i + k)%Z ltac:(lia)). unfold bit in H.
    replace ((8 * Z.of_nat i + k) / 8)%Z with (Z.of_nat i) in H
      by (symmetry; rewrite Z.mul_comm, Z.div_add_l by lia; rewrite Z.div_small by lia; lia).
    replace ((8 * Z.of_nat i + k) mod 8)%Z with k in H
      by (symmetry; rewrite Z.add_comm, Z.mul_comm, Z.mod_add by lia; apply Z.mod_small; lia).
    rewrite Nat2Z.id in H. exact H.
  - rewrite !(above_zero _ 8 k) by (try lia; change (2 ^ 8)%Z with 256%Z; auto). reflexivity.
Qed.

Lemma same_but_put m m' p k : bytes m -> p + k <= length m ->
  same_but m m' (8 * Z.of_nat p) (8 * Z.of_nat k) -> m' = put m p (slice m' p k).
Proof.
  intros B L (Ln & B' & H).
  assert (S : length (slice m' p k) = k) by (apply slice_length; lia).
  apply list_ext; [rewrite put_length by lia; exact Ln|].
  intros i Hi. rewrite put_nth by lia. rewrite S.
  destruct ((p <=? i) && (i <? p + k)) eqn:E.
  - apply andb_prop in E. destruct E as [E1 E2]. apply Nat.leb_le in E1. apply Nat.ltb_lt in E2.
    rewrite slice_nth by lia. f_equal. lia.
  - apply same_bits_nth; auto. intros j Hj. apply H; [lia|].
    apply andb_false_iff in E. destruct E as [E|E]; [apply Nat.leb_gt in E|apply Nat.ltb_ge in E]; lia.
Qed.

(** ** Texts *)

Lemma chars_text l : In 0%Z l -> forall r, c_chars (l ++ r) = Some (text_in l).
Proof.
  induction l as [|c l IH]; intros H r; [destruct H|]. cbn.
  destruct (c =? 0)%Z eqn:E; [reflexivity|]. destruct H as [->|H]; [discriminate E|].
  rewrite (IH H). reflexivity.
Qed.

Lemma text_bytes l : bytes l -> bytes (text_in l) /\ IntText_Spec.c_string (text_in l).
Proof.
  intros B. induction B as [|c l Hc B IH]; cbn; [split; constructor|].
  destruct (c =? 0)%Z eqn:E; [split; constructor|]. destruct IH as [I1 I2]. split; constructor; auto. lia.
Qed.

Lemma decimal_bytes t z : IntText_Spec.decimal_text t z -> bytes t.
Proof.
  assert (D : forall s n, IntText_Spec.canonical 10 s n -> bytes s).
  { intros s n [[F _] _]. unfold bytes. eapply Forall_impl; [|exact F]. cbn. intros c.
    unfold IntText_Spec.is_digit, IntText_Spec.digit_val.
    destruct ((48 <=? c) && (c <=? 57))%Z eqn:E1; [lia|].
    destruct ((65 <=? c) && (c <=? 90))%Z eqn:E2; [lia|].
    destruct ((97 <=? c) && (c <=? 122))%Z eqn:E3; lia. }
  unfold IntText_Spec.decimal_text. destruct (z <? 0)%Z.
  - intros (ds & -> & C). constructor; [lia|eapply D, C].
  - apply D.
Qed.

Lemma same_text_spec a b : same_text a b = true <-> map small_letter a = map small_letter b.
Proof.
  revert b. induction a as [|x a IH]; intros [|y b]; cbn; try (split; congruence).
  change lower with small_letter. rewrite andb_true_iff, IH, Z.eqb_eq. split; [intros [-> ->]; reflexivity|].
  intros E. injection E as E1 E2. auto.
Qed.

Lemma u32_id n : (Z.of_nat n < 2 ^ 32)%Z -> u32 n = n.
Proof. intros H. unfold u32. rewrite uwrap_id by lia. lia. Qed.

Lemma put_text_ok m d t old : bytes m -> bytes t -> s_ty d = TChar -> (Z.of_nat (s_n0 d) < 2 ^ 32)%Z ->
  s_at d + s_n0 d <= length m -> old = slice m (s_at d) (s_n0 d) ->
  exists new, put_text m d t = Some (true, put m (s_at d) new) /\ length new = s_n0 d /\ bytes new /\
    holds_text t old new.
Proof.
  intros B Bt Ty Sm L ->. unfold put_text. rewrite Ty. cbn [byte_size]. rewrite Nat.mul_1_l, u32_id by exact Sm.
  assert (Lo : length (slice m (s_at d) (s_n0 d)) = s_n0 d) by (apply slice_length; lia).
  set (n := s_n0 d) in *. set (p := s_at d) in *. unfold holds_text. rewrite Lo.
  destruct (n <=? length t) eqn:E.
  - apply Nat.leb_le in E. replace (length t <? n) with false by (symmetry; apply Nat.ltb_ge; lia).
    assert (Lf : length (firstn n t) = n) by (apply firstn_length_le; lia).
    rewrite write_put by lia. destruct (1 <? n) eqn:E1.
    + apply Nat.ltb_lt in E1. rewrite write_put by (rewrite put_length; cbn; lia).
      rewrite put_twice by (cbn; lia). eexists. split; [reflexivity|].
      split; [rewrite put_length; cbn; lia|].
      split; [apply put_bytes; [apply bytes_firstn, Bt|repeat constructor; lia]|].
      unfold put. cbn [length]. rewrite firstn_firstn. replace (Nat.min (n - 1) n) with (n - 1) by lia.
      f_equal. rewrite skipn_all2 by lia. reflexivity.
    + eexists. split; [reflexivity|]. split; [exact Lf|]. split; [apply bytes_firstn, Bt|reflexivity].
  - apply Nat.leb_gt in E. replace (length t <? n) with true by (symmetry; apply Nat.ltb_lt; lia).
    assert (La : length (t ++ [0%Z]) = S (length t)) by (rewrite app_length; cbn; lia).
    rewrite write_put by lia. rewrite (put_front m p n) by lia. rewrite La.
    eexists. split; [reflexivity|]. rewrite <- app_assoc. cbn [app].
    split; [rewrite app_length; cbn [length]; rewrite skipn_length; lia|].
    split; [apply bytes_app; [exact Bt|constructor; [lia|apply bytes_skipn, slice_bytes, B]]|reflexivity].
Qed.
