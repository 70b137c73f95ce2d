From Verif Require Import Base BitsBase IntArith_Model IntArith_Spec IntArith_Proofs Tds_Model Tds_Spec.
Local Open Scope Z_scope.

Lemma in16 w : in_ty u16 w <-> word w.
Proof. unfold in_ty, u16, word, imin, imax. cbn. lia. Qed.
Lemma low a b n : 0 <= n -> (forall i, 0 <= i < n -> Z.testbit a i = Z.testbit b i) -> a mod 2 ^ n = b mod 2 ^ n.
Proof.
  intros Hn H. apply Z.bits_inj'. intros i Hi. destruct (Z.lt_ge_cases i n).
  - rewrite !Z.mod_pow2_bits_low by lia. apply H. lia.
  - rewrite !Z.mod_pow2_bits_high by lia. reflexivity.
Qed.
Lemma testbit_arith w i : 0 <= i -> (w / 2 ^ i) mod 2 = bit (Z.testbit w i).
Proof. intros. rewrite <- Z.testbit_spec' by lia. destruct (Z.testbit w i); reflexivity. Qed.
Lemma read_arith n off w : 0 < n -> 0 <= off -> n + off <= 16 -> br_read u16 n off w = (w / 2 ^ off) mod 2 ^ n.
Proof.
  intros. assert (P : 2 ^ n <= 2 ^ 16) by (apply Z.pow_le_mono_r; lia).
  apply (in_ty_bits_inj u16); [cbn; lia|unfold br_read; apply cast_range; cbn; lia| |].
  - apply in16. unfold word. pose proof (Z.mod_pos_bound (w / 2 ^ off) (2 ^ n) ltac:(lia)). change (2 ^ 16) with 65536 in P. lia.
  - intros i Hi. cbn in Hi. rewrite br_read_testbit by (cbn; lia). cbn [isgn u16].
    destruct (Z.ltb_spec i n).
    + rewrite Z.mod_pow2_bits_low, Z.div_pow2_bits by lia. f_equal. lia.
    + rewrite Z.mod_pow2_bits_high by lia. reflexivity.
Qed.
Lemma assign_arith n off w x : 0 < n -> 0 <= off -> n + off <= 16 -> word x ->
  let w' := br_assign u16 u16 n off w x in
  word w' /\ w' mod 2 ^ off = w mod 2 ^ off /\ (w' / 2 ^ off) mod 2 ^ n = Z.min x (2 ^ n - 1).
Proof.
  intros Hn Ho Hs Hx w'. split; [|split].
  - apply in16. apply br_word_range. cbn; lia.
  - apply low; [lia|]. intros i Hi. apply br_frame_unsigned; cbn; try reflexivity; lia.
  - rewrite <- read_arith by lia. unfold w'. rewrite br_read_back; try (cbn; lia); [|apply in16; exact Hx].
    unfold clamp, bit_min, bit_max. cbn [isgn u16]. unfold word in Hx.
    destruct (x <? 0) eqn:?, (x >? 2 ^ n - 1) eqn:?; lia.
Qed.
Lemma flag_arith off w f : 0 <= off < 16 ->
  let w' := bb_assign u16 off w f in
  word w' /\ w' mod 2 ^ off = w mod 2 ^ off /\ (w' / 2 ^ off) mod 2 = bit f.
Proof.
  intros Ho w'. split; [|split].
  - apply in16. unfold w', bb_assign. destruct f; apply cast_range; cbn; lia.
  - apply low; [lia|]. intros i Hi. unfold w'. rewrite bb_assign_bits by (cbn; lia). destruct (Z.eqb_spec i off); [lia|reflexivity].
  - rewrite testbit_arith by lia. unfold w'. rewrite bb_assign_bits by (cbn; lia). now rewrite Z.eqb_refl.
Qed.
Lemma make_ok g c t n : word t -> word n -> make g c t n = basic c (Z.min t 15) (Z.min n 1023).
Proof.
  intros Ht Hn. unfold make, basic.
  destruct (flag_arith 0 g false ltac:(lia)) as (A1 & _ & A3). set (w0 := bb_assign u16 0 g false) in *.
  destruct (flag_arith 1 w0 c ltac:(lia)) as (B1 & B2 & B3). set (w1 := bb_assign u16 1 w0 c) in *.
  destruct (assign_arith 4 2 w1 t ltac:(lia) ltac:(lia) ltac:(lia) Ht) as (C1 & C2 & C3). set (w2 := br_assign u16 u16 4 2 w1 t) in *.
  destruct (assign_arith 10 6 w2 n ltac:(lia) ltac:(lia) ltac:(lia) Hn) as (D1 & D2 & D3). set (w3 := br_assign u16 u16 10 6 w2 n) in *.
  clearbody w0 w1 w2 w3. change (2 ^ 0) with 1 in *. change (2 ^ 1) with 2 in *. change (2 ^ 2) with 4 in *. change (2 ^ 4) with 16 in *. change (2 ^ 6) with 64 in *. change (2 ^ 10) with 1024 in *.
  unfold word, bit in *. destruct c; Z.div_mod_to_equations; lia.
Qed.
Lemma make_class_ok g c n : 0 <= n < 16384 -> make_class g c n = class c n.
Proof.
  intros Hm. assert (Hn : word n) by (unfold word; lia). unfold make_class, class.
  destruct (flag_arith 0 g true ltac:(lia)) as (A1 & _ & A3). set (w0 := bb_assign u16 0 g true) in *.
  destruct (flag_arith 1 w0 c ltac:(lia)) as (B1 & B2 & B3). set (w1 := bb_assign u16 1 w0 c) in *.
  destruct (assign_arith 14 2 w1 n ltac:(lia) ltac:(lia) ltac:(lia) Hn) as (C1 & C2 & C3). set (w2 := br_assign u16 u16 14 2 w1 n) in *.
  clearbody w0 w1 w2. change (2 ^ 0) with 1 in *. change (2 ^ 1) with 2 in *. change (2 ^ 2) with 4 in *. change (2 ^ 14) with 16384 in *.
  unfold word, bit in *. destruct c; Z.div_mod_to_equations; lia.
Qed.
Lemma equal_ok a b : equal a b = true <-> same_type a b.
Proof.
  unfold equal, same_type. rewrite Z.eqb_eq. change 4 with (2 ^ 2). split.
  - intros H. assert (K : forall i, 0 <= i -> i <> 1 -> Z.testbit a i = Z.testbit b i).
    { intros i Hi N. assert (E : Z.testbit (Z.lor a 2) i = Z.testbit (Z.lor b 2) i) by now rewrite H.
      rewrite !Z.lor_spec in E. change 2 with (2 ^ 1) in E. rewrite Z.pow2_bits_false, !orb_false_r in E by lia. exact E. }
    split; [rewrite <- !Z.bit0_odd; apply K; lia|].
    apply Z.bits_inj'. intros i Hi. rewrite !Z.div_pow2_bits by lia. apply K; lia.
  - intros [H1 H2]. apply Z.bits_inj'. intros i Hi. rewrite !Z.lor_spec. assert (T2 : 2 = 2 ^ 1) by reflexivity. rewrite T2.
    destruct (Z.eq_dec i 1) as [->|N]; [rewrite Z.pow2_bits_true by lia; now rewrite !orb_true_r|].
    rewrite Z.pow2_bits_false, !orb_false_r by lia.
    destruct (Z.eq_dec i 0) as [->|N0]; [rewrite !Z.bit0_odd; exact H1|].
    replace i with ((i - 2) + 2) by lia. rewrite <- !Z.div_pow2_bits by lia. now rewrite H2.
Qed.
Lemma bit_read off w : word w -> 0 <= off < 16 -> bb_read u16 off w = Z.testbit w off.
Proof. intros W H. apply bb_read_bit; [cbn; lia|cbn; lia|apply in16, W]. Qed.
Lemma bit_inj a b : bit a = bit b -> a = b.
Proof. destruct a, b; cbn; congruence. Qed.
Lemma flag_read off w f : word w -> 0 <= off < 16 -> (w / 2 ^ off) mod 2 = bit f -> bb_read u16 off w = f.
Proof. intros W H E. rewrite bit_read by (exact W || lia). apply bit_inj. now rewrite <- testbit_arith by lia. Qed.
Lemma read_basic c k s : 0 <= k < 16 -> 0 <= s < 1024 ->
  is_structured (basic c k s) = false /\ is_constant (basic c k s) = c /\ type_of (basic c k s) = k /\ number_of_bits (basic c k s) = s.
Proof.
  intros Hk Hs. unfold is_structured, is_constant, type_of, number_of_bits. rewrite !read_arith by lia.
  change (2 ^ 2) with 4. change (2 ^ 4) with 16. change (2 ^ 6) with 64. change (2 ^ 10) with 1024.
  repeat split; try (apply flag_read; [unfold word, basic, class, bit; destruct c; lia|lia|]; change (2 ^ 0) with 1; change (2 ^ 1) with 2);
    unfold basic, bit; destruct c; Z.div_mod_to_equations; lia.
Qed.
Lemma read_class c n : 0 <= n < 16384 -> is_structured (class c n) = true /\ is_constant (class c n) = c /\ id_code (class c n) = n.
Proof.
  intros Hn. unfold is_structured, is_constant, id_code. rewrite !read_arith by lia.
  change (2 ^ 2) with 4. change (2 ^ 14) with 16384.
  repeat split; try (apply flag_read; [unfold word, basic, class, bit; destruct c; lia|lia|]; change (2 ^ 0) with 1; change (2 ^ 1) with 2);
    unfold class, bit; destruct c; Z.div_mod_to_equations; lia.
Qed.
Lemma odd_basic c k s : Z.odd (basic c k s) = false.
Proof. unfold basic. replace (2 * bit c + 4 * k + 64 * s) with (2 * (bit c + 2 * k + 32 * s)) by lia. apply Z.odd_mul. Qed.
Lemma odd_class c n : Z.odd (class c n) = true.
Proof. unfold class. replace (1 + 2 * bit c + 4 * n) with (1 + 2 * (bit c + 2 * n)) by lia. now rewrite Z.odd_add_mul_2. Qed.
Lemma div_basic c k s : basic c k s / 4 = k + 16 * s.
Proof. unfold basic, bit. destruct c; Z.div_mod_to_equations; lia. Qed.
Lemma div_class c n : class c n / 4 = n.
Proof. unfold class, bit. destruct c; Z.div_mod_to_equations; lia. Qed.
Lemma equal_basic c d k s k' s' : 0 <= k < 16 -> 0 <= s < 1024 -> 0 <= k' < 16 -> 0 <= s' < 1024 ->
  (equal (basic c k s) (basic d k' s') = true <-> k = k' /\ s = s').
Proof. intros. rewrite equal_ok. unfold same_type. rewrite !odd_basic, !div_basic. split; [intros [_ E]; lia|intros [-> ->]; auto]. Qed.
Lemma equal_class c d k s n n' : 0 <= k -> 0 <= s ->
  equal (basic c k s) (class d n) = false /\ (equal (class c n) (class d n') = true <-> n = n').
Proof.
  intros. split.
  - destruct (equal _ _) eqn:E; [|reflexivity]. apply equal_ok in E as [E _]. rewrite odd_basic, odd_class in E. discriminate.
  - rewrite equal_ok. unfold same_type. rewrite !odd_class, !div_class. split; [intros [_ E]; exact E|intros ->; auto].
Qed.
Lemma from_name_ok n :
  (forall k s, In (n, (k, s)) names -> from_name (Some n) = basic false k s) /\
  ((forall p, ~ In (n, p) names) -> from_name (Some n) = no_type) /\ from_name None = no_type.
Proof.
  split; [|split; [|reflexivity]].
  - intros k s H. cbn [In names] in H. repeat (destruct H as [H|H]; [injection H as <- <- <-; reflexivity|]). destruct H.
  - intros H. unfold from_name, table. cbn [search_name].
    repeat match goal with |- context [String.eqb n ?s] => destruct (String.eqb_spec n s) as [->|]; [exfalso; eapply H; cbn [In names]; eauto 20|] end.
    reflexivity.
Qed.
Definition tbl : list (Z * string) := Eval vm_compute in table.
Lemma search_unfold w : to_name w = search_type tbl w.
Proof. reflexivity. Qed.
Lemma differ_tbl : forallb (fun p => differ (fst p) invalid_type) tbl = true.
Proof. vm_compute. reflexivity. Qed.
Lemma search_spec t w : forallb (fun p => differ (fst p) invalid_type) t = true ->
  match search_type t w with Some s => exists v, In (v, s) t /\ equal v w = true | None => forall v s, In (v, s) t -> equal v w = false end.
Proof.
  induction t as [|[v s] t IH]; intros H; cbn [search_type]; [intros v s []|].
  cbn [forallb fst] in H. apply andb_prop in H as [H1 H2]. rewrite H1. destruct (equal v w) eqn:E.
  - exists v. split; [now left|exact E].
  - specialize (IH H2). destruct (search_type t w) as [s'|].
    + destruct IH as (v' & I & Q). exists v'. split; [now right|exact Q].
    + intros v' s' [I|I]; [injection I as <- <-; exact E|eauto].
Qed.
Lemma names_tbl n k s : In (n, (k, s)) names <-> In (basic false k s, n) tbl /\ 0 <= k < 16 /\ 0 <= s < 1024.
Proof.
  split.
  - intros H. cbn [In names] in H. repeat (destruct H as [H|H]; [injection H as <- <- <-; split; [vm_compute; auto 20|lia]|]). destruct H.
  - intros (H & Hk & Hs). cbn [In tbl] in H.
    repeat (destruct H as [H|H];
      [injection H as H <-; unfold basic, bit in H;
       match type of H with ?v = _ =>
         let kk := eval vm_compute in ((v / 4) mod 16) in let ss := eval vm_compute in (v / 64) in
         assert (k = kk) by lia; assert (s = ss) by lia; subst k s; cbn [In names]; auto 20 end|]).
    destruct H.
Qed.
Lemma tbl_basic v n : In (v, n) tbl -> exists k s, v = basic false k s /\ In (n, (k, s)) names.
Proof.
  intros H. cbn [In tbl] in H.
  repeat (destruct H as [H|H];
    [injection H as <- <-;
     match goal with |- exists k s, ?v = _ /\ _ =>
       let kk := eval vm_compute in ((v / 4) mod 16) in let ss := eval vm_compute in (v / 64) in
       exists kk, ss; split; [reflexivity|cbn [In names]; auto 20] end|]).
  destruct H.
Qed.
Lemma names_inj n n' k s : In (n, (k, s)) names -> In (n', (k, s)) names -> n = n'.
Proof.
  intros H H'. cbn [In names] in H.
  repeat (destruct H as [H|H];
    [injection H as <- <- <-; cbn [In names] in H'; repeat (destruct H' as [H'|H']; [injection H'; intros; subst; try reflexivity; discriminate|]); destruct H'|]).
  destruct H.
Qed.
Lemma same_basic k s k' s' w : 0 <= k < 16 -> 0 <= k' < 16 -> same_type (basic false k s) w -> same_type (basic false k' s') w -> k = k' /\ s = s'.
Proof. unfold same_type. rewrite !div_basic. intros ? ? [_ A] [_ B]. lia. Qed.
Lemma to_name_ok w :
  (forall n k s, In (n, (k, s)) names -> same_type (basic false k s) w -> to_name w = Some n) /\
  ((forall n k s, In (n, (k, s)) names -> ~ same_type (basic false k s) w) -> to_name w = None).
Proof.
  rewrite search_unfold. pose proof (search_spec tbl w differ_tbl) as S. split.
  - intros n k s H Q. destruct (search_type tbl w) as [n'|].
    + destruct S as (v & I & E). apply tbl_basic in I as (k' & s' & -> & I). apply equal_ok in E.
      pose proof (proj1 (names_tbl _ _ _) H) as (_ & ? & _). pose proof (proj1 (names_tbl _ _ _) I) as (_ & ? & _).
      destruct (same_basic k s k' s' w ltac:(assumption) ltac:(assumption) Q E) as [<- <-]. f_equal. eapply names_inj; eassumption.
    + apply names_tbl in H as (H & _). apply equal_ok in Q. rewrite (S _ _ H) in Q. discriminate.
  - intros H. destruct (search_type tbl w) as [n'|]; [|reflexivity].
    destruct S as (v & I & E). apply tbl_basic in I as (k' & s' & -> & I). apply equal_ok in E. destruct (H _ _ _ I E).
Qed.
Lemma round_trip n w :
  (In n (map fst names) -> to_name (from_name (Some n)) = Some n) /\
  (to_name w = Some n -> equal (from_name (Some n)) w = true).
Proof.
  split.
  - intros H. cbn [map fst names In] in H. repeat (destruct H as [<-|H]; [vm_compute; reflexivity|]). destruct H.
  - rewrite search_unfold. intros H. pose proof (search_spec tbl w differ_tbl) as S. rewrite H in S. destruct S as (v & I & E).
    apply tbl_basic in I as (k & s & -> & I). rewrite (proj1 (from_name_ok n) _ _ I). exact E.
Qed.
Lemma numeric_ok c k s n : 0 <= k < 16 -> 0 <= s < 1024 -> 0 <= n < 16384 ->
  (is_numeric (basic c k s) = true <-> k <= 2 /\ 0 < s) /\ is_numeric (class c n) = false.
Proof.
  intros Hk Hs Hn. unfold is_numeric. destruct (read_basic c k s Hk Hs) as (-> & _ & -> & ->).
  destruct (read_class c n Hn) as (-> & _). split; [|reflexivity].
  unfold Float, SignedInteger, UnsignedInteger, BT_Boolean. lia.
Qed.
