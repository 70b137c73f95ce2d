(** C55: TypeConvert. *)
From Verif Require Import Base BitsBase Bsb_Model Bsb_Spec Bsb_Proofs Tcv_Model Tcv_Spec Tcv_Proofs Tcv_Proofs2 Tcv_Proofs3.
From Verif Require IntText_Spec IntText_Proofs.
Local Open Scope nat_scope.

(** Every element of the destination becomes the conversion of the element of the source in the same place, the
    result tells whether all the conversions succeed, and no other byte of memory changes. Not proved: arrays of
    more than two dimensions and matrices of strings from the heap to static memory (the code is wrong there, see
    below), texts that exceed the room of their destination (likewise); the conversions of floating point numbers
    are parameters. *)
Theorem C55_elements_partial : forall number text m d s,
  fair number text -> bytes m -> laid_out m d -> laid_out m s -> separate m d s -> readable m d s ->
  a_const d = false -> same_shape d s ->
  ~ (order d = 2 /\ a_ty d = TChar /\ a_static d = true /\ a_static s = false) ->
  exists ok m', type_convert number text m d s = Some (ok, m') /\ kept_but m d m' /\
    exists oks : nat -> nat -> bool,
      (ok = true <-> forall r c, r < rows d -> c < cols d -> oks r c = true) /\
      forall r c, r < rows d -> c < cols d ->
        good_element number text (a_ty d) (a_ty s) (element_of m m s r c) (element_of m m d r c) (oks r c)
          (element_of m m' d r c).
Proof.
  intros number text m d s F B Ld Ls Sep Rd Cd (Eo & Er & Ec) Nb.
  destruct (convert_ok number text F m d s B Ld Ls Sep Rd Cd Eo Er Ec Nb) as (okf & m' & E & A & G).
  exists (forallb okf (cells d)), m'. split; [exact E|]. split; [exact A|].
  exists (fun r c => okf (r, c)). split; [|exact G].
  rewrite forallb_forall. split.
  - intros H r c Hr Hc. apply H. unfold cells. apply in_prod; apply in_seq; lia.
  - intros H [r c] Hx. unfold cells in Hx. apply in_prod_iff in Hx. rewrite !in_seq in Hx. apply H; lia.
Qed.
Print Assumptions C55_elements_partial.

(** A constant destination, or one of another shape, is left alone. *)
Theorem C55_refused : forall number text m d s,
  order d <= 2 -> a_const d = true \/ ~ same_shape d s ->
  type_convert number text m d s = Some (false, m).
Proof.
  intros number text m d s Od H. apply convert_refused; [exact Od|]. unfold same_shape in H.
  destruct (Nat.eq_dec (order d) (order s)), (Nat.eq_dec (rows d) (rows s)), (Nat.eq_dec (cols d) (cols s)); tauto.
Qed.
Print Assumptions C55_refused.

(** Integers: the conversion succeeds and every number becomes the nearest number of the other type. *)
Theorem C55_integers_partial : forall number text m d s db dg sb sg,
  fair number text -> bytes m -> laid_out m d -> laid_out m s -> separate m d s ->
  a_const d = false -> same_shape d s -> a_ty d = TInt db dg -> a_ty s = TInt sb sg ->
  exists m', type_convert number text m d s = Some (true, m') /\ kept_but m d m' /\
    forall r c, r < rows d -> c < cols d ->
      field (element_of m m' d r c) 0 db dg = nearest db dg (field (element_of m m s r c) 0 sb sg).
Proof.
  intros number text m d s db dg sb sg F B Ld Ls Sep Cd Sh Td Ts.
  destruct (C55_elements_partial number text m d s F B Ld Ls Sep) as (ok & m' & E & A & oks & Eok & G); auto.
  { unfold readable. rewrite Ts. exact I. }
  { intros (_ & Q & _). congruence. }
  assert (ok = true) as ->.
  { apply Eok. intros r c Hr Hc. specialize (G r c Hr Hc). rewrite Td, Ts in G. apply G. }
  exists m'. split; [exact E|]. split; [exact A|]. intros r c Hr Hc. specialize (G r c Hr Hc).
  rewrite Td, Ts in G. apply G.
Qed.
Print Assumptions C55_integers_partial.

(** Strings with a terminator: the texts are copied. *)
Theorem C55_strings_partial : forall number text m d s,
  fair number text -> bytes m -> laid_out m d -> laid_out m s -> separate m d s ->
  a_const d = false -> same_shape d s -> a_ty d = TChar -> a_ty s = TChar -> width s <= width d ->
  ~ (order d = 2 /\ a_static d = true /\ a_static s = false) ->
  (forall r c, r < rows s -> c < cols s -> In 0%Z (element_of m m s r c)) ->
  exists m', type_convert number text m d s = Some (true, m') /\ kept_but m d m' /\
    forall r c, r < rows d -> c < cols d -> text_in (element_of m m' d r c) = text_in (element_of m m s r c).
Proof.
  intros number text m d s F B Ld Ls Sep Cd Sh Td Ts W Nb T.
  destruct (C55_elements_partial number text m d s F B Ld Ls Sep) as (ok & m' & E & A & oks & Eok & G); auto.
  { unfold readable. rewrite Ts, Td. exact W. }
  { intros (Q1 & _ & Q2). apply Nb. tauto. }
  assert (ok = true) as ->.
  { apply Eok. intros r c Hr Hc. specialize (G r c Hr Hc). rewrite Td, Ts in G. apply G. }
  exists m'. split; [exact E|]. split; [exact A|]. intros r c Hr Hc. specialize (G r c Hr Hc).
  rewrite Td, Ts in G. destruct G as [_ ->].
  assert (H : In 0%Z (element_of m m s r c)) by (destruct Sh as (_ & Er & Ec); apply T; lia).
  revert H. generalize (element_of m m s r c) as l. clear. intros l. generalize (skipn (length l) (element_of m m d r c)).
  induction l as [|x l IH]; intros k H; [destruct H|]. cbn.
  destruct (x =? 0)%Z eqn:E; [reflexivity|]. destruct H as [->|H]; [discriminate E|]. rewrite IH; auto.
Qed.
Print Assumptions C55_strings_partial.

Lemma decimal_literal t x v : std_ty t -> in_ty t v -> IntText_Spec.decimal_text x v ->
  length x <= 20 /\ ~ In 0%Z x /\ IntText_Spec.int_literal t x v.
Proof.
  intros St R D.
  assert (Bv : (- 9223372036854775808 <= v < 18446744073709551616)%Z).
  { unfold std_ty in St. unfold in_ty, imin, imax in R. destruct t as [b g]. cbn [ibits isgn] in *.
    destruct St as [->|[->|[->| ->]]]; destruct g; cbn in R; lia. }
  assert (Nz : forall ds n, IntText_Spec.numeral 10 ds n -> ~ In 0%Z ds).
  { intros ds n [Fd _] H. rewrite Forall_forall in Fd. specialize (Fd _ H).
    unfold IntText_Spec.is_digit, IntText_Spec.digit_val in Fd. cbn in Fd. lia. }
  unfold IntText_Spec.decimal_text in D. destruct (v <? 0)%Z eqn:Ev.
  - destruct D as (ds & -> & C).
    pose proof (IntText_Proofs.canonical_length_le 10 ds (- v) 19 ltac:(lia) C
      ltac:(change (10 ^ Z.of_nat 19)%Z with 10000000000000000000%Z; lia) ltac:(lia)) as L.
    split; [cbn; lia|]. destruct C as (Nu & _). split.
    + intros [Q|Q]; [discriminate|]. apply (Nz _ _ Nu Q).
    + right. right. right. left. exists ds, (- v)%Z. split; [reflexivity|]. split.
      * destruct (isgn t) eqn:Eg; [reflexivity|]. unfold in_ty, imin in R. rewrite Eg in R. lia.
      * split; [exact Nu|]. rewrite Z.opp_involutive. auto.
  - pose proof (IntText_Proofs.canonical_length_le 10 x v 20 ltac:(lia) D
      ltac:(change (10 ^ Z.of_nat 20)%Z with 100000000000000000000%Z; lia) ltac:(lia)) as L.
    split; [lia|]. destruct D as (Nu & Ne & Hd). split; [apply (Nz _ _ Nu)|].
    destruct (Z.eq_dec (hd 0%Z x) 48) as [E|N].
    + left. rewrite (Hd E) in Nu |- *. split; [reflexivity|]. destruct Nu as [_ <-]. reflexivity.
    + right. left. exists v. auto.
Qed.

(** Integers written as texts and read back are the same integers. *)
Theorem C55_text_back_partial : forall number text m s t u b g,
  fair number text -> bytes m ->
  laid_out m t -> laid_out m s -> separate m t s -> a_const t = false -> same_shape t s ->
  ~ (order t = 2 /\ a_static t = true /\ a_static s = false) ->
  a_ty s = TInt b g -> a_ty u = TInt b g -> a_ty t = TChar -> 20 < width t ->
  exists m1, type_convert number text m t s = Some (true, m1) /\
    ((forall r c, place m1 t r c = place m t r c) ->
     laid_out m1 t -> laid_out m1 u -> separate m1 u t -> a_const u = false -> same_shape u t ->
     exists m2, type_convert number text m1 u t = Some (true, m2) /\
       forall r c, r < rows s -> c < cols s ->
         field (element_of m1 m2 u r c) 0 b g = field (element_of m m s r c) 0 b g).
Proof.
  intros number text m s t u b g F B Lt Ls Sep Ct Sh Nb Ts Tu Tt W.
  assert (Ss : standard (TInt b g)) by (rewrite <- Ts; apply (lo_type _ _ Ls)).
  destruct (std_bits b g Ss) as (H0 & H8 & HE & Hb & HS).
  destruct (C55_elements_partial number text m t s F B Lt Ls Sep) as (ok & m1 & E & A & oks & Eok & G); auto.
  { unfold readable. rewrite Ts. exact I. }
  { intros (Q1 & _ & Q2). apply Nb. tauto. }
  assert (ok = true) as ->.
  { apply Eok. intros r c Hr Hc. specialize (G r c Hr Hc). rewrite Tt, Ts in G. apply G. }
  exists m1. split; [exact E|]. intros Pl Lt1 Lu Sep1 Cu Sh1.
  destruct A as (Lm & Bm & _).
  assert (Txt : forall r c, r < rows t -> c < cols t -> exists x,
    element_of m1 m1 t r c = x ++ 0%Z :: skipn (S (length x)) (element_of m m t r c) /\
    length x <= 20 /\ ~ In 0%Z x /\ IntText_Spec.int_literal (ITy b g) x (field (element_of m m s r c) 0 b g)).
  { intros r c Hr Hc. specialize (G r c Hr Hc). rewrite Tt, Ts in G. destruct G as (_ & x & Dx & Hx).
    assert (Rg : in_ty (ITy b g) (field (element_of m m s r c) 0 b g)).
    { apply range_in_ty, field_range; auto; [apply slice_bytes, B|].
      unfold element_of. rewrite slice_length by (destruct Sh as (_ & Er & Ec); apply (lo_places _ _ Ls); lia).
      unfold width. rewrite Ts. reflexivity. }
    destruct (decimal_literal (ITy b g) x _ HS Rg Dx) as (L1 & L2 & L3).
    exists x. split; [|auto].
    unfold element_of at 1. rewrite Pl. fold (element_of m m1 t r c).
    assert (Lw : length (element_of m m t r c) = width t) by (apply slice_length, (lo_places _ _ Lt); auto).
    unfold holds_text in Hx. rewrite Lw in Hx.
    replace (length x <? width t) with true in Hx by (symmetry; apply Nat.ltb_lt; lia). exact Hx. }
  assert (Tin : forall x l, ~ In 0%Z x -> text_in (x ++ 0%Z :: l) = x).
  { clear. induction x as [|a x IH]; intros l H; [reflexivity|]. cbn.
    destruct (a =? 0)%Z eqn:E; [exfalso; apply H; left; lia|]. f_equal. apply IH. intros Q. apply H. right. exact Q. }
  destruct (C55_elements_partial number text m1 u t F Bm Lu Lt1 Sep1) as (ok & m2 & E2 & A2 & oks2 & Eok2 & G2); auto.
  { unfold readable. rewrite Tt, Tu. intros r c Hr Hc. fold (element_of m1 m1 t r c).
    destruct (Txt r c Hr Hc) as (x & -> & _). apply in_or_app. right. left. reflexivity. }
  { intros (_ & Q & _). congruence. }
  destruct Sh1 as (_ & Er1 & Ec1). destruct Sh as (_ & Er & Ec).
  assert (V : forall r c, r < rows u -> c < cols u -> oks2 r c = true /\
    field (element_of m1 m2 u r c) 0 b g = field (element_of m m s r c) 0 b g).
  { intros r c Hr Hc. specialize (G2 r c Hr Hc). rewrite Tt, Tu in G2.
    destruct (Txt r c ltac:(lia) ltac:(lia)) as (x & Ex & L1 & L2 & L3).
    unfold good_element in G2. rewrite Ex, (Tin x _ L2) in G2.
    apply (G2 ltac:(lia)). exact L3. }
  exists m2. split.
  - rewrite E2. do 2 f_equal. apply Eok2. intros r c Hr Hc. apply V; auto.
  - intros r c Hr Hc. apply V; lia.
Qed.
Print Assumptions C55_text_back_partial.

(** ** Cases *)

Definition no_number (_ _ : ty) (_ : list Z) : bool * list Z := (false, []).
Definition no_text (_ : ty) (_ : list Z) : option (list Z) := None.

Lemma none_fair : fair no_number no_text.
Proof. split; [intros; split; [constructor|cbn; lia]|discriminate]. Qed.

Lemma laid m a : standard (a_ty a) -> order a <= 2 -> (Z.of_nat (rows a * cols a * width a) < 2 ^ 32)%Z ->
  (Z.of_nat (rows a * cols a) < 2 ^ 32)%Z -> (Z.of_nat (width a) < 2 ^ 32)%Z -> (a_dims a = 0 -> a_n0 a = 1) ->
  (forall p, In p (tables m a) -> p + 8 <= length m) ->
  (forall r c, r < rows a -> c < cols a -> place m a r c + width a <= length m) -> laid_out m a.
Proof. intros. constructor; auto. Qed.

(** int16 [300, -5] to uint8. *)
Definition case_m : list Z := [44; 1; 251; 255; 9; 9; 9]%Z.
Definition case_d : any := Any (TInt 8 false) false 1 2 1 1 true 4.
Definition case_s : any := Any (TInt 16 true) false 1 2 1 1 true 0.

Example C55_case :
  fair no_number no_text /\ bytes case_m /\ laid_out case_m case_d /\ laid_out case_m case_s /\
  separate case_m case_d case_s /\ readable case_m case_d case_s /\ same_shape case_d case_s /\
  type_convert no_number no_text case_m case_d case_s = Some (true, [44; 1; 251; 255; 255; 0; 9]%Z).
Proof.
  split; [exact none_fair|]. split; [repeat constructor; lia|].
  assert (Dw : width case_d = 1) by reflexivity. assert (Sw : width case_s = 2) by reflexivity.
  assert (Dp : forall r c, place case_m case_d r c = 4 + c) by (intros; unfold place; cbn [case_d order a_ty a_dims is_char a_static a_ptr andb]; rewrite Dw; lia).
  assert (Sp : forall r c, place case_m case_s r c = 2 * c) by (intros; unfold place; cbn [case_s order a_ty a_dims is_char a_static a_ptr andb]; rewrite Sw; lia).
  assert (Dn : rows case_d = 1 /\ cols case_d = 2) by (split; reflexivity).
  assert (Sn : rows case_s = 1 /\ cols case_s = 2) by (split; reflexivity).
  split; [|split; [|split; [|split; [exact I|split; [repeat split|vm_compute; reflexivity]]]]].
  - apply laid; [cbn; tauto|cbn; lia|vm_compute; reflexivity|vm_compute; reflexivity|vm_compute; reflexivity|intros; reflexivity + discriminate|intros p []|].
    all: (intros r c Hr Hc; rewrite Dp, Dw; cbn in *; lia).
  - apply laid; [cbn; tauto|cbn; lia|vm_compute; reflexivity|vm_compute; reflexivity|vm_compute; reflexivity|intros; reflexivity + discriminate|intros p []|].
    all: (intros r c Hr Hc; rewrite Sp, Sw; cbn in *; lia).
  - constructor.
    + intros r c r' c' Hr Hc Hr' Hc' N. rewrite !Dp, Dw. unfold apart.
      assert (c <> c') by (intros ->; apply N; f_equal; lia). lia.
    + intros r c r' c' Hr Hc Hr' Hc'. rewrite Dp, Sp, Dw, Sw. unfold apart. lia.
    + intros r c p _ _ [[]|[]].
Qed.

(** A 2 x 1 matrix of booleans on the heap to static int8. *)
Definition heap_m : list Z := [16; 0; 0; 0; 0; 0; 0; 0; 17; 0; 0; 0; 0; 0; 0; 0; 1; 0; 9; 9]%Z.
Definition heap_d : any := Any (TInt 8 true) false 2 1 2 1 true 18.
Definition heap_s : any := Any TBool false 2 1 2 1 false 0.

Example C55_heap_case :
  bytes heap_m /\ laid_out heap_m heap_d /\ laid_out heap_m heap_s /\
  separate heap_m heap_d heap_s /\ readable heap_m heap_d heap_s /\ same_shape heap_d heap_s /\
  type_convert no_number no_text heap_m heap_d heap_s =
    Some (true, [16; 0; 0; 0; 0; 0; 0; 0; 17; 0; 0; 0; 0; 0; 0; 0; 1; 0; 1; 0]%Z).
Proof.
  split; [repeat constructor; lia|].
  assert (Dw : width heap_d = 1) by reflexivity. assert (Sw : width heap_s = 1) by reflexivity.
  assert (Dn : rows heap_d = 2 /\ cols heap_d = 1) by (split; reflexivity).
  assert (Sn : rows heap_s = 2 /\ cols heap_s = 1) by (split; reflexivity).
  assert (Dp : forall r c, c < 1 -> place heap_m heap_d r c = 18 + r).
  { intros r c Hc. unfold place. cbn [heap_d order a_ty a_dims is_char a_static a_ptr andb]. fold heap_d.
    rewrite Dw. change (cols heap_d) with 1. lia. }
  assert (P0 : pointer heap_m 0 = 16) by (vm_compute; reflexivity).
  assert (P8 : pointer heap_m 8 = 17) by (vm_compute; reflexivity).
  assert (Sp : forall r c, r < 2 -> c < 1 -> place heap_m heap_s r c = 16 + r).
  { intros r c Hr Hc. unfold place. cbn [heap_s order a_ty a_dims is_char a_static a_ptr andb]. fold heap_s.
    rewrite Sw. assert (r = 0 \/ r = 1) as [->| ->] by lia; cbn [Nat.mul Nat.add]; rewrite ?P0, ?P8; lia. }
  split; [|split; [|split; [|split; [exact I|split; [repeat split|vm_compute; reflexivity]]]]].
  - apply laid; [cbn; tauto|cbn; lia|vm_compute; reflexivity|vm_compute; reflexivity|vm_compute; reflexivity|intros; reflexivity + discriminate|intros p []|].
    all: (intros r c Hr Hc; rewrite Dp, Dw by lia; cbn in *; lia).
  - apply laid; [cbn; tauto|cbn; lia|vm_compute; reflexivity|vm_compute; reflexivity|vm_compute; reflexivity|intros; reflexivity + discriminate| |].
    + intros p [<-|[<-|[]]]; cbn; lia.
    + intros r c Hr Hc. rewrite Sp, Sw by lia. cbn. lia.
  - constructor.
    + intros r c r' c' Hr Hc Hr' Hc' N. rewrite !Dp, Dw by lia. unfold apart.
      assert (r <> r') by (intros ->; apply N; f_equal; lia). lia.
    + intros r c r' c' Hr Hc Hr' Hc'. rewrite Dp, Sp, Dw, Sw by lia. unfold apart. lia.
    + intros r c p Hr Hc [[]|[<-|[<-|[]]]]; rewrite Dp, Dw by lia; unfold apart; cbn; lia.
Qed.

(** ** What does not hold *)

(** A string that is longer than its destination is written over the memory that follows. *)
Theorem C55_overflow_refuted : ~ (forall number text m d s,
  fair number text -> bytes m -> laid_out m d -> laid_out m s -> separate m d s ->
  a_const d = false -> same_shape d s -> a_ty d = TChar -> a_ty s = TChar ->
  exists ok m', type_convert number text m d s = Some (ok, m') /\ kept_but m d m').
Proof.
  intros H.
  set (m := [97; 98; 99; 0; 5; 5; 7; 7]%Z).
  set (d := Any TChar false 1 2 1 1 true 4). set (s := Any TChar false 1 4 1 1 true 0).
  assert (Dp : forall r c, place m d r c = 4) by reflexivity.
  assert (Sp : forall r c, place m s r c = 0) by reflexivity.
  destruct (H no_number no_text m d s) as (ok & m' & E & _ & _ & K); try reflexivity.
  - exact none_fair.
  - repeat constructor; lia.
  - apply laid; [cbn; tauto|cbn; lia|vm_compute; reflexivity|vm_compute; reflexivity|vm_compute; reflexivity|intros; reflexivity + discriminate|intros p []|]; intros; cbn; lia.
  - apply laid; [cbn; tauto|cbn; lia|vm_compute; reflexivity|vm_compute; reflexivity|vm_compute; reflexivity|intros; reflexivity + discriminate|intros p []|]; intros; cbn; lia.
  - constructor.
    + intros r c r' c' Hr Hc Hr' Hc' N. exfalso. apply N. cbn in *. f_equal; lia.
    + intros r c r' c' _ _ _ _. right. cbn. lia.
    + intros r c p _ _ [[]|[]].
  - repeat split.
  - assert (E2 : type_convert no_number no_text m d s = Some (true, [97; 98; 99; 0; 97; 98; 99; 0]%Z)) by (vm_compute; reflexivity).
    rewrite E2 in E. injection E as _ <-. specialize (K 6). cbn in K.
    assert (99 = 7)%Z; [|lia]. apply K. intros. right. cbn. lia.
Qed.
Print Assumptions C55_overflow_refuted.

(** A matrix of strings in static memory is not filled correctly from a matrix on the heap. *)
Theorem C55_matrix_refuted : ~ (forall number text m d s,
  fair number text -> bytes m -> laid_out m d -> laid_out m s -> separate m d s -> readable m d s ->
  a_const d = false -> same_shape d s ->
  exists ok m', type_convert number text m d s = Some (ok, m') /\
    forall r c, r < rows d -> c < cols d -> exists okrc,
      good_element number text (a_ty d) (a_ty s) (element_of m m s r c) (element_of m m d r c) okrc
        (element_of m m' d r c)).
Proof.
  intros H.
  set (m := [16; 0; 0; 0; 0; 0; 0; 0; 17; 0; 0; 0; 0; 0; 0; 0; 1; 0; 9; 9; 9; 9; 9; 9; 9; 9; 9; 9; 9; 9]%Z).
  set (d := Any TChar false 3 1 2 6 true 18). set (s := Any TBool false 2 1 2 1 false 0).
  assert (P0 : pointer m 0 = 16) by (vm_compute; reflexivity).
  assert (P8 : pointer m 8 = 17) by (vm_compute; reflexivity).
  assert (Dp : forall r c, c < 1 -> place m d r c = 18 + r * 6).
  { intros r c Hc. unfold place. cbn [d order a_ty a_dims is_char a_static a_ptr andb]. change (cols d) with 1.
    change (width d) with 6. lia. }
  assert (Sp : forall r c, r < 2 -> c < 1 -> place m s r c = 16 + r).
  { intros r c Hr Hc. unfold place. cbn [s order a_ty a_dims is_char a_static a_ptr andb].
    change (width s) with 1. assert (r = 0 \/ r = 1) as [->| ->] by lia; cbn [Nat.mul Nat.add]; rewrite ?P0, ?P8; lia. }
  assert (Dn : rows d = 2 /\ cols d = 1 /\ width d = 6) by (repeat split).
  assert (Sn : rows s = 2 /\ cols s = 1 /\ width s = 1) by (repeat split).
  destruct (H no_number no_text m d s) as (ok & m' & E & K); try reflexivity.
  - exact none_fair.
  - repeat constructor; lia.
  - apply laid; [cbn; tauto|cbn; lia|vm_compute; reflexivity|vm_compute; reflexivity|vm_compute; reflexivity|intros; reflexivity + discriminate|intros p []|].
    all: (intros r c Hr Hc; rewrite Dp by lia; cbn in *; lia).
  - apply laid; [cbn; tauto|cbn; lia|vm_compute; reflexivity|vm_compute; reflexivity|vm_compute; reflexivity|intros; reflexivity + discriminate| |].
    + intros p [<-|[<-|[]]]; cbn; lia.
    + intros r c Hr Hc. rewrite Sp by lia. cbn in *. lia.
  - constructor.
    + intros r c r' c' Hr Hc Hr' Hc' N. rewrite !Dp by lia. unfold apart.
      assert (r <> r') by (intros ->; apply N; f_equal; lia). lia.
    + intros r c r' c' Hr Hc Hr' Hc'. rewrite Dp, Sp by lia. unfold apart. lia.
    + intros r c p Hr Hc [[]|[<-|[<-|[]]]]; rewrite Dp by lia; unfold apart; cbn; lia.
  - repeat split.
  - assert (E2 : type_convert no_number no_text m d s =
      Some (true, [16; 0; 0; 0; 0; 0; 0; 0; 17; 0; 0; 0; 0; 0; 0; 0; 1; 0; 116; 102; 9; 9; 9; 9; 9; 9; 9; 9; 9; 9]%Z))
      by (vm_compute; reflexivity).
    rewrite E2 in E. injection E as _ <-. destruct (K 1 0) as (ok2 & G); [lia|lia|].
    unfold element_of in G. rewrite Dp, Sp in G by lia. vm_compute in G. destruct G as [_ G]. discriminate G.
Qed.
Print Assumptions C55_matrix_refuted.

(** Arrays of three dimensions are not converted, but the result is success. *)
Theorem C55_three_dimensions_refuted : ~ (forall number text m d s m',
  fair number text -> bytes m -> a_const d = false -> a_ty d = TInt 8 false -> a_ty s = TInt 8 false ->
  a_dims d = 3 -> a_dims s = 3 -> a_static d = true -> a_static s = true ->
  a_n0 d = a_n0 s -> a_n1 d = a_n1 s -> a_n2 d = a_n2 s -> 0 < a_n0 s * a_n1 s * a_n2 s ->
  a_ptr s + a_n0 s * a_n1 s * a_n2 s <= length m -> a_ptr d + a_n0 s * a_n1 s * a_n2 s <= length m ->
  type_convert number text m d s = Some (true, m') ->
  slice m' (a_ptr d) 1 = slice m (a_ptr s) 1).
Proof.
  intros H.
  specialize (H no_number no_text [1; 2]%Z (Any (TInt 8 false) false 3 1 1 1 true 1) (Any (TInt 8 false) false 3 1 1 1 true 0)
    [1; 2]%Z none_fair).
  assert (slice [1; 2]%Z 1 1 = slice [1; 2]%Z 0 1); [|discriminate].
  apply H; try reflexivity; try (cbn; lia). repeat constructor; lia.
Qed.
Print Assumptions C55_three_dimensions_refuted.

(** An integer other than zero may become false. *)
Theorem C55_boolean_refuted : ~ (forall number text m d s,
  fair number text -> bytes m -> laid_out m d -> laid_out m s -> separate m d s ->
  a_const d = false -> same_shape d s -> a_ty d = TBool -> a_ty s = TInt 8 false ->
  exists m', type_convert number text m d s = Some (true, m') /\
    (field (element_of m m s 0 0) 0 8 false <> 0 -> field (element_of m m' d 0 0) 0 8 false <> 0)%Z).
Proof.
  intros H.
  set (m := [2; 1]%Z). set (d := Any TBool false 0 1 1 1 true 1). set (s := Any (TInt 8 false) false 0 1 1 1 true 0).
  destruct (H no_number no_text m d s) as (m' & E & K); try reflexivity.
  - exact none_fair.
  - repeat constructor; lia.
  - apply laid; [cbn; tauto|cbn; lia|vm_compute; reflexivity|vm_compute; reflexivity|vm_compute; reflexivity|intros; reflexivity + discriminate|intros p []|]; intros; cbn; lia.
  - apply laid; [cbn; tauto|cbn; lia|vm_compute; reflexivity|vm_compute; reflexivity|vm_compute; reflexivity|intros; reflexivity + discriminate|intros p []|]; intros; cbn; lia.
  - constructor.
    + intros r c r' c' Hr Hc Hr' Hc' N. exfalso. apply N. cbn in *. f_equal; lia.
    + intros r c r' c' _ _ _ _. right. cbn. lia.
    + intros r c p _ _ [[]|[]].
  - repeat split.
  - assert (E2 : type_convert no_number no_text m d s = Some (true, [2; 0]%Z)) by (vm_compute; reflexivity).
    rewrite E2 in E. injection E as <-. apply K; vm_compute; [discriminate|reflexivity].
Qed.
Print Assumptions C55_boolean_refuted.

(** A string without a terminator keeps the end of what the destination held. *)
Theorem C55_terminator_refuted : ~ (forall number text m d s,
  fair number text -> bytes m -> laid_out m d -> laid_out m s -> separate m d s ->
  a_const d = false -> same_shape d s -> a_ty d = TChar -> a_ty s = TChar -> width s <= width d -> order d = 0 ->
  exists m', type_convert number text m d s = Some (true, m') /\
    text_in (element_of m m' d 0 0) = text_in (element_of m m s 0 0)).
Proof.
  intros H.
  set (m := [97; 120; 121; 0]%Z). set (d := Any TChar false 1 3 1 1 true 1). set (s := Any TChar false 1 1 1 1 true 0).
  destruct (H no_number no_text m d s) as (m' & E & K); try reflexivity.
  - exact none_fair.
  - repeat constructor; lia.
  - apply laid; [cbn; tauto|cbn; lia|vm_compute; reflexivity|vm_compute; reflexivity|vm_compute; reflexivity|intros; reflexivity + discriminate|intros p []|]; intros; cbn; lia.
  - apply laid; [cbn; tauto|cbn; lia|vm_compute; reflexivity|vm_compute; reflexivity|vm_compute; reflexivity|intros; reflexivity + discriminate|intros p []|]; intros; cbn; lia.
  - constructor.
    + intros r c r' c' Hr Hc Hr' Hc' N. exfalso. apply N. cbn in *. f_equal; lia.
    + intros r c r' c' _ _ _ _. right. cbn. lia.
    + intros r c p _ _ [[]|[]].
  - repeat split.
  - cbn. lia.
  - assert (E2 : type_convert no_number no_text m d s = Some (true, [97; 97; 121; 0]%Z)) by (vm_compute; reflexivity).
    rewrite E2 in E. injection E as <-. vm_compute in K. discriminate K.
Qed.
Print Assumptions C55_terminator_refuted.

(** int16 -123 to a text of at most 20 characters and back. *)
Definition back_m : list Z := ([133; 255] ++ repeat 9 21 ++ [5; 5])%Z.
Definition back_s : any := Any (TInt 16 true) false 0 1 1 1 true 0.
Definition back_t : any := Any TChar false 1 21 1 1 true 2.
Definition back_u : any := Any (TInt 16 true) false 0 1 1 1 true 23.
Definition back_m1 : list Z := ([133; 255; 45; 49; 50; 51; 0] ++ repeat 9 16 ++ [5; 5])%Z.
Definition back_m2 : list Z := ([133; 255; 45; 49; 50; 51; 0] ++ repeat 9 16 ++ [133; 255])%Z.

Example C55_text_back_case :
  laid_out back_m back_t /\ laid_out back_m back_s /\ separate back_m back_t back_s /\ same_shape back_t back_s /\
  type_convert no_number no_text back_m back_t back_s = Some (true, back_m1) /\
  laid_out back_m1 back_t /\ laid_out back_m1 back_u /\ separate back_m1 back_u back_t /\ same_shape back_u back_t /\
  type_convert no_number no_text back_m1 back_u back_t = Some (true, back_m2).
Proof.
  assert (L : forall m, length m = 25 -> laid_out m back_s /\ laid_out m back_t /\ laid_out m back_u).
  { intros m L. split; [|split]; (apply laid; [cbn; tauto|cbn; lia|vm_compute; reflexivity|vm_compute; reflexivity|
      vm_compute; reflexivity|intros; reflexivity + discriminate|intros p []|intros; rewrite L; cbn; lia]). }
  destruct (L back_m eq_refl) as (L1 & L2 & L3). destruct (L back_m1 eq_refl) as (L4 & L5 & L6).
  assert (Se : forall m d s, order d = 0 -> order s = 0 -> apart (a_ptr d) (width d) (a_ptr s) (width s) -> separate m d s).
  { intros m d s Od Os A. constructor.
    - intros r c r' c' Hr Hc Hr' Hc' N. exfalso. apply N. unfold rows, cols in *. rewrite Od in *. f_equal; lia.
    - intros r c r' c' _ _ _ _. unfold place. rewrite Od, Os. exact A.
    - intros r c p _ _. unfold tables. rewrite Od, Os. intros [[]|[]]. }
  split; [exact L2|]. split; [exact L1|]. split; [apply Se; try reflexivity; right; cbn; lia|].
  split; [repeat split|]. split; [vm_compute; reflexivity|]. split; [exact L5|]. split; [exact L6|].
  split; [apply Se; try reflexivity; right; cbn; lia|]. split; [repeat split|vm_compute; reflexivity].
Qed.
