(** Round trip: what the integer printer writes, the parser reads back. *)
From Verif Require Import Base IntText_Model IntText_Spec IntText_Proofs IntText_Proofs2.

Lemma cast_uwrap t z : std_ty t -> in_ty t z -> cast t (uwrap (ibits t) z) = z.
Proof.
  intros Ht Hz. pose proof (std_pos t Ht).
  rewrite <- (cast_id t z) at 2 by (auto; lia). apply cast_eq_mod; [lia|].
  unfold uwrap. apply Z.mod_mod. apply Z.pow_nonzero; lia.
Qed.

Lemma digit_c_string b s : 0 <= b -> Forall (is_digit b) s -> c_string s.
Proof.
  intros Hb H. eapply Forall_impl; [|exact H]. intros c. unfold is_digit, digit_val.
  destruct ((48 <=? c) && (c <=? 57)) eqn:E1; [lia|].
  destruct ((65 <=? c) && (c <=? 90)) eqn:E2; [lia|].
  destruct ((97 <=? c) && (c <=? 122)) eqn:E3; lia.
Qed.

Lemma dec_text_len t ds n : std_ty t -> canonical 10 ds n -> - imax t - 1 <= n <= imax t + 1 -> (length ds <= 998)%nat.
Proof.
  intros Ht ([F V] & NE & H0) Hn.
  destruct (Z.eq_dec n 0) as [->|Hnz].
  - destruct ds as [|c r]; [congruence|]. destruct (Z.eq_dec c 48) as [->|Hc].
    + cbn in H0. rewrite H0 by reflexivity. cbn. lia.
    + exfalso. 
      assert (N : numeral 10 (c :: r) 0) by (split; auto).
      apply numeral_cons in N. destruct N as (D & m & N & E).
      apply numeral_nonneg in N; [|lia].
      assert (digit_val c <> 0).
      { intros X. unfold is_digit, digit_val in *. destruct ((48 <=? c) && (c <=? 57)) eqn:E1; [lia|].
        destruct ((65 <=? c) && (c <=? 90)) eqn:E2; [lia|]. destruct ((97 <=? c) && (c <=? 122)) eqn:E3; lia. }
      unfold is_digit in D. pose proof (Z.pow_pos_nonneg 10 (Z.of_nat (length r))). nia.
  - destruct ds as [|c r]; [congruence|].
    assert (N : numeral 10 (c :: r) n) by (split; auto).
    apply numeral_cons in N. destruct N as (D & m & N & E).
    apply numeral_nonneg in N; [|lia].
    assert (digit_val c <> 0).
    { intros X. cbn in H0. unfold is_digit, digit_val in *. destruct ((48 <=? c) && (c <=? 57)) eqn:E1.
      - assert (c = 48) by lia. subst c. specialize (H0 eq_refl). injection H0 as ->. cbn in *. lia.
      - destruct ((65 <=? c) && (c <=? 90)) eqn:E2; [lia|]. destruct ((97 <=? c) && (c <=? 122)) eqn:E3; lia. }
    unfold is_digit in D. pose proof (Z.pow_pos_nonneg 10 (Z.of_nat (length r)) ltac:(lia) ltac:(lia)).
    assert (10 ^ Z.of_nat (length r) <= n) by nia.
    assert (B : n < 10 ^ 30).
    { assert (imax t + 1 < 10 ^ 30); [|lia]. unfold imax. destruct Ht as [->|[->|[->| ->]]]; destruct (isgn t); reflexivity. }
    assert (Z.of_nat (length r) < 30) by (apply (Z.pow_lt_mono_r_iff 10); lia).
    cbn [length]. lia.
Qed.

Lemma roundtrip_decimal t z padded left binp :
  std_ty t -> in_ty t z ->
  exists out, int_to_stream_decimal t z 0 padded left binp = Some out /\ string_to_integer t out = (true, z).
Proof.
  intros Ht Hz. destruct (print_decimal_default t z left binp padded Ht Hz) as (out & E & D).
  exists out. split; [exact E|]. pose proof (std_pos t Ht) as Hp.
  unfold decimal_text in D.
  assert (BZ : - imax t - 1 <= z <= imax t + 1).
  { unfold in_ty, imin, imax in *. destruct (isgn t); lia. }
  destruct (z <? 0) eqn:Ez.
  - destruct D as (ds & -> & C). pose proof C as ([F V] & NE & H0).
    pose proof (dec_text_len t ds (- z) Ht C ltac:(lia)).
    apply string_to_integer_exact; auto.
    + constructor; [lia|]. apply (digit_c_string 10); [lia|auto].
    + cbn [length]. lia.
    + right. right. right. left. exists ds, (- z). rewrite Z.opp_involutive.
      split; [reflexivity|]. split; [|split; [split; auto|auto]].
      unfold in_ty, imin in Hz. destruct (isgn t); [reflexivity|lia].
  - pose proof D as ([F V] & NE & H0). pose proof (dec_text_len t out z Ht D ltac:(lia)).
    apply string_to_integer_exact; auto.
    + apply (digit_c_string 10); [lia|auto].
    + destruct (Z.eq_dec (hd 0 out) 48) as [H48|H48].
      * left. specialize (H0 H48). subst out. split; [reflexivity|]. cbn in V. lia.
      * right. left. exists z. repeat split; auto; apply Hz.
Qed.

Lemma roundtrip_pow2 k hc ndf t z padded left zp :
  In (hc, k) [(120, 4); (111, 3); (98, 1)] ->
  std_ty t -> in_ty t z -> zp = 0 \/ zp = ibits t ->
  nd_ok k (uwrap (ibits t) z) (ndf t z) ->
  string_to_integer t (int_to_stream_pow2 k hc ndf t z 0 padded left zp true) = (true, z).
Proof.
  intros Hk Ht Hz Hzp Hnd. pose proof (std_pos t Ht) as Hp. pose proof (std_le64 t Ht) as H64.
  assert (K : 1 <= k <= 4) by (cbn in Hk; destruct Hk as [X|[X|[X|[]]]]; inversion X; lia).
  set (u := uwrap (ibits t) z) in *.
  assert (U : 0 <= u < 2 ^ ibits t) by (apply uwrap_range; lia).
  destruct Hnd as (N1 & N2 & N3).
  assert (NB : k * ndf t z < ibits t + k).
  { destruct N3 as [->|N3]; [lia|]. assert (k * (ndf t z - 1) < ibits t); [|lia].
    apply (Z.pow_lt_mono_r_iff 2); lia. }
  set (Zd := (zp + (k - 1)) / k).
  assert (ZB : k * Zd < ibits t + k).
  { unfold Zd. pose proof (Z.div_mod (zp + (k - 1)) k ltac:(lia)). pose proof (Z.mod_pos_bound (zp + (k - 1)) k ltac:(lia)). lia. }
  set (D := if Zd >? ndf t z then Zd else ndf t z).
  assert (DB : k * D < ibits t + k /\ ndf t z <= D) by (unfold D; destruct (Zd >? ndf t z) eqn:X; lia).
  assert (DS : D <= 68) by nia.
  assert (E : int_to_stream_pow2 k hc ndf t z 0 padded left zp true = 48 :: hc :: put_digits t k z (Z.to_nat D)).
  { unfold int_to_stream_pow2. cbn [Z.eqb]. fold Zd.
    assert (ndf t z <= 68) by lia.
    replace (1000 <? 2 + ndf t z) with false by lia.
    unfold D. destruct (Zd >? ndf t z) eqn:X.
    - assert (Zd <= 68) by (unfold D in DS; lia).
      replace (2 + Zd >? 1000) with false by lia. cbn [andb app]. rewrite app_nil_r. reflexivity.
    - cbn [andb app]. rewrite app_nil_r. reflexivity. }
  rewrite E.
  destruct (put_digits_spec t k z (Z.to_nat D) ltac:(lia) ltac:(lia)) as [L Nm]. fold u in Nm.
  rewrite Z2Nat.id in Nm by lia.
  rewrite Z.mod_small in Nm.
  2:{ split; [lia|]. eapply Z.lt_le_trans; [apply N2|]. apply Z.pow_le_mono_r; [lia|]. apply Z.mul_le_mono_nonneg_l; lia. }
  apply string_to_integer_exact; auto.
  - constructor; [lia|]. constructor; [cbn in Hk; destruct Hk as [X|[X|[X|[]]]]; inversion X; lia|].
    apply (digit_c_string (2 ^ k)); [apply Z.pow_nonneg; lia|apply Nm].
  - cbn [length]. rewrite L. lia.
  - right. right. right. right. exists hc, k, (put_digits t k z (Z.to_nat D)), u.
    split; [exact Hk|]. split; [reflexivity|]. split; [exact Nm|]. split; [apply U|].
    split; [rewrite L, Z2Nat.id; lia|]. symmetry. apply cast_uwrap; auto.
Qed.

Lemma roundtrip_integer t z f :
  std_ty t -> in_ty t z -> f_size f = 0 -> (f_not f <> DecN -> f_full f = true) ->
  exists out, integer_to_stream t z f = Some out /\ string_to_integer t out = (true, z).
Proof.
  intros Ht Hz Hs Hf. unfold integer_to_stream. rewrite Hs.
  destruct (nd_spec t z Ht Hz) as (A & B & C).
  assert (ZP : (if f_binpad f then ibits t else 0) = 0 \/ (if f_binpad f then ibits t else 0) = ibits t) by (destruct (f_binpad f); auto).
  destruct (f_not f); [apply roundtrip_decimal; auto| | |]; rewrite Hf by discriminate; eexists; split; try reflexivity;
    apply roundtrip_pow2; cbn; auto.
Qed.

(** ** Statements used by the property file *)
Lemma print_decimal_canonical t z f :
  std_ty t -> in_ty t z -> f_not f = DecN -> f_size f = 0 ->
  exists out, integer_to_stream t z f = Some out /\ decimal_text out z.
Proof.
  intros Ht Hz Hn Hs. unfold integer_to_stream. rewrite Hn, Hs. apply print_decimal_default; auto.
Qed.

Lemma print_decimal_min_refuted : ~ (forall t z m padded left binp,
  std_ty t -> in_ty t z -> 0 < m -> padded = true ->
  exists text out, decimal_text text z /\
    int_to_stream_decimal t z m padded left binp = Some out /\
    field m true left (if binp then 48 else 32) text out).
Proof.
  intros H. destruct (H (ITy 32 true) (-2147483648) 20 true false false) as (text & out & _ & E & F).
  - right; right; left; reflexivity.
  - unfold in_ty; vm_compute; split; discriminate.
  - lia.
  - reflexivity.
  - assert (X : int_to_stream_decimal (ITy 32 true) (-2147483648) 20 true false false = Some (min_text (ITy 32 true)))
      by (vm_compute; reflexivity).
    rewrite X in E. injection E as <-. unfold field in F.
    apply (f_equal (@length Z)) in F. rewrite app_length, repeat_length in F. 
    change (length (min_text (ITy 32 true))) with 11%nat in F.
    destruct (Z.of_nat (length text) <=? 20) eqn:L; [lia|]. cbn [length] in F. lia.
Qed.

Lemma nd_small t z k nd : std_ty t -> 1 <= k <= 4 -> nd_ok k (uwrap (ibits t) z) nd -> nd <= 900.
Proof.
  intros Ht Hk (N1 & N2 & [->|N3]); [lia|].
  pose proof (std_le64 t Ht). pose proof (std_pos t Ht). pose proof (uwrap_range (ibits t) z ltac:(lia)).
  assert (k * (nd - 1) < ibits t) by (apply (Z.pow_lt_mono_r_iff 2); lia). nia.
Qed.

Lemma print_hex_field t z m padded left zp hdr :
  std_ty t -> in_ty t z -> 0 <= m -> 0 <= zp -> (m = 0 -> zp <= 900) ->
  let W := if m =? 0 then 1000 else m in
  let P := if m =? 0 then false else padded in
  let H := if hdr : bool then 2 else 0 in
  exists c, canonical 16 c (uwrap (ibits t) z) /\
    let wanted := Z.max (Z.of_nat (length c)) (Z.min ((zp + 3) / 4) (W - H)) in
    field W P left 32 ((if hdr then [48; 120] else []) ++ repeat 48 (Z.to_nat (wanted - Z.of_nat (length c))) ++ c)
          (int_to_stream_hex t z m padded left zp hdr).
Proof.
  intros Ht Hz Hm Hzp Hzp0. destruct (nd_spec t z Ht Hz) as (A & _ & _).
  refine (print_pow2_field 4 120 nd_hex t z m padded left zp hdr Ht _ Hm Hzp A Hzp0 _); [lia|].
  apply (nd_small t z 4); auto; lia.
Qed.

Lemma print_oct_field t z m padded left zp hdr :
  std_ty t -> in_ty t z -> 0 <= m -> 0 <= zp -> (m = 0 -> zp <= 900) ->
  let W := if m =? 0 then 1000 else m in
  let P := if m =? 0 then false else padded in
  let H := if hdr : bool then 2 else 0 in
  exists c, canonical 8 c (uwrap (ibits t) z) /\
    let wanted := Z.max (Z.of_nat (length c)) (Z.min ((zp + 2) / 3) (W - H)) in
    field W P left 32 ((if hdr then [48; 111] else []) ++ repeat 48 (Z.to_nat (wanted - Z.of_nat (length c))) ++ c)
          (int_to_stream_oct t z m padded left zp hdr).
Proof.
  intros Ht Hz Hm Hzp Hzp0. destruct (nd_spec t z Ht Hz) as (_ & A & _).
  refine (print_pow2_field 3 111 nd_oct t z m padded left zp hdr Ht _ Hm Hzp A Hzp0 _); [lia|].
  apply (nd_small t z 3); auto; lia.
Qed.

Lemma print_bin_field t z m padded left zp hdr :
  std_ty t -> in_ty t z -> 0 <= m -> 0 <= zp -> (m = 0 -> zp <= 900) ->
  let W := if m =? 0 then 1000 else m in
  let P := if m =? 0 then false else padded in
  let H := if hdr : bool then 2 else 0 in
  exists c, canonical 2 c (uwrap (ibits t) z) /\
    let wanted := Z.max (Z.of_nat (length c)) (Z.min ((zp + 0) / 1) (W - H)) in
    field W P left 32 ((if hdr then [48; 98] else []) ++ repeat 48 (Z.to_nat (wanted - Z.of_nat (length c))) ++ c)
          (int_to_stream_bin t z m padded left zp hdr).
Proof.
  intros Ht Hz Hm Hzp Hzp0. destruct (nd_spec t z Ht Hz) as (_ & _ & A).
  refine (print_pow2_field 1 98 nd_bin t z m padded left zp hdr Ht _ Hm Hzp A Hzp0 _); [lia|].
  apply (nd_small t z 1); auto; lia.
Qed.

Lemma out_of_range_rejected t ds n :
  std_ty t -> c_string ds -> (length ds < 1000)%nat -> numeral 10 ds n -> hd 0 ds <> 48 ->
  (~ in_ty t n -> fst (string_to_integer t ds) = false) /\
  (~ in_ty t (- n) -> ds <> [] -> fst (string_to_integer t (45 :: ds)) = false).
Proof.
  intros Ht Hs Hl N H48. split.
  - intros NI. destruct (string_to_integer t ds) as [[|] v] eqn:E; [exfalso|reflexivity].
    apply string_to_integer_exact in E; [|auto|auto|lia].
    destruct E as [[-> _]|[(m & _ & N' & I & _)|[(r & m & -> & _)|[(r & m & -> & _)|(l & k & r & m & _ & -> & _)]]]].
    + cbn in H48. congruence.
    + rewrite (numeral_fun 10 ds n m N N') in NI. auto.
    + apply numeral_cons in N. destruct N as [D _]. unfold is_digit in D. cbn in D. lia.
    + apply numeral_cons in N. destruct N as [D _]. unfold is_digit in D. cbn in D. lia.
    + cbn in H48. congruence.
  - intros NI _. destruct (string_to_integer t (45 :: ds)) as [[|] v] eqn:E; [exfalso|reflexivity].
    apply string_to_integer_exact in E; [|auto|constructor; auto; lia|cbn [length]; lia].
    destruct E as [[E _]|[(m & _ & N' & I & _)|[(r & m & E & _)|[(r & m & E & _ & N' & I & _)|(l & k & r & m & _ & E & _)]]]]; try discriminate.
    + apply numeral_cons in N'. destruct N' as [D _]. unfold is_digit in D. cbn in D. lia.
    + injection E as <-. rewrite (numeral_fun 10 ds n m N N') in NI. auto.
Qed.

Lemma digitless_refuted : ~ (forall t s v, std_ty t -> string_to_integer t s = (true, v) ->
  exists c, In c s /\ is_digit 10 c).
Proof.
  intros H. destruct (H (ITy 32 true) [45] 0) as (c & I & D).
  - right; right; left; reflexivity.
  - vm_compute; reflexivity.
  - cbn in I. destruct I as [<-|[]]. unfold is_digit in D. cbn in D. lia.
Qed.

Lemma leading_zeros_refuted : ~ (forall t ds n, std_ty t -> numeral 16 ds n -> n < 2 ^ ibits t ->
  (length ds <= 900)%nat -> fst (string_to_integer t (48 :: 120 :: ds)) = true).
Proof.
  intros H. specialize (H (ITy 8 false) [48; 70; 70] 255).
  assert (E : fst (string_to_integer (ITy 8 false) (48 :: 120 :: [48; 70; 70])) = false) by (vm_compute; reflexivity).
  rewrite H in E; [discriminate|left; reflexivity| |reflexivity|cbn; lia].
  split; [|reflexivity]. unfold is_digit. repeat (apply Forall_cons; [cbn; lia|]). apply Forall_nil.
Qed.

Lemma long_tail_refuted : ~ (forall t s v, std_ty t -> c_string s ->
  string_to_integer t s = (true, v) -> int_literal t s v).
Proof.
  intros H. specialize (H (ITy 32 true) (45 :: repeat 48 999 ++ [120]) 0).
  assert (L : int_literal (ITy 32 true) (45 :: repeat 48 999 ++ [120]) 0).
  { apply H.
    - right; right; left; reflexivity.
    - constructor; [lia|]. apply Forall_app. split; [apply Forall_forall; intros x I; apply repeat_spec in I; lia|].
      constructor; [lia|constructor].
    - vm_compute; reflexivity. }
  clear H. revert L. generalize (repeat 48 999). intros z L.
  destruct L as [[E _]|[(m & _ & N' & I & _)|[(r & m & E & _)|[(r & m & E & _ & N' & I & _)|(l & k & r & m & _ & E & _)]]]]; try discriminate.
  - apply numeral_cons in N'. destruct N' as [D _]. unfold is_digit in D. cbn in D. lia.
  - injection E as E. rewrite <- E in N'. destruct N' as [F _]. apply Forall_app in F. destruct F as [_ F].
    inversion F as [|? ? D _]; subst. unfold is_digit in D. cbn in D. lia.
Qed.

Lemma generic_exact s bits sgn v :
  c_string s -> (length s <= 1000)%nat -> 0 < bits ->
  string_to_integer_generic s bits sgn = Some (true, v) <->
  exists w, (w = 8 \/ w = 16 \/ w = 32 \/ w = 64) /\ bits <= w /\ (forall w', (w' = 8 \/ w' = 16 \/ w' = 32 \/ w' = 64) -> bits <= w' -> w <= w')
            /\ int_literal (ITy w sgn) s v.
Proof.
  intros Hs Hl Hb.
  assert (X : forall w, (w = 8 \/ w = 16 \/ w = 32 \/ w = 64) ->
     Some (string_to_integer (ITy w sgn) s) = Some (true, v) <-> int_literal (ITy w sgn) s v).
  { intros w Hw. rewrite <- (string_to_integer_exact (ITy w sgn) s v) by auto. split; [congruence|intros ->; reflexivity]. }
  unfold string_to_integer_generic.
  assert (Y : forall w, (w = 8 \/ w = 16 \/ w = 32 \/ w = 64) -> bits <= w ->
     (forall w', (w' = 8 \/ w' = 16 \/ w' = 32 \/ w' = 64) -> bits <= w' -> w <= w') ->
     Some (string_to_integer (ITy w sgn) s) = Some (true, v) <->
     exists w, (w = 8 \/ w = 16 \/ w = 32 \/ w = 64) /\ bits <= w /\ (forall w', (w' = 8 \/ w' = 16 \/ w' = 32 \/ w' = 64) -> bits <= w' -> w <= w')
            /\ int_literal (ITy w sgn) s v).
  { intros w W1 W2 W3. rewrite (X w W1). split.
    - intros I. exists w. auto.
    - intros (w2 & A1 & A2 & A3 & I). assert (w2 = w) by (specialize (W3 w2 A1 A2); specialize (A3 w W1 W2); lia). subst. exact I. }
  destruct (bits <=? 8) eqn:E1; [apply Y; lia|].
  destruct (bits <=? 16) eqn:E2; [apply Y; lia|].
  destruct (bits <=? 32) eqn:E3; [apply Y; lia|].
  destruct (bits <=? 64) eqn:E4; [apply Y; lia|].
  split; [discriminate|]. intros (w & A & B & _). lia.
Qed.
