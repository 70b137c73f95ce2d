(** Proofs about TypeConvert: one element. *)
From Verif Require Import Base BitsBase Bsb_Model Bsb_Spec Bsb_Proofs Tcv_Model Tcv_Spec Tcv_Proofs.
From Verif Require IntText_Spec IntText_Model IntText_Props Bsb_Props.
Local Open Scope nat_scope.

(** [v] designates [w] bytes. *)
Definition spans (v : scalar) (w : nat) : Prop :=
  match s_ty v with
  | TChar => s_n0 v = w /\ (s_dims v = 0 -> w = 1)
  | t => w = byte_size t
  end.

Lemma ty_eqb_spec a b : ty_eqb a b = true <-> a = b.
Proof.
  destruct a, b; cbn; try (split; congruence).
  - rewrite andb_true_iff, Z.eqb_eq, Bool.eqb_true_iff. split; [intros [-> ->]; reflexivity|intros E; injection E; auto].
  - rewrite Z.eqb_eq. split; congruence.
Qed.

Lemma field_bool_word b : bytes b -> length b = 1 -> field b 0 8 false = word_of b.
Proof.
  intros B L. rewrite field_word by (auto; lia). unfold cast. cbn [isgn ibits]. apply uwrap_id.
  pose proof (word_bound b B) as W. rewrite L in W. exact W.
Qed.

Lemma nearest_same bits sg z : (lowest bits sg <= z <= highest bits sg)%Z -> nearest bits sg z = z.
Proof. unfold nearest. lia. Qed.

Lemma field_range b bits sg : standard (TInt bits sg) -> bytes b -> length b = Z.to_nat (bits / 8) ->
  (lowest bits sg <= field b 0 bits sg <= highest bits sg)%Z.
Proof.
  intros St B L. destruct (std_bits bits sg St) as (H0 & H8 & _).
  rewrite field_word by auto. pose proof (cast_range (ITy bits sg) (word_of b) H0) as R.
  unfold in_ty, imin, imax in R. cbn [isgn ibits] in R. exact R.
Qed.

Lemma range_in_ty bits sg z : (lowest bits sg <= z <= highest bits sg)%Z -> in_ty (ITy bits sg) z.
Proof. auto. Qed.

Lemma field_bytes_of bits sg v : standard (TInt bits sg) -> in_ty (ITy bits sg) v ->
  field (bytes_of (Z.to_nat (bits / 8)) v) 0 bits sg = v.
Proof.
  intros St R. destruct (std_bits bits sg St) as (H0 & H8 & E & _).
  rewrite field_word by (auto; try apply bytes_of_bytes; apply bytes_of_length).
  rewrite word_bytes. replace (8 * Z.of_nat (Z.to_nat (bits / 8)))%Z with bits
    by (pose proof (Z.div_pos bits 8 ltac:(lia) ltac:(lia)); lia).
  change (v mod 2 ^ bits)%Z with (uwrap bits v).
  transitivity (cast (ITy bits sg) v); [|apply cast_id; auto].
  apply in_ty_bits_inj with (ITy bits sg); try apply cast_range; auto.
  intros i Hi. rewrite !cast_testbit by auto. rewrite uwrap_testbit by lia.
  cbn [ibits] in Hi. replace (i <? bits)%Z with true by lia. reflexivity.
Qed.

Lemma literal_in_ty t s v : std_ty t -> IntText_Spec.int_literal t s v -> in_ty t v.
Proof.
  intros St H. assert (P : (0 < ibits t)%Z) by (unfold std_ty in St; lia).
  destruct H as [[_ ->]|[(n & _ & _ & R & ->)|[(ds & n & _ & _ & R & ->)|[(ds & n & _ & _ & _ & R & ->)|
    (l & k & ds & n & _ & _ & _ & _ & _ & ->)]]]]; auto.
  - unfold in_ty, imin, imax. assert (0 < 2 ^ (ibits t - 1))%Z by (apply Z.pow_pos_nonneg; lia).
    assert (0 < 2 ^ ibits t)%Z by (apply Z.pow_pos_nonneg; lia). destruct (isgn t); lia.
  - apply cast_range, P.
Qed.

Lemma generic_standard t bits sg : standard (TInt bits sg) ->
  IntText_Model.string_to_integer_generic t bits sg = Some (IntText_Model.string_to_integer (ITy bits sg) t).
Proof. unfold standard. intros [->|[->|[->| ->]]]; reflexivity. Qed.

Section Element.

Variable number : ty -> ty -> list Z -> bool * list Z.
Variable text : ty -> list Z -> option (list Z).
Hypothesis Fair : fair number text.

Lemma put_number_ok m d st b dw : bytes m -> s_ty d <> TChar -> dw = byte_size (s_ty d) ->
  s_at d + dw <= length m ->
  exists new, put_number number m d st b = Some (fst (number (s_ty d) st b), put m (s_at d) new) /\
    length new = dw /\ bytes new /\
    new = snd (number (s_ty d) st b) ++ skipn (length (snd (number (s_ty d) st b))) (slice m (s_at d) dw).
Proof.
  intros B Nt Ew Ld. destruct Fair as [F _]. destruct (F (s_ty d) st b) as [Fb Fl]. clear F.
  unfold put_number. destruct (number (s_ty d) st b) as [ok w]. cbn [fst snd] in *.
  rewrite write_put by lia. rewrite (put_front m (s_at d) dw) by lia.
  eexists. split; [reflexivity|].
  split; [rewrite app_length, skipn_length, slice_length by lia; lia|].
  split; [apply bytes_app; [exact Fb|apply bytes_skipn, slice_bytes, B]|reflexivity].
Qed.

(** A copy: the source is at most as long as the destination. *)
Lemma copy_ok m d s dw sw : bytes m -> s_at d + dw <= length m -> s_at s + sw <= length m -> sw <= dw ->
  exists new, write m (s_at d) (slice m (s_at s) sw) = Some (put m (s_at d) new) /\
    length new = dw /\ bytes new /\ new = slice m (s_at s) sw ++ skipn sw (slice m (s_at d) dw).
Proof.
  intros B Ld Ls Le. assert (L : length (slice m (s_at s) sw) = sw) by (apply slice_length; lia).
  rewrite write_put by lia. rewrite (put_front m (s_at d) dw) by lia. rewrite L.
  eexists. split; [reflexivity|].
  split; [rewrite app_length, skipn_length, L, slice_length by lia; lia|].
  split; [apply bytes_app; [apply slice_bytes, B|apply bytes_skipn, slice_bytes, B]|reflexivity].
Qed.

Theorem scalar_ok m d s dw sw :
  bytes m -> standard (s_ty d) -> standard (s_ty s) -> spans d dw -> spans s sw ->
  (Z.of_nat dw < 2 ^ 32)%Z -> (Z.of_nat sw < 2 ^ 32)%Z ->
  s_at d + dw <= length m -> s_at s + sw <= length m ->
  (s_ty s = TChar -> s_ty d = TChar -> sw <= dw) ->
  (s_ty s = TChar -> s_ty d <> TChar -> In 0%Z (slice m (s_at s) sw)) ->
  exists ok new, scalar_convert number text m d s = Some (ok, put m (s_at d) new) /\
    length new = dw /\ bytes new /\
    good_element number text (s_ty d) (s_ty s) (slice m (s_at s) sw) (slice m (s_at d) dw) ok new.
Proof.
  intros B Sd Ss Wd Ws Dd Ds Ld Ls Cc Ct.
  assert (Lsl : length (slice m (s_at s) sw) = sw) by (apply slice_length; lia).
  assert (Ldl : length (slice m (s_at d) dw) = dw) by (apply slice_length; lia).
  assert (Bs : bytes (slice m (s_at s) sw)) by (apply slice_bytes, B).
  assert (Bd : bytes (slice m (s_at d) dw)) by (apply slice_bytes, B).
  unfold scalar_convert. destruct (ty_eqb (s_ty s) (s_ty d)) eqn:Et.
  - (* the same type *)
    apply ty_eqb_spec in Et.
    assert (Le : sw <= dw).
    { unfold spans in Wd, Ws. rewrite <- Et in Wd, Cc.
      destruct (s_ty s); [rewrite Wd, Ws; reflexivity|rewrite Wd, Ws; reflexivity|rewrite Wd, Ws; reflexivity|auto]. }
    replace (read m (s_at s) _) with (Some (slice m (s_at s) sw)).
    2: { rewrite <- read_slice by lia. f_equal. unfold spans in Ws. destruct (s_ty s); auto.
         destruct Ws as [Ws W0]. destruct (0 <? s_dims s) eqn:E0.
         - rewrite u32_id by (cbn [byte_size]; lia). cbn [byte_size]. lia.
         - apply Nat.ltb_ge in E0. cbn [byte_size]. apply W0. lia. }
    destruct (copy_ok m d s dw sw B Ld Ls Le) as (new & -> & Ln & Bn & Vn).
    exists true, new. split; [reflexivity|]. split; [exact Ln|]. split; [exact Bn|].
    unfold good_element. rewrite <- Et in *. unfold spans in Wd, Ws. rewrite <- Et in Wd.
    destruct (s_ty s) as [sb sg|sb| |].
    + assert (new = slice m (s_at s) sw) as ->.
      { rewrite Vn, skipn_all2 by (rewrite Ldl; cbn [byte_size] in *; lia). apply app_nil_r. }
      split; [reflexivity|]. symmetry. apply nearest_same, field_range; auto.
      cbn [byte_size] in Ws. lia.
    + rewrite Z.eqb_refl. split; [reflexivity|].
      rewrite Vn, skipn_all2 by (rewrite Ldl; cbn [byte_size] in *; lia). apply app_nil_r.
    + split; [reflexivity|]. rewrite Vn, skipn_all2 by (rewrite Ldl; cbn [byte_size] in *; lia). apply app_nil_r.
    + split; [reflexivity|]. rewrite Lsl. exact Vn.
  - (* different types *)
    assert (Ne : s_ty s <> s_ty d) by (intros E; apply ty_eqb_spec in E; congruence).
    destruct (s_ty s) as [sb sg|sb| |] eqn:Es.
    + (* integers *)
      unfold spans in Ws. rewrite Es in Ws. cbn [byte_size] in Ws.
      unfold integer_to_type. rewrite Es. cbn [byte_size]. rewrite <- Ws.
      rewrite read_slice by lia. set (src := slice m (s_at s) sw) in *.
      destruct (std_bits sb sg Ss) as (S0 & S8 & SE & Sb & SS).
      assert (V : int_value sb sg src = field src 0 sb sg).
      { unfold int_value. symmetry. apply field_word; auto. lia. }
      assert (In_t : in_ty (ITy sb sg) (field src 0 sb sg)).
      { apply range_in_ty, field_range; auto. lia. }
      destruct (s_ty d) as [db dg|db| |] eqn:Ed.
      * (* to integers *)
        unfold spans in Wd. rewrite Ed in Wd. cbn [byte_size] in Wd.
        destruct (std_bits db dg Sd) as (D0 & D8 & DE & Db & DS).
        pose proof (Bsb_Props.C54_integers m (s_at d) dw dg m (s_at s) sw sg B B
          ltac:(lia) ltac:(lia) Ld Ls) as (o & Eo & Ro & Fo & Co).
        replace (8 * Z.of_nat dw)%Z with db in * by lia.
        replace (8 * Z.of_nat sw)%Z with sb in * by lia.
        rewrite Eo, Ro. destruct Co as (Co1 & Co2 & Co3).
        assert (P : o_mem o = put m (s_at d) (slice (o_mem o) (s_at d) dw)).
        { apply same_but_put; auto. replace (8 * Z.of_nat dw)%Z with db by lia. split; [|split]; auto. }
        exists true, (slice (o_mem o) (s_at d) dw). split; [rewrite <- P; reflexivity|].
        split; [apply slice_length; lia|]. split; [apply slice_bytes, Co2|].
        unfold good_element. split; [reflexivity|].
        rewrite (field_slice (o_mem o)) in Fo by (auto; lia). rewrite (field_slice m) in Fo by (auto; lia).
        rewrite <- Wd, <- Ws in Fo. exact Fo.
      * (* to floating point *)
        unfold spans in Wd. rewrite Ed in Wd.
        destruct (put_number_ok m d (TInt sb sg) src dw B ltac:(congruence) ltac:(rewrite Ed; exact Wd) Ld)
          as (new & -> & Ln & Bn & Vn). rewrite Ed in Vn |- *.
        do 2 eexists. split; [reflexivity|]. split; [exact Ln|]. split; [exact Bn|].
        unfold good_element. split; [reflexivity|exact Vn].
      * (* to booleans *)
        unfold spans in Wd. rewrite Ed in Wd. cbn [byte_size] in Wd.
        rewrite write_put by (cbn [length]; lia).
        do 2 eexists. split; [reflexivity|]. split; [cbn; lia|].
        split; [repeat constructor; destruct (_ =? _)%Z; lia|].
        unfold good_element. split; [reflexivity|].
        replace (word_of src =? 1)%Z with (field src 0 sb sg =? 1)%Z; [reflexivity|].
        rewrite <- V. unfold int_value, cast. cbn [isgn ibits].
        pose proof (word_bound src Bs) as W. rewrite Lsl in W.
        replace (8 * Z.of_nat sw)%Z with sb in W by lia.
        assert (1 < 2 ^ (sb - 1))%Z by (apply Z.pow_gt_1; lia).
        pose proof (pow2_half sb ltac:(lia)).
        destruct sg; [rewrite swrap_cases by lia|]; rewrite uwrap_id by lia; [|reflexivity].
        destruct (word_of src <? 2 ^ (sb - 1))%Z eqn:E2; [reflexivity|lia].
      * (* to text *)
        unfold spans in Wd. rewrite Ed in Wd. destruct Wd as [Wd _].
        destruct (IntText_Props.C01_decimal_print_canonical (ITy sb sg) (field src 0 sb sg)
          (IntText_Model.Fmt 0 false false false false IntText_Model.DecN) SS In_t eq_refl eq_refl) as (t & Et2 & Dt).
        rewrite V, Et2.
        destruct (put_text_ok m d t (slice m (s_at d) dw) B (decimal_bytes _ _ Dt) Ed ltac:(lia) ltac:(lia)
          ltac:(rewrite Wd; reflexivity)) as (new & -> & Ln & Bn & Hn).
        do 2 eexists. split; [reflexivity|]. split; [lia|]. split; [exact Bn|].
        unfold good_element. split; [reflexivity|]. exists t. auto.
    + (* floating point *)
      unfold spans in Ws. rewrite Es in Ws.
      unfold float_to_type. rewrite Es. rewrite <- Ws. rewrite read_slice by lia.
      destruct (s_ty d) as [db dg|db| |] eqn:Ed.
      * unfold spans in Wd. rewrite Ed in Wd.
        destruct (put_number_ok m d (TFlt sb) (slice m (s_at s) sw) dw B ltac:(congruence) ltac:(rewrite Ed; exact Wd) Ld)
          as (new & -> & Ln & Bn & Vn). rewrite Ed in Vn |- *.
        do 2 eexists. split; [reflexivity|]. split; [exact Ln|]. split; [exact Bn|].
        unfold good_element. split; [reflexivity|exact Vn].
      * unfold spans in Wd. rewrite Ed in Wd.
        destruct (put_number_ok m d (TFlt sb) (slice m (s_at s) sw) dw B ltac:(congruence) ltac:(rewrite Ed; exact Wd) Ld)
          as (new & -> & Ln & Bn & Vn). rewrite Ed in Vn |- *.
        do 2 eexists. split; [reflexivity|]. split; [exact Ln|]. split; [exact Bn|].
        unfold good_element. replace (sb =? db)%Z with false by (symmetry; apply Z.eqb_neq; congruence).
        split; [reflexivity|exact Vn].
      * unfold spans in Wd. rewrite Ed in Wd. cbn [byte_size] in Wd.
        rewrite write_put by (cbn [length]; lia).
        do 2 eexists. split; [reflexivity|]. split; [cbn; lia|]. split; [repeat constructor; lia|].
        unfold good_element. auto.
      * unfold spans in Wd. rewrite Ed in Wd. destruct Wd as [Wd _].
        unfold good_element. destruct (text (TFlt sb) (slice m (s_at s) sw)) as [t|] eqn:Ett.
        -- destruct Fair as [_ Ft]. specialize (Ft _ _ _ Ett).
           destruct (put_text_ok m d t (slice m (s_at d) dw) B Ft Ed ltac:(lia) ltac:(lia)
             ltac:(rewrite Wd; reflexivity)) as (new & -> & Ln & Bn & Hn).
           do 2 eexists. split; [reflexivity|]. split; [lia|]. split; [exact Bn|]. auto.
        -- exists false, (slice m (s_at d) dw). split; [|split; [exact Ldl|split; [exact Bd|auto]]].
           do 2 f_equal. transitivity (put m (s_at d) []).
           ++ unfold put. cbn [length app]. rewrite Nat.add_0_r. symmetry. apply firstn_skipn.
           ++ rewrite (put_front m (s_at d) dw) by (cbn; lia). reflexivity.
    + (* booleans *)
      unfold spans in Ws. rewrite Es in Ws. cbn [byte_size] in Ws.
      unfold boolean_to_type. rewrite read_slice by lia.
      assert (V : field (slice m (s_at s) sw) 0 8 false = word_of (slice m (s_at s) 1))
        by (rewrite Ws in *; apply field_bool_word; auto).
      rewrite <- V.
      destruct (s_ty d) as [db dg|db| |] eqn:Ed; [| | congruence |].
      * unfold spans in Wd. rewrite Ed in Wd. cbn [byte_size] in Wd.
        destruct (std_bits db dg Sd) as (D0 & D8 & DE & Db & DS).
        rewrite <- Wd. rewrite write_put by (rewrite repeat_length; lia).
        rewrite write_put by (rewrite put_length; rewrite ?repeat_length; cbn [length]; lia).
        assert (P0 : forall x, put (put m (s_at d) (repeat 0%Z dw)) (s_at d) [x] = put m (s_at d) (put (repeat 0%Z dw) 0 [x])).
        { intros x. rewrite <- put_twice by (rewrite repeat_length; cbn [length]; lia). f_equal. lia. }
        rewrite P0.
        do 2 eexists. split; [reflexivity|].
        assert (Lp : forall x, length (put (repeat 0%Z dw) 0 [x]) = dw)
          by (intros; rewrite put_length; rewrite ?repeat_length; cbn [length]; lia).
        split; [apply Lp|].
        assert (B0 : bytes (repeat 0%Z dw)) by (apply Forall_forall; intros x Hx; apply repeat_spec in Hx; lia).
        assert (Bp : forall x, (0 <= x < 256)%Z -> bytes (put (repeat 0%Z dw) 0 [x]))
          by (intros; apply put_bytes; [exact B0|repeat constructor; lia]).
        split; [apply Bp; destruct (negb _); lia|].
        unfold good_element. split; [reflexivity|].
        assert (W0 : forall k, word_of (repeat 0%Z k) = 0%Z) by (induction k as [|k IH]; cbn; [|rewrite IH]; reflexivity).
        assert (Wp : forall x, (0 <= x < 2)%Z -> field (put (repeat 0%Z dw) 0 [x]) 0 db dg = x).
        { intros x Hx. rewrite field_word by (auto; try (apply Bp; lia); rewrite Lp; lia).
          replace (word_of (put (repeat 0%Z dw) 0 [x])) with x.
          - apply cast_id; [exact D0|]. unfold in_ty, imin, imax. cbn [isgn ibits].
            assert (1 < 2 ^ (db - 1))%Z by (apply Z.pow_gt_1; lia). pose proof (pow2_half db ltac:(lia)).
            destruct dg; lia.
          - unfold put. cbn [firstn app length]. destruct dw as [|k]; [lia|].
            cbn [repeat plus skipn word_of]. rewrite W0. lia. }
        destruct (field (slice m (s_at s) sw) 0 8 false =? 0)%Z; cbn [negb]; apply Wp; lia.
      * exists false, (slice m (s_at d) dw). split; [|split; [exact Ldl|split; [exact Bd|unfold good_element; auto]]].
        do 2 f_equal. transitivity (put m (s_at d) []).
        -- unfold put. cbn [length app]. rewrite Nat.add_0_r. symmetry. apply firstn_skipn.
        -- rewrite (put_front m (s_at d) dw) by (cbn; lia). reflexivity.
      * unfold spans in Wd. rewrite Ed in Wd. destruct Wd as [Wd _].
        set (v := negb (field (slice m (s_at s) sw) 0 8 false =? 0)%Z).
        change (if v then text_true else text_false) with (text_of_bool v).
        assert (Bt : bytes (text_of_bool v)) by (destruct v; repeat constructor; lia).
        destruct (put_text_ok m d (text_of_bool v) (slice m (s_at d) dw) B Bt Ed ltac:(lia) ltac:(lia)
          ltac:(rewrite Wd; reflexivity)) as (new & -> & Ln & Bn & Hn).
        do 2 eexists. split; [reflexivity|]. split; [lia|]. split; [exact Bn|].
        unfold good_element. auto.
    + (* texts *)
      assert (Nt : s_ty d <> TChar) by congruence.
      specialize (Ct eq_refl Nt).
      unfold string_to_type.
      replace (skipn (s_at s) m) with (slice m (s_at s) sw ++ skipn sw (skipn (s_at s) m))
        by (unfold slice; apply firstn_skipn).
      rewrite chars_text by exact Ct. set (t := text_in (slice m (s_at s) sw)) in *.
      destruct (text_bytes (slice m (s_at s) sw) Bs) as [Bt Cs]. fold t in Bt, Cs.
      destruct (s_ty d) as [db dg|db| |] eqn:Ed; [| | |congruence].
      * unfold spans in Wd. rewrite Ed in Wd. cbn [byte_size] in Wd.
        destruct (std_bits db dg Sd) as (D0 & D8 & DE & Db & DS).
        rewrite (generic_standard t db dg Sd).
        destruct (IntText_Model.string_to_integer (ITy db dg) t) as [ok v] eqn:Es2.
        rewrite write_put by (rewrite bytes_of_length; lia). rewrite <- Wd.
        do 2 eexists. split; [reflexivity|]. split; [apply bytes_of_length|]. split; [apply bytes_of_bytes|].
        unfold good_element. fold t. intros L1000 z.
        pose proof (IntText_Props.C03_integer_parse_exact (ITy db dg) t z DS Cs L1000) as X.
        rewrite Es2 in X. rewrite <- X.
        split.
        -- intros E. injection E as -> ->. split; [reflexivity|]. rewrite Wd.
           apply field_bytes_of; auto. eapply literal_in_ty; [exact DS|]. apply X. reflexivity.
        -- intros [-> E]. f_equal. rewrite <- E. symmetry. rewrite Wd. apply field_bytes_of; auto.
           eapply literal_in_ty; [exact DS|].
           apply (IntText_Props.C03_integer_parse_exact (ITy db dg) t v DS Cs L1000). exact Es2.
      * unfold spans in Wd. rewrite Ed in Wd.
        destruct (put_number_ok m d TChar t dw B ltac:(congruence) ltac:(rewrite Ed; exact Wd) Ld)
          as (new & -> & Ln & Bn & Vn). rewrite Ed in Vn |- *.
        do 2 eexists. split; [reflexivity|]. split; [exact Ln|]. split; [exact Bn|].
        unfold good_element. split; [reflexivity|exact Vn].
      * unfold spans in Wd. rewrite Ed in Wd. cbn [byte_size] in Wd.
        rewrite write_put by (cbn [length]; lia).
        do 2 eexists. split; [reflexivity|]. split; [cbn; lia|].
        split; [repeat constructor; destruct (_ || _); lia|].
        unfold good_element. fold t. split; [reflexivity|].
        assert (M : same_text t text_true || same_text t text_1 || same_text t text_yes = true <-> means_true t).
        { rewrite !orb_true_iff, !same_text_spec. unfold means_true. cbn [In].
          change (map small_letter text_true) with [116; 114; 117; 101]%Z.
          change (map small_letter text_1) with [49]%Z. change (map small_letter text_yes) with [121; 101; 115]%Z.
          intuition congruence. }
        destruct (same_text t text_true || same_text t text_1 || same_text t text_yes).
        -- left. split; [apply M; reflexivity|reflexivity].
        -- right. split; [intros Q; apply M in Q; discriminate|reflexivity].
Qed.

End Element.
