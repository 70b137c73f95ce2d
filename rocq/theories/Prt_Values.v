(** C47: the text of a value, and the tokens in it *)
From Coq Require Import String.
From Verif Require Import Base IntText_Spec IntText_Proofs Lex_Model Lex_Spec Reads Slk_Model Txt_Model Txt_Props Fmt_Model Fmt_Spec Fmt_Proofs Fmt_Props ConfigDB_Spec Cfg_Model Cfg_Spec Prt_Model Prt_Spec.
Open Scope string_scope. Open Scope nat_scope. Open Scope list_scope.

(** A text before whatever, before a separator or a terminal *)
Definition emits (G : grammar) (x : list Z) (l : list token) : Prop := forall r k, reads G r k -> reads G (x ++ r) (l ++ k).
Definition emits_stop (G : grammar) (x : list Z) (l : list token) : Prop := forall r k, stop G r -> reads G r k -> reads G (x ++ r) (l ++ k).
Lemma emits_app G x y l m : emits G x l -> emits G y m -> emits G (x ++ y) (l ++ m).
Proof. intros A B r k R. rewrite <- !app_assoc. apply A, B, R. Qed.
Lemma emits_nil G : emits G [] []. Proof. intros r k R. exact R. Qed.
Lemma emits_weak G x l : emits G x l -> emits_stop G x l. Proof. intros A r k _ R. apply A, R. Qed.
Lemma stop_term G c r : is_term G c -> stop G (c :: r). Proof. intros T. right. eauto. Qed.
Lemma stop_sep G c r : is_sep G c -> stop G (c :: r). Proof. intros T. right. eauto. Qed.
Lemma emits_stop_sep G x l c : is_sep G c -> emits_stop G x l -> emits G (x ++ [c]) l.
Proof. intros S A r k R. rewrite <- app_assoc. apply A; [apply stop_sep, S|]. apply reads_sep; assumption. Qed.
Lemma emits_seps G s : Forall (is_sep G) s -> emits G s []. Proof. intros S r k R. apply reads_seps; assumption. Qed.
Lemma emits_term G c : is_term G c -> emits G [c] [TTerm (text_of [c])]. Proof. intros S r k R. apply reads_term; assumption. Qed.

(** The conversion that writes the values *)
Definition shown : conversion := Conversion [Hash] [] None L_any.
Lemma shown_text : format_text [Convert shown] = chars "%#!". Proof. reflexivity. Qed.
Definition spell (s : scalar) (text : list Z) : elem := if is_number s then Num (text_of text) else Str (text_of text).


Lemma decimal_range (t : ity) (z : Z) : std_ty t -> in_ty t z -> (- 2 ^ 63 <= z < 2 ^ 64)%Z.
Proof. unfold in_ty, imin, imax, std_ty. destruct t as [n g]. cbn [ibits isgn]. intros [-> | [-> | [-> | ->]]]; destruct g; cbn; lia. Qed.
Lemma decimal_short text z : (- 2 ^ 63 <= z < 2 ^ 64)%Z -> decimal_text text z -> (Z.of_nat (List.length text) <= 20)%Z.
Proof.
  intros R D. unfold decimal_text in D. destruct (Z.ltb_spec z 0) as [N|N].
  - destruct D as (ds & -> & C). apply (canonical_length_le 10 ds (- z) 19) in C; [cbn [List.length]; lia|lia| |lia]. change (10 ^ Z.of_nat 19)%Z with 10000000000000000000%Z. change (2 ^ 63)%Z with 9223372036854775808%Z in R. clear - R. lia.
  - apply (canonical_length_le 10 text z 20) in D; [lia|lia| |lia]. change (10 ^ Z.of_nat 20)%Z with 100000000000000000000%Z. change (2 ^ 64)%Z with 18446744073709551616%Z in R. clear - R. lia.
Qed.
Lemma digit_10 c : IntText_Spec.is_digit 10 c -> (48 <= c <= 57)%Z.
Proof. unfold IntText_Spec.is_digit, digit_val. destruct (Z.leb_spec 48 c), (Z.leb_spec c 57), (Z.leb_spec 65 c), (Z.leb_spec c 90), (Z.leb_spec 97 c), (Z.leb_spec c 122); cbn [andb]; lia. Qed.
Lemma decimal_chars text z : decimal_text text z -> text <> [] /\ Forall (fun c => (48 <= c <= 57)%Z \/ c = 45%Z) text /\ (digit_at 0 text \/ (exists s, hd_error text = Some s /\ (s = 43 \/ s = 45)%Z) /\ digit_at 1 text).
Proof.
  assert (K : forall s n, canonical 10 s n -> s <> [] /\ Forall (fun c => (48 <= c <= 57)%Z \/ c = 45%Z) s /\ digit_at 0 s).
  { intros s n ((F & _) & N & _). split; [exact N|]. split; [eapply Forall_impl; [|exact F]; cbn; intros c D; left; apply digit_10, D|]. destruct s as [|c s]; [congruence|]. inversion F; subst. exists c. split; [reflexivity|]. apply digit_10. assumption. }
  unfold decimal_text. destruct (Z.ltb_spec z 0) as [N|N].
  - intros (ds & -> & C). destruct (K ds _ C) as (A & B & (d & D & R)). split; [discriminate|]. split; [constructor; [right; reflexivity|exact B]|]. right. split; [exists 45%Z; auto|]. exists d. split; [|exact R].
    destruct ds; [discriminate|exact D].
  - intros C. destruct (K text _ C) as (A & B & D). auto.
Qed.

Section Values.
Context (G : grammar) (SG : simple G) (literal : Z).
Hypothesis space : is_sep G 32.
Hypothesis plain_digits : forall c, (48 <= c <= 57)%Z \/ c = 45%Z -> ordinary G c.
Hypothesis all_numbers : forall w z, decimal_text w z -> Lex_Model.isnum G w = true.

Definition spelt_scalar (s : scalar) (e : elem) : Prop := exists text, element_text s text /\ e = spell s text.
Lemma scalar_emits s out : printable_scalar s -> scalar_shown shown s out -> exists e, spelt_scalar s e /\ emits_stop G out [tok e].
Proof.
  intros P S. assert (Q : forall x, Forall plain x -> text_shown shown true x out -> is_number s = false -> element_text s x -> exists e, spelt_scalar s e /\ emits_stop G out [tok e]).
  { intros x F T N X. exists (spell s x). split; [exists x; auto|]. unfold text_shown in T. change (width_of shown) with 0%Z in T. cbn in T. subst out. unfold spell. rewrite N. intros r k _ R. cbn [app tok]. rewrite <- app_assoc.
    apply reads_quoted; assumption. }
  unfold scalar_shown in S. change (is_info shown) with false in S. change (full shown) with true in S. change (is_hex shown) with false in S. cbn iota in S. destruct s as [t z|b|p|p x|x|x|]; cbn [printable_scalar] in P; try contradiction.
  - unfold integer_shown in S. cbn in S. destruct S as (text & D & X). destruct P as [T R]. pose proof (decimal_short text z (decimal_range t z T R) D) as L. unfold field in X. apply Z.leb_le in L. rewrite L in X. subst out.
    exists (spell (SInt t z) text). split; [exists text; auto|]. destruct (decimal_chars text z D) as (N & F & K). intros r k ST RD. apply reads_num; try assumption.
    + eapply Forall_impl; [|exact F]. exact plain_digits.
    + split; [eapply all_numbers, D|exact K].
  - apply (Q (chars (if b then "true" else "false"))); auto; [|reflexivity]. destruct b; repeat (apply Forall_cons; [repeat split; discriminate|]); apply Forall_nil.
  - destruct P as [P _]. apply (Q x); auto. reflexivity.
  - destruct P as [P _]. apply (Q x); auto. reflexivity.
Qed.
Lemma elements_emit l : forall out, Forall printable_scalar l -> elements_shown shown l out -> exists es, Forall2 spelt_scalar l es /\ emits G out (map tok es).
Proof.
  induction l as [|s l IH]; intros out F S; inversion S; subst; [exists []; split; [constructor|apply emits_nil]|]. inversion F; subst.
  destruct (scalar_emits s o) as (e & A & B); auto. destruct (IH out0) as (es & C & D); auto. exists (e :: es). split; [constructor; assumption|]. cbn [map]. change (tok e :: map tok es) with ([tok e] ++ map tok es).
  assert (Z : comma shown (more l) = []) by (unfold comma; rewrite andb_false_r; reflexivity). rewrite Z. cbn [app]. change (o ++ 32%Z :: out0) with (o ++ [32%Z] ++ out0). rewrite app_assoc. apply (emits_app G _ _ [tok e] (map tok es)); [apply emits_stop_sep; assumption|exact D].
Qed.
(** Vectors, in braces *)
Hypothesis open_brace : is_term G 123.
Hypothesis close_brace : is_term G 125.
Lemma braces_emit x l : emits G x l -> emits G (opens shown ++ x ++ closes shown) (braces "{" "}" l).
Proof.
  intros X. change (opens shown) with ([123] ++ [32])%Z. change (closes shown) with ([125] ++ [32])%Z. unfold braces. change (TTerm "{" :: l ++ [TTerm "}"]) with (([TTerm (text_of [123%Z])] ++ []) ++ l ++ ([TTerm (text_of [125%Z])] ++ [])).
  apply emits_app; [|apply emits_app; [exact X|]]; (apply emits_app; [apply emits_term; assumption|apply emits_seps; constructor; auto]).
Qed.
Lemma row_emits l out : l <> [] -> Forall printable_scalar l -> vector_shown shown l out -> exists r, Forall2 spelt_scalar l (row_elems r) /\ emits G out (write_row "{" "}" r).
Proof.
  intros N F [o S]. destruct (elements_emit l o F S) as (es & A & B). destruct es as [|e es]; [inversion A; congruence|]. exists (e, es). split; [exact A|]. apply braces_emit. exact B.
Qed.
Lemma rows_emit l : forall out, Forall (fun x => x <> []) l -> Forall (Forall printable_scalar) l -> rows_shown shown l out -> exists rs, Forall2 (fun x r => Forall2 spelt_scalar x (row_elems r)) l rs /\ emits G out (flat_map (write_row "{" "}") rs).
Proof.
  induction l as [|x l IH]; intros out N F S; inversion S; subst; [exists []; split; [constructor|apply emits_nil]|]. inversion N; subst. inversion F; subst.
  destruct (row_emits x o) as (r & A & B); auto. destruct (IH out0) as (rs & C & D); auto. exists (r :: rs). split; [constructor; assumption|]. assert (Z : comma shown (more l) = []) by (unfold comma; rewrite andb_false_r; reflexivity). rewrite Z.
  cbn [app flat_map]. apply emits_app; assumption.
Qed.
End Values.

(** ** The value in the text is the value in the database *)
Definition same_value (x : value scalar) (v : val) : Prop :=
  vdims x = dimensions v /\ vcols x = List.length (hd [] (rows v)) /\ vrows x = List.length (rows v) /\ Forall2 spelt_scalar (velems x) (concat (rows v)) /\ regular v = true.
Lemma by_rows_spec {k cols l} : List.length l = k * cols -> concat (by_rows k cols l) = l /\ Forall (fun x => List.length x = cols) (by_rows k cols l) /\ List.length (by_rows k cols l) = k.
Proof.
  revert l. induction k as [|k IH]; intros l L; cbn [by_rows concat List.length].
  - destruct l; [auto|discriminate].
  - destruct (IH (skipn cols l)) as (A & B & C); [rewrite skipn_length; lia|]. rewrite A, C, firstn_skipn. split; [reflexivity|]. split; [|reflexivity]. constructor; [|exact B]. rewrite firstn_length. lia.
Qed.
Lemma spelt_quoted s e : spelt_scalar s e -> Cfg_Spec.quoted e = negb (is_number s).
Proof. intros (x & _ & ->). unfold spell. destruct (is_number s); reflexivity. Qed.
Lemma spelt_kinds l es : Forall2 spelt_scalar l es -> (forallb is_number l || forallb (fun s => negb (is_number s)) l) = true -> (forallb Cfg_Spec.quoted es || forallb (fun e => negb (Cfg_Spec.quoted e)) es) = true.
Proof.
  intros F. assert (K : forallb Cfg_Spec.quoted es = forallb (fun s => negb (is_number s)) l /\ forallb (fun e => negb (Cfg_Spec.quoted e)) es = forallb is_number l).
  { induction F as [|s e l es S F [A B]]; [auto|]. cbn [forallb]. rewrite A, B, (spelt_quoted s e S), negb_involutive. auto. }
  destruct K as [-> ->]. rewrite orb_comm. auto.
Qed.
Lemma Forall2_len {A B} (R : A -> B -> Prop) l m : Forall2 R l m -> List.length l = List.length m. Proof. induction 1; cbn; congruence. Qed.
Lemma Forall2_concat {A B} (R : A -> B -> Prop) l m : Forall2 (Forall2 R) l m -> Forall2 R (concat l) (concat m).
Proof. induction 1; [constructor|]. cbn [concat]. apply Forall2_app; assumption. Qed.
Lemma shown_good : good_conversion shown.
Proof. repeat split; try constructor; discriminate. Qed.
Lemma printable_fits s : printable_scalar s -> scalar_fits shown s.
Proof.
  unfold scalar_fits. change (is_info shown) with false. change (full shown) with true. change (is_hex shown) with false. cbn iota. destruct s; cbn [printable_scalar]; try contradiction.
  - intros [A B]. split; [exact A|]. split; [exact B|]. intros _ (_ & _ & C & _). apply C. reflexivity.
  - intros _. split; [reflexivity|]. split; [destruct b; reflexivity|]. intros _. left. reflexivity.
  - intros [_ A]. split; [exact A|]. intros _. left. reflexivity.
  - intros [_ A]. split; [exact A|]. intros _. left. reflexivity.
Qed.
Lemma print_value literal x : arg_fits shown (to_arg x) -> exists out, printf literal (chars "%#!") [to_arg x] = Some (out, true) /\ arg_shown shown (to_arg x) out.
Proof.
  intros F. pose proof (C46_printf_partial literal [Convert shown] [to_arg x]) as P. rewrite shown_text in P. specialize (P ltac:(constructor; [exact shown_good|constructor]) (conj F Logic.I)).
  destruct (printf literal (chars "%#!") [to_arg x]) as [[out r]|]; [|contradiction]. destruct P as [-> S]. inversion S; subst. match goal with X : says [] [] ?o |- _ => inversion X; subst end. rewrite app_nil_r in *. exists o. auto.
Qed.
Lemma value_emits G literal x : simple G -> is_sep G 32 -> (forall c, (48 <= c <= 57)%Z \/ c = 45%Z -> ordinary G c) -> (forall w z, decimal_text w z -> Lex_Model.isnum G w = true) -> is_term G 123 -> is_term G 125 ->
  printable_value x -> exists v out, same_value x v /\ printf literal (chars "%#!") [to_arg x] = Some (out, true) /\ emits_stop G out (write_val "{" "}" v).
Proof.
  intros SG S D N OB CB (V1 & V2 & V3 & V4 & V5 & V6 & V7 & V8). destruct (by_rows_spec V4) as (R1 & R2 & R3).
  assert (F2 : Forall (Forall printable_scalar) (by_rows (vrows x) (vcols x) (velems x))) by (apply Forall_concat; rewrite R1; exact V7).
  destruct (print_value literal x) as (out & P & A).
  { unfold to_arg. destruct (vdims x) as [|[|]]; cbn [arg_fits].
    - destruct (velems x) as [|s l]; [cbn in V4; lia|]. inversion V7; subst. apply printable_fits. assumption.
    - split; [reflexivity|]. eapply Forall_impl; [|exact V7]. exact printable_fits.
    - split; [reflexivity|]. eapply Forall_impl; [|exact F2]. intros l. apply Forall_impl. exact printable_fits. }
  unfold same_value. unfold to_arg in A. destruct (vdims x) as [|[|k]] eqn:DX; cbn [arg_shown] in A.
  - specialize (V5 eq_refl). specialize (V6 ltac:(lia)). rewrite V5, V6 in *. destruct (velems x) as [|s [|s' l]]; try (cbn in V4; lia). inversion V7; subst. destruct (scalar_emits G SG D N s out) as (e & B & C); [assumption|exact A|].
    exists (Scalar e), out. split; [|split; [exact P|exact C]]. repeat (split; [reflexivity|]). split; [repeat constructor; exact B|]. unfold regular. cbn. rewrite !andb_true_r. destruct (Cfg_Spec.quoted e); reflexivity.
  - specialize (V6 ltac:(lia)). rewrite V6 in *. assert (NE : velems x <> []) by (intros X; rewrite X in V4; cbn in V4; lia).
    destruct (row_emits G SG S D N OB CB (velems x) out NE V7 A) as (r & B & C). exists (Vector r), out. split; [|split; [exact P|apply emits_weak; exact C]].
    pose proof (Forall2_len _ _ _ B) as L. split; [reflexivity|]. cbn [rows hd concat List.length]. split; [lia|]. split; [reflexivity|]. rewrite app_nil_r. split; [exact B|]. unfold regular. cbn [rows concat hd forallb]. rewrite app_nil_r, Nat.eqb_refl, !andb_true_r.
    apply (spelt_kinds _ _ B V8).
  - assert (k = 0) as -> by lia. destruct A as (o & A & ->).
    assert (NE : Forall (fun y => y <> []) (by_rows (vrows x) (vcols x) (velems x))).
    { eapply Forall_impl; [|exact R2]. cbn. intros y L X. rewrite X in L. cbn in L. lia. }
    destruct (rows_emit G SG S D N OB CB _ o NE F2 A) as (rs & B & C). destruct rs as [|r rs]; [apply Forall2_len in B; rewrite R3 in B; cbn in B; lia|].
    exists (Matrix r rs), (opens shown ++ o ++ closes shown). split; [|split; [exact P|]].
    + assert (B' : Forall2 (Forall2 spelt_scalar) (by_rows (vrows x) (vcols x) (velems x)) (map row_elems (r :: rs))).
      { clear -B. induction B; constructor; auto. }
      assert (L : Forall (fun y => List.length y = vcols x) (map row_elems (r :: rs))).
      { clear -B' R2. induction B'; [constructor|]. inversion R2; subst. constructor; auto. rewrite <- (Forall2_len _ _ _ H). assumption. }
      split; [reflexivity|]. cbn [rows]. split; [cbn [map hd]; inversion L; congruence|]. split; [rewrite <- (Forall2_len _ _ _ B'); congruence|]. pose proof (Forall2_concat _ _ _ B') as CC. rewrite R1 in CC. split; [exact CC|].
      unfold regular. cbn [rows]. rewrite (spelt_kinds _ _ CC V8). cbn [andb]. apply forallb_forall. intros y I. apply Nat.eqb_eq. rewrite Forall_forall in L. rewrite (L y I). inversion B'; subst. symmetry. apply L. left. reflexivity.
    + apply emits_weak. cbn [write_val]. apply braces_emit; assumption.
Qed.
Lemma scalar_value_emits G literal x : simple G -> (forall c, (48 <= c <= 57)%Z \/ c = 45%Z -> ordinary G c) -> (forall w z, decimal_text w z -> Lex_Model.isnum G w = true) ->
  printable_value x -> vdims x = 0 -> exists e out, same_value x (Scalar e) /\ printf literal (chars "%#!") [to_arg x] = Some (out, true) /\ emits_stop G out [tok e].
Proof.
  intros SG D N (V1 & V2 & V3 & V4 & V5 & V6 & V7 & V8) DX. specialize (V5 DX). specialize (V6 ltac:(lia)). unfold same_value. rewrite V5, V6, DX in *. destruct (velems x) as [|s [|s' l]] eqn:VE; try (cbn in V4; lia). inversion V7; subst.
  assert (TA : to_arg x = AScalar s) by (unfold to_arg; rewrite DX, VE; reflexivity).
  destruct (print_value literal x) as (out & P & A); [rewrite TA; apply printable_fits; assumption|]. rewrite TA in A. cbn [arg_shown] in A. destruct (scalar_emits G SG D N s out) as (e & B & C); [assumption|exact A|].
  exists e, out. split; [|split; [exact P|exact C]]. repeat (split; [reflexivity|]). split; [repeat constructor; exact B|]. unfold regular. cbn. rewrite !andb_true_r. destruct (Cfg_Spec.quoted e); reflexivity.
Qed.
(** and the parser makes of it the value that is written. *)
Lemma parsed_value {E} (conv : string -> string -> option E) x v : (forall s, conv "string" s <> None) -> same_value x v -> exists x', value_of conv "string" v = Some x' /\ written_value conv x x'.
Proof.
  intros T (A & B & C & D & R). unfold value_of. rewrite R.
  assert (K : exists es, all_some (map (fun e => conv "string" (data e)) (concat (rows v))) = Some es /\ Forall2 (fun s e => exists text, element_text s text /\ conv "string" (text_of text) = Some e) (velems x) es).
  { induction D as [|s e l m (w & W & ->) D (es & I & J)]; [exists []; split; [reflexivity|constructor]|]. cbn [map all_some]. assert (X : data (spell s w) = text_of w) by (unfold spell; destruct (is_number s); reflexivity). rewrite X.
    destruct (conv "string" (text_of w)) as [e'|] eqn:CE; [|destruct (T _ CE)]. rewrite I. exists (e' :: es). split; [reflexivity|]. constructor; [|exact J]. exists w. auto. }
  destruct K as (es & -> & J). eexists. split; [reflexivity|]. repeat split; cbn [vtype vdims vcols vrows velems]; auto.
Qed.
