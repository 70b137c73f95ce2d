(** The lexical analyser: comments, words and quoted strings. *)
From Verif Require Import Base Lex_Model Lex_Spec.
Open Scope Z_scope.
Open Scope list_scope.

Lemma existsb_In c l : existsb (Z.eqb c) l = true <-> In c l.
Proof.
  rewrite existsb_exists. split.
  - intros (x & I & E). apply Z.eqb_eq in E. subst. exact I.
  - intros I. exists c. split; [exact I|apply Z.eqb_refl].
Qed.
Lemma search_yes l c : In c l -> search_char l c = true.
Proof. intros H. unfold search_char. apply orb_true_iff. right. apply existsb_In. exact H. Qed.
Lemma search_no l c : c <> 0 -> ~ In c l -> search_char l c = false.
Proof.
  intros N H. unfold search_char. apply orb_false_iff. split; [apply Z.eqb_neq; exact N|].
  destruct (existsb (Z.eqb c) l) eqn:E; [|reflexivity]. apply existsb_In in E. contradiction.
Qed.
Lemma newlines_cons c l : newlines (c :: l) = newlines [c] + newlines l.
Proof. unfold newlines. cbn [count_occ]. destruct (Z.eq_dec c nl); lia. Qed.
Lemma newlines_app a b : newlines (a ++ b) = newlines a + newlines b.
Proof. unfold newlines. rewrite count_occ_app. lia. Qed.
Lemma newlines_nil : newlines [] = 0. Proof. reflexivity. Qed.
Lemma newlines_one c line : (if c =? nl then line + 1 else line) = line + newlines [c].
Proof. unfold newlines. cbn [count_occ]. destruct (Z.eq_dec c nl) as [->|N]; [reflexivity|]. apply Z.eqb_neq in N. rewrite N. cbn. lia. Qed.
Lemma nls_newlines l : nls l = newlines l.
Proof.
  induction l as [|c l IH]; [reflexivity|]. rewrite newlines_cons, <- IH, <- (Z.add_0_l (newlines [c])), <- newlines_one.
  unfold nls. cbn [filter]. rewrite (Z.eqb_sym nl c). destruct (c =? nl); cbn [List.length]; lia.
Qed.

Lemma read_one_line_body body r : ~ In nl body -> read_one_line (body ++ nl :: r) = r.
Proof.
  induction body as [|c b IH]; intros N; [reflexivity|]. cbn [app read_one_line].
  destruct (Z.eqb_spec c nl) as [->|E]; [destruct N; left; reflexivity|]. apply IH. intros H. apply N. right. exact H.
Qed.
Lemma read_one_line_end body : ~ In nl body -> read_one_line body = [].
Proof.
  induction body as [|c b IH]; intros N; [reflexivity|]. cbn [read_one_line].
  destruct (Z.eqb_spec c nl) as [->|E]; [destruct N; left; reflexivity|]. apply IH. intros H. apply N. right. exact H.
Qed.

(** The window: two characters. *)
Lemma multi_loop_body : forall body a b r line,
  (forall u v, a :: b :: body ++ [star] <> u ++ star :: slash :: v) ->
  multi_loop [star; slash] [a; b] (body ++ star :: slash :: r) line = (r, line + newlines (body ++ [star; slash])).
Proof.
  induction body as [|c body IH]; intros a b r line N.
  - assert (E : prefix [star; slash] [a; b] && prefix [a; b] [star; slash] = false).
    { cbn [prefix]. destruct (Z.eqb_spec star a) as [<-|Na]; [|reflexivity].
      destruct (Z.eqb_spec slash b) as [<-|Nb]; [|reflexivity]. destruct (N [] [star]). reflexivity. }
    cbn [app multi_loop]. rewrite E. cbn [tl app]. cbn [multi_loop].
    assert (E2 : prefix [star; slash] [b; star] && prefix [b; star] [star; slash] = false).
    { cbn [prefix]. rewrite (proj2 (Z.eqb_neq slash star)) by discriminate. rewrite andb_false_r. reflexivity. }
    rewrite E2. cbn [tl app]. replace (star =? nl) with false by reflexivity. replace (slash =? nl) with false by reflexivity.
    change (newlines [star; slash]) with 0. rewrite Z.add_0_r.
    destruct r; cbn [multi_loop]; replace (prefix [star; slash] [star; slash] && prefix [star; slash] [star; slash]) with true by reflexivity;
      reflexivity.
  - assert (E : prefix [star; slash] [a; b] && prefix [a; b] [star; slash] = false).
    { cbn [prefix]. destruct (Z.eqb_spec star a) as [<-|Na]; [|reflexivity].
      destruct (Z.eqb_spec slash b) as [<-|Nb]; [|reflexivity]. destruct (N [] (c :: body ++ [star])). reflexivity. }
    cbn [app multi_loop]. rewrite E. cbn [tl app]. rewrite IH.
    + rewrite newlines_one. f_equal. rewrite (newlines_cons c (body ++ [star; slash])). lia.
    + intros u v H. apply (N (a :: u) v). cbn [app]. f_equal. exact H.
Qed.
Lemma read_multi_body body r line : (forall u v, body ++ [star] <> u ++ star :: slash :: v) ->
  read_multi [star; slash] (body ++ star :: slash :: r) line = (r, line + newlines body).
Proof.
  intros N. unfold read_multi. change (List.length [star; slash]) with 2%nat.
  assert (L : Nat.ltb (List.length (body ++ star :: slash :: r)) 2 = false).
  { apply Nat.ltb_ge. rewrite app_length. cbn [List.length]. lia. }
  rewrite L. destruct body as [|a [|b body]].
  - cbn [app firstn skipn]. destruct r; cbn [multi_loop];
      replace (prefix [star; slash] [star; slash] && prefix [star; slash] [star; slash]) with true by reflexivity; f_equal.
  - cbn [app firstn skipn multi_loop].
    assert (E2 : prefix [star; slash] [a; star] && prefix [a; star] [star; slash] = false).
    { cbn [prefix]. rewrite (proj2 (Z.eqb_neq slash star)) by discriminate. rewrite andb_false_r. reflexivity. }
    rewrite E2. cbn [tl app]. replace (slash =? nl) with false by reflexivity. rewrite nls_newlines.
    replace (newlines [a; star]) with (newlines [a]) by (rewrite (newlines_cons a [star]); cbn; lia).
    destruct r; cbn [multi_loop];
      replace (prefix [star; slash] [star; slash] && prefix [star; slash] [star; slash]) with true by reflexivity; reflexivity.
  - cbn [app firstn skipn]. rewrite multi_loop_body by exact N. rewrite nls_newlines. f_equal.
    rewrite newlines_app, (newlines_cons a (b :: body)), (newlines_cons b body), (newlines_cons a [b]).
    replace (newlines [star; slash]) with 0 by reflexivity. lia.
Qed.

Section Simple.
Variable G : grammar.
Hypothesis SG : simple G.

Lemma G_key : keywords G = []. Proof. apply SG. Qed.
Lemma G_com : cpp_comments G \/ no_comments G. Proof. apply SG. Qed.
Lemma G_special c : is_sep G c \/ is_term G c -> c <> 0 /\ c <> quote /\ c <> backslash /\ c <> slash.
Proof. apply SG. Qed.

(** ** The first characters *)
Lemma coc_plain c r line : (cpp_comments G -> c <> slash) -> comment_or_chars G c r line = Sk true [c] 0 r line.
Proof.
  intros H. unfold comment_or_chars. destruct G_com as [(A & B & _)|(A & B & _)]; rewrite A, B.
  - assert (N : c =? slash = false) by (apply Z.eqb_neq; apply H; repeat split; try assumption; apply G_com || idtac; destruct G_com as [(?&?&?)|(A2&_)]; [assumption|congruence]).
    cbn [match_one match_multi nth_error app]. rewrite N. cbn [match_multi nth_error app]. rewrite N. reflexivity.
  - reflexivity.
Qed.
Lemma coc_slash d r line : cpp_comments G -> d <> slash -> d <> star -> comment_or_chars G slash (d :: r) line = Sk true [slash; d] 0 r line.
Proof.
  intros (A & B & _) N1 N2. unfold comment_or_chars. rewrite A, B. cbn [match_one app].
  rewrite Z.eqb_refl. rewrite (proj2 (Z.eqb_neq _ _) N1). cbn [match_multi nth_error app].
  rewrite Z.eqb_refl. rewrite (proj2 (Z.eqb_neq _ _) N2). reflexivity.
Qed.
Lemma coc_one b r line : cpp_comments G -> comment_or_chars G slash (slash :: b :: r) line = Sk true [] nl (read_one_line r) line.
Proof. intros (A & B & _). unfold comment_or_chars. rewrite A, B. reflexivity. Qed.
Lemma coc_one_eof line : cpp_comments G -> exists b, comment_or_chars G slash [slash] line = Sk false b 0 [] line.
Proof. intros (A & B & _). unfold comment_or_chars. rewrite A, B. eexists. reflexivity. Qed.
Lemma coc_multi r line : cpp_comments G -> comment_or_chars G slash (star :: r) line =
  let '(r3, line') := read_multi [star; slash] r line in Sk true [] 0 r3 line'.
Proof. intros (A & B & C). unfold comment_or_chars. rewrite A, B, C. reflexivity. Qed.

(** Where the scan of a word stops: the rest, the terminal, the separator, the line. *)
Inductive stops : list Z -> Z -> list Z -> Z -> Z -> Z -> Prop :=
| StEnd line : stops [] line [] 0 0 line
| StSep c r line : is_sep G c -> stops (c :: r) line r 0 c line
| StTerm c r line : is_term G c -> ~ is_sep G c -> stops (c :: r) line r c 0 line
| StOne b r line : cpp_comments G -> stops (slash :: slash :: b :: r) line (read_one_line r) 0 nl line
| StOneEof line : cpp_comments G -> stops [slash; slash] line [] 0 0 line
| StMulti r r' line line' : cpp_comments G -> read_multi [star; slash] r line = (r', line') ->
    stops (slash :: star :: r) line r' 0 0 line'.

Lemma ends_stops r line : ends G r -> exists r' t sep line', stops r line r' t sep line'.
Proof.
  intros [-> | [(C & d & t' & -> & [-> | ->]) | (c & r' & -> & [H | H])]].
  - eexists _, _, _, _. constructor.
  - destruct t' as [|b r]; eexists _, _, _, _; constructor; assumption.
  - destruct (read_multi [star; slash] t' line) as [r' l'] eqn:E. eexists _, _, _, _. eapply StMulti; eassumption.
  - eexists _, _, _, _. apply StSep. exact H.
  - eexists _, _, _, _. apply StTerm; [exact H|]. intros S. destruct SG as (_ & _ & _ & D). exact (D c S H).
Qed.

(** ** The scan *)
Definition cont (f : nat) (s : scan) (c : Z) : scan :=
  match next_char G s c with (Some d, s2) => scan_loop f G d s2 | (None, s2) => s2 end.
(** What is ahead of the scan. *)
Definition ahead (s : scan) (t : list Z) : Prop :=
  (c_buf s = [] /\ c_rest s = t) \/
  (exists d r, c_buf s = [d] /\ c_rest s = r /\ t = d :: r /\ cpp_comments G /\ d <> slash /\ d <> star).

Lemma next_word_char s c t : ahead s (c :: t) -> word_char G c t -> c_quoted s = false -> c_sep s = 0 -> forall c0,
  exists s2, next_char G s c0 = (Some c, s2) /\ ahead s2 t /\ c_str s2 = c_str s /\ c_quoted s2 = false /\ c_esc s2 = c_esc s /\
    c_term s2 = c_term s /\ c_sep s2 = 0 /\ c_line s2 = c_line s + newlines [c0] /\ c_added s2 = c_added s.
Proof.
  intros A (N0 & Ns & Nc & Sl) Q P c0. unfold next_char. rewrite newlines_one.
  destruct A as [[B R] | (d & r & B & R & E & Cc & D1 & D2)]; rewrite B, R.
  - rewrite Q. unfold skip_comment. rewrite search_no by assumption.
    destruct G_com as [Cc|Cc].
    + destruct (Z.eq_dec c slash) as [->|Nsl].
      * destruct t as [|d t]; [destruct (Sl Cc eq_refl eq_refl)|].
        assert (d <> slash /\ d <> star) as [D1 D2].
        { split; intros ->; apply Nc; (split; [exact Cc|]); eexists _, _; split; try reflexivity; auto. }
        rewrite coc_slash by assumption. cbn [s_ok s_buf s_rest s_sep s_line]. eexists. split; [reflexivity|].
        cbn [c_str c_quoted c_esc c_term c_sep c_line c_added]. split; [|try rewrite Q; auto 10].
        right. exists d, t. cbn [c_buf c_rest]. auto 10.
      * rewrite coc_plain by auto. cbn [s_ok s_buf s_rest s_sep s_line]. eexists. split; [reflexivity|].
        cbn [c_str c_quoted c_esc c_term c_sep c_line c_added]. split; [|try rewrite Q; auto 10]. left. auto.
    + rewrite coc_plain by (intros (X & _); destruct Cc as (Y & _); congruence).
      cbn [s_ok s_buf s_rest s_sep s_line]. eexists. split; [reflexivity|].
      cbn [c_str c_quoted c_esc c_term c_sep c_line c_added]. split; [|try rewrite Q; auto 10]. left. auto.
  - injection E as <- <-. eexists. split; [reflexivity|].
    cbn [c_str c_quoted c_esc c_term c_sep c_line c_added]. split; [left; auto|]. rewrite ?Q, ?P. auto 10.
Qed.

(** The end of a word. *)
Lemma cont_ends s r c0 r' t sep line' f : ahead s r -> c_str s <> [] -> c_quoted s = false -> c_esc s = false -> c_term s = 0 -> c_sep s = 0 ->
  stops r (c_line s + newlines [c0]) r' t sep line' -> (List.length r <= f)%nat ->
  cont f s c0 = Sc r' [] (c_str s) false false t sep line' (c_added s).
Proof.
  intros A Ns Q Ec Tm P St F. unfold cont, next_char. rewrite newlines_one.
  set (l1 := c_line s + newlines [c0]) in *. destruct (c_str s) as [|s1 ss] eqn:Estr; [congruence|].
  destruct A as [[B R] | (d & rr & B & R & E & Cc & D1 & D2)]; rewrite B, R, Q.
  - destruct St as [line|c r line H|c r line H H2|b r line H|line H|r r' line line' H Hm]; unfold skip_comment.
    + cbn [s_ok s_buf s_rest s_sep s_line]. rewrite Ec, Tm. reflexivity.
    + rewrite search_yes by assumption. cbn [s_ok s_buf s_rest s_sep s_line]. rewrite Ec, Tm. reflexivity.
    + destruct (G_special c (or_intror H)) as (X1 & X2 & X3 & X4). destruct f as [|f]; [cbn in F; lia|].
      rewrite search_no by assumption. rewrite coc_plain by auto. cbn [s_ok s_buf s_rest s_sep s_line].
      cbn [scan_loop c_quoted c_esc c_buf c_rest c_str c_sep c_line c_added c_term]. rewrite Ec.
      rewrite search_no by assumption. cbn [andb]. rewrite search_yes by assumption. cbn [andb negb]. reflexivity.
    + rewrite search_no; [|discriminate|intros S; destruct (G_special _ (or_introl S)) as (_ & _ & _ & X); congruence].
      rewrite coc_one by assumption. cbn [s_ok s_buf s_rest s_sep s_line]. rewrite Ec, Tm. reflexivity.
    + rewrite search_no; [|discriminate|intros S; destruct (G_special _ (or_introl S)) as (_ & _ & _ & X); congruence].
      destruct (coc_one_eof line H) as (b & ->). cbn [s_ok s_buf s_rest s_sep s_line]. rewrite Ec, Tm. reflexivity.
    + rewrite search_no; [|discriminate|intros S; destruct (G_special _ (or_introl S)) as (_ & _ & _ & X); congruence].
      rewrite coc_multi by assumption. rewrite Hm. cbn [s_ok s_buf s_rest s_sep s_line]. rewrite Ec, Tm. reflexivity.
  - subst r. destruct f as [|f]; [cbn in F; lia|]. inversion St; subst; try congruence.
    + cbn [scan_loop c_quoted c_esc c_buf c_rest c_str c_sep c_line c_added c_term]. rewrite Ec.
      rewrite search_yes by assumption. cbn [andb negb]. rewrite Tm. reflexivity.
    + match goal with H : is_term G ?d |- _ => destruct (G_special d (or_intror H)) as (X1 & X2 & X3 & X4) end.
      cbn [scan_loop c_quoted c_esc c_buf c_rest c_str c_sep c_line c_added c_term]. rewrite Ec.
      rewrite search_no by assumption. cbn [andb]. rewrite search_yes by assumption. cbn [andb negb]. rewrite P. reflexivity.
Qed.

Lemma escape_resolve c : let '(known, c') := escape_char c in
  (if known then [] else [backslash]) ++ [c'] = resolve c /\ newlines [c'] = newlines (resolve c).
Proof.
  unfold escape_char, resolve. change (c =? 34) with (c =? quote). change (c =? 92) with (c =? backslash).
  destruct (Z.eqb_spec c 110) as [->|]; [split; reflexivity|]. destruct (Z.eqb_spec c 116) as [->|]; [split; reflexivity|].
  destruct (Z.eqb_spec c 114) as [->|]; [split; reflexivity|]. destruct (Z.eqb_spec c quote) as [->|]; [split; reflexivity|].
  destruct (Z.eqb_spec c backslash) as [->|]; [split; reflexivity|]. cbn [orb app].
  split; [reflexivity|]. rewrite (newlines_cons backslash [c]). cbn. lia.
Qed.

(** The scan of a word, after one of its characters. *)
Lemma cont_word : forall t w r, word G t w r -> forall f s c0 r' tm sep line',
  ahead s t -> (List.length t <= f)%nat -> c_quoted s = false -> c_esc s = false -> c_term s = 0 -> c_sep s = 0 ->
  c_str s <> [] -> stops r (c_line s + newlines [c0] + newlines w) r' tm sep line' ->
  cont f s c0 = Sc r' [] (c_str s ++ w) false false tm sep line' (c_added s).
Proof.
  intros t w r W. induction W as [r E|c t w r Nb Nt Wc W IH|c t w r Wc W IH]; intros f s c0 r' tm sep line' A F Q Ec Tm P Ns St.
  - rewrite app_nil_r. rewrite newlines_nil, Z.add_0_r in St. eapply cont_ends; eassumption.
  - destruct (next_word_char s c t A Wc Q P c0) as (s2 & N & A2 & E1 & E2 & E3 & E4 & E5 & E6 & E7).
    unfold cont. rewrite N. destruct f as [|f]; [cbn in F; lia|].
    destruct Wc as (W0 & Wn & _ & _).
    cbn [scan_loop]. rewrite E2, E3, Ec. rewrite search_no by assumption. cbn [andb].
    rewrite search_no by assumption. cbn [andb]. rewrite (proj2 (Z.eqb_neq _ _) Nb).
    rewrite E1. destruct (c_str s) as [|s1 ss] eqn:Es; [congruence|].
    set (s3 := Sc _ _ _ _ _ _ _ _ _).
    change (match next_char G s3 c with (Some d, s9) => scan_loop f G d s9 | (None, s9) => s9 end) with (cont f s3 c).
    rewrite (IH f s3 c r' tm sep line').
    + unfold s3. cbn [c_str c_added]. rewrite <- app_assoc. rewrite E7. reflexivity.
    + unfold s3, ahead in *. cbn [c_buf c_rest]. exact A2.
    + cbn [List.length] in F. lia.
    + reflexivity.
    + reflexivity.
    + unfold s3. cbn [c_term]. congruence.
    + unfold s3. cbn [c_sep]. exact E5.
    + unfold s3. cbn [c_str]. intros X. apply app_eq_nil in X as [_ X]. discriminate X.
    + unfold s3. cbn [c_line]. rewrite E6. rewrite (newlines_cons c w) in St. rewrite Z.add_assoc in St. exact St.
  - assert (Wb : word_char G backslash (c :: t)).
    { split; [discriminate|]. split; [intros S; destruct (G_special _ (or_introl S)) as (_ & _ & X & _); congruence|].
      split; [intros (_ & d & t' & X & _); discriminate X|]. intros _ X. discriminate X. }
    destruct (next_word_char s backslash (c :: t) A Wb Q P c0) as (s2 & N & A2 & E1 & E2 & E3 & E4 & E5 & E6 & E7).
    unfold cont. rewrite N. destruct f as [|f]; [cbn in F; lia|].
    destruct Wb as (W0 & Wn & _ & _).
    cbn [scan_loop]. rewrite E2, E3, Ec. rewrite search_no by assumption. cbn [andb].
    rewrite search_no; [|assumption|intros S; destruct (G_special _ (or_intror S)) as (_ & _ & X & _); congruence]. cbn [andb].
    rewrite Z.eqb_refl. rewrite E1. destruct (c_str s) as [|s1 ss] eqn:Es; [congruence|].
    set (s3 := Sc _ _ _ _ _ _ _ _ _).
    assert (A3 : ahead s3 (c :: t)) by (unfold s3, ahead in *; cbn [c_buf c_rest]; exact A2).
    destruct (next_word_char s3 c t A3 Wc eq_refl E5 backslash) as (s4 & N4 & A4 & F1 & F2 & F3 & F4 & F5 & F6 & F7).
    rewrite N4. destruct f as [|f]; [cbn in F; lia|]. cbn [scan_loop].
    assert (Ee : c_esc s4 = true) by (rewrite F3; reflexivity). rewrite Ee. cbn [negb]. rewrite !andb_false_r.
    pose proof (escape_resolve c) as Er. destruct (escape_char c) as [known c'].
    destruct Er as [Er1 Er2].
    set (s5 := Sc _ _ _ _ _ _ _ _ _).
    change (match next_char G s5 c' with (Some d, s6) => scan_loop f G d s6 | (None, s6) => s6 end) with (cont f s5 c').
    rewrite (IH f s5 c' r' tm sep line').
    + unfold s5. cbn [c_str c_added]. rewrite Er1, F1, F7. unfold s3. cbn [c_str c_added]. rewrite E7, <- app_assoc. reflexivity.
    + unfold s5, ahead in *. cbn [c_buf c_rest]. exact A4.
    + cbn [List.length] in F. lia.
    + unfold s5. cbn [c_quoted]. exact F2.
    + reflexivity.
    + unfold s5. cbn [c_term]. rewrite F4. unfold s3. cbn [c_term]. congruence.
    + unfold s5. cbn [c_sep]. exact F5.
    + unfold s5. cbn [c_str]. intros X. apply app_eq_nil in X as [_ X]. rewrite Er1 in X.
      unfold resolve in X. repeat (destruct (_ =? _) in X; try discriminate X); destruct (_ || _) in X; discriminate X.
    + unfold s5. cbn [c_line]. rewrite F6. unfold s3. cbn [c_line]. rewrite E6, Er2.
      replace (newlines [backslash]) with 0 by reflexivity. rewrite newlines_app in St.
      replace (c_line s + newlines [c0] + 0 + newlines (resolve c) + newlines w) with (c_line s + newlines [c0] + (newlines (resolve c) + newlines w)) by lia.
      exact St.
Qed.
End Simple.
