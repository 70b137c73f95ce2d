(** The rounds of the lexical analyser. *)
From Verif Require Import Base Lex_Model Lex_Spec Lex_Proofs.
Open Scope Z_scope.
Open Scope list_scope.

Lemma digit_first_spec w : digit_first w = true <->
  digit_at 0 w \/ (exists s, hd_error w = Some s /\ (s = 43 \/ s = 45)) /\ digit_at 1 w.
Proof.
  unfold digit_first, digit_at. destruct w as [|c w].
  - split; [discriminate|]. intros [(d & E & _)|[(s & E & _) _]]; discriminate.
  - cbn [nth_error hd_error]. destruct ((c =? 43) || (c =? 45)) eqn:E.
    + assert (S : c = 43 \/ c = 45) by (apply orb_true_iff in E as [E|E]; apply Z.eqb_eq in E; auto).
      destruct w as [|d w].
      * split; [discriminate|]. intros [(d & [= <-] & B)|[_ (d & E1 & _)]]; [lia|discriminate].
      * unfold is_digit. rewrite andb_true_iff. split.
        -- intros H. right. split; [eauto|]. exists d. split; [reflexivity|lia].
        -- intros [(x & [= <-] & B)|[_ (x & [= <-] & B)]]; lia.
    + apply orb_false_iff in E as [E1 E2]. apply Z.eqb_neq in E1, E2. unfold is_digit. rewrite andb_true_iff. split.
      * intros H. left. exists c. split; [reflexivity|lia].
      * intros [(x & [= <-] & B)|[(s & [= <-] & [?|?]) _]]; lia.
Qed.
Lemma strip_last_spec v : no_back v (strip_last v).
Proof.
  unfold strip_last. destruct (rev v) as [|c r] eqn:E.
  - apply (f_equal (@rev Z)) in E. rewrite rev_involutive in E. subst v. apply NBkeep. intros u X.
    destruct u; discriminate X.
  - apply (f_equal (@rev Z)) in E. rewrite rev_involutive in E. cbn [rev] in E. subst v.
    destruct (Z.eqb_spec c quote) as [->|N]; [constructor|]. apply NBkeep. intros u X. apply app_inj_tail in X as [_ X]. congruence.
Qed.
Lemma no_back_fun w v : no_back w v -> v = strip_last w.
Proof.
  intros [u|u N]; unfold strip_last.
  - rewrite rev_app_distr. cbn [rev app]. rewrite Z.eqb_refl. rewrite rev_involutive. reflexivity.
  - destruct (rev u) as [|c r] eqn:E; [reflexivity|]. destruct (Z.eqb_spec c quote) as [->|]; [|reflexivity].
    apply (f_equal (@rev Z)) in E. rewrite rev_involutive in E. cbn [rev] in E. destruct (N _ E).
Qed.
Lemma no_quotes_fun w v : no_quotes w v -> v = strip w.
Proof.
  intros [w' v' H|c w' v' N H]; cbn [strip].
  - rewrite Z.eqb_refl. apply no_back_fun, H.
  - rewrite (proj2 (Z.eqb_neq _ _) N). apply no_back_fun, H.
Qed.
Lemma add_word G w line tok : w <> [] -> word_token G w line tok -> add_token G w false line = [tok].
Proof.
  intros N H. unfold add_token. destruct w as [|c w]; [congruence|]. set (x := c :: w) in *. cbn [negb andb].
  destruct H as [[Hn Hd]|v Hn Hq].
  - apply digit_first_spec in Hd. rewrite Hd, Hn. reflexivity.
  - destruct (digit_first x && isnum G x) eqn:E.
    + destruct Hn. apply andb_true_iff in E as [E1 E2]. split; [exact E2|]. apply digit_first_spec. exact E1.
    + rewrite (no_quotes_fun _ _ Hq). reflexivity.
Qed.
Lemma strip_quoted body : strip (quote :: body ++ [quote]) = body.
Proof. cbn [strip]. rewrite Z.eqb_refl. symmetry. apply no_back_fun. constructor. Qed.

Section Simple.
Variable G : grammar.
Hypothesis SG : simple G.

Lemma slash_not_sep : ~ is_sep G slash.
Proof. intros S. destruct (G_special G SG _ (or_introl S)) as (_ & _ & _ & X). congruence. Qed.
Lemma quote_not_sep : ~ is_sep G quote.
Proof. intros S. destruct (G_special G SG _ (or_introl S)) as (_ & X & _). congruence. Qed.
Lemma quote_not_term : ~ is_term G quote.
Proof. intros S. destruct (G_special G SG _ (or_intror S)) as (_ & X & _). congruence. Qed.
Lemma backslash_not_sep : ~ is_sep G backslash.
Proof. intros S. destruct (G_special G SG _ (or_introl S)) as (_ & _ & X & _). congruence. Qed.
Lemma backslash_not_term : ~ is_term G backslash.
Proof. intros S. destruct (G_special G SG _ (or_intror S)) as (_ & _ & X & _). congruence. Qed.
Lemma backslash_word_char t : word_char G backslash t.
Proof.
  split; [discriminate|]. split; [exact backslash_not_sep|]. split; [intros (_ & d & t' & X & _); discriminate X|].
  intros _ X. discriminate X.
Qed.

(** ** token_start *)
Lemma start_sep f c r line : is_sep G c -> (0 < f)%nat -> token_start f G (c :: r) line = token_start f G r (line + newlines [c]).
Proof.
  intros S F. destruct f as [|f]; [lia|]. cbn [token_start]. unfold skip_comment. cbn [skip_seps].
  rewrite search_yes by assumption. rewrite newlines_one. reflexivity.
Qed.
Lemma start_one f b r line : cpp_comments G -> token_start (S f) G (slash :: slash :: b :: r) line = token_start f G (read_one_line r) (line + 1).
Proof.
  intros C. cbn [token_start]. unfold skip_comment. cbn [skip_seps].
  rewrite search_no; [|discriminate|exact slash_not_sep]. rewrite coc_one by assumption. reflexivity.
Qed.
Lemma start_one_eof f line : cpp_comments G -> exists l, token_start f G [slash; slash] line = (None, l, line) /\ (0 < f -> l = [])%nat.
Proof.
  intros C. destruct f as [|f]; [eexists; split; [reflexivity|lia]|]. cbn [token_start]. unfold skip_comment. cbn [skip_seps].
  rewrite search_no; [|discriminate|exact slash_not_sep]. destruct (coc_one_eof G line C) as (b & ->). eexists; split; reflexivity.
Qed.
Lemma start_multi f body r line : cpp_comments G -> (forall u v, body ++ [star] <> u ++ star :: slash :: v) ->
  token_start (S f) G (slash :: star :: body ++ star :: slash :: r) line = token_start f G r (line + newlines body).
Proof.
  intros C N. cbn [token_start]. unfold skip_comment. cbn [skip_seps].
  rewrite search_no; [|discriminate|exact slash_not_sep]. rewrite coc_multi by assumption. rewrite read_multi_body by assumption. reflexivity.
Qed.
Lemma start_char f c t line : word_char G c t -> (0 < f)%nat -> exists b r,
  token_start f G (c :: t) line = (Some (c, b), r, line) /\ t = b ++ r /\
  forall str q e tm sp l ad, ahead G (Sc r b str q e tm sp l ad) t.
Proof.
  intros (N0 & Ns & Nc & Sl) F. destruct f as [|f]; [lia|]. cbn [token_start]. unfold skip_comment. cbn [skip_seps].
  rewrite search_no by assumption. destruct (G_com G SG) as [Cc|Cc].
  - destruct (Z.eq_dec c slash) as [->|Nsl].
    + destruct t as [|d t]; [destruct (Sl Cc eq_refl eq_refl)|].
      assert (d <> slash /\ d <> star) as [D1 D2].
      { split; intros ->; apply Nc; (split; [exact Cc|]); eexists _, _; split; try reflexivity; auto. }
      rewrite coc_slash by assumption. cbn [s_ok s_buf s_rest s_sep s_line]. exists [d], t. split; [reflexivity|]. split; [reflexivity|].
      intros. right. exists d, t. cbn [c_buf c_rest]. auto 10.
    + rewrite coc_plain by auto. exists [], t. split; [reflexivity|]. split; [reflexivity|]. intros. left. auto.
  - rewrite (coc_plain G SG) by (intros (X & _); destruct Cc as (Y & _); congruence).
    exists [], t. split; [reflexivity|]. split; [reflexivity|]. intros. left. auto.
Qed.
Lemma start_term f c r line : is_term G c -> (0 < f)%nat -> token_start f G (c :: r) line = (Some (c, []), r, line).
Proof.
  intros T F. destruct (G_special G SG c (or_intror T)) as (X1 & X2 & X3 & X4). destruct f as [|f]; [lia|].
  cbn [token_start]. unfold skip_comment. cbn [skip_seps].
  rewrite search_no; [|assumption|intros S; destruct SG as (_ & _ & _ & D); exact (D c S T)].
  rewrite (coc_plain G SG) by auto. reflexivity.
Qed.
Lemma start_quote f r line : (0 < f)%nat -> token_start f G (quote :: r) line = (Some (quote, []), r, line).
Proof.
  intros F. destruct f as [|f]; [lia|]. cbn [token_start]. unfold skip_comment. cbn [skip_seps].
  rewrite search_no; [|discriminate|exact quote_not_sep]. rewrite (coc_plain G SG) by discriminate. reflexivity.
Qed.

(** ** The scan of a whole word or string *)
Lemma scan_word c t w r f s r' tm sep line' :
  word G (c :: t) w r -> w <> [] -> c <> quote -> ahead G s t -> (S (List.length t) <= f)%nat ->
  c_str s = [] -> c_quoted s = false -> c_esc s = false -> c_term s = 0 -> c_sep s = 0 ->
  stops G r (c_line s + newlines w) r' tm sep line' ->
  scan_loop f G c s = Sc r' [] w false false tm sep line' (c_added s).
Proof.
  intros W Nw Nq A F Es Q Ec Tm P St. destruct f as [|f]; [lia|].
  inversion W as [r0 E|c' t' w' r0 Nb Nt Wc W'|c' t' w' r0 Wc W']; subst; [congruence| |].
  - destruct Wc as (W0 & Wn & _ & _). cbn [scan_loop]. rewrite Q, Ec, Es.
    rewrite search_no by assumption. cbn [andb]. rewrite search_no by assumption. cbn [andb].
    rewrite (proj2 (Z.eqb_neq _ _) Nb). rewrite (proj2 (Z.eqb_neq _ _) Nq). cbn [orb app].
    set (s3 := Sc _ _ _ _ _ _ _ _ _).
    change (match next_char G s3 c with (Some d, s9) => scan_loop f G d s9 | (None, s9) => s9 end) with (cont G f s3 c).
    rewrite (cont_word G SG t w' r W' f s3 c r' tm sep line'); try reflexivity; try assumption; try discriminate; try lia.
    unfold s3. cbn [c_line]. rewrite (newlines_cons c w') in St. rewrite Z.add_assoc in St. exact St.
  - cbn [scan_loop]. rewrite Q, Ec, Es.
    rewrite search_no; [|discriminate|exact backslash_not_sep]. cbn [andb].
    rewrite search_no; [|discriminate|exact backslash_not_term]. cbn [andb]. rewrite Z.eqb_refl.
    change (backslash =? quote) with false. cbn [orb].
    set (s3 := Sc _ _ _ _ _ _ _ _ _).
    assert (A3 : ahead G s3 (c' :: t')) by (unfold s3, ahead in *; cbn [c_buf c_rest]; exact A).
    destruct (next_word_char G SG s3 c' t' A3 Wc eq_refl P backslash) as (s4 & N4 & A4 & F1 & F2 & F3 & F4 & F5 & F6 & F7).
    rewrite N4. destruct f as [|f]; [cbn in F; lia|]. cbn [scan_loop].
    assert (Ee : c_esc s4 = true) by (rewrite F3; reflexivity). rewrite Ee. cbn [negb]. rewrite !andb_false_r.
    pose proof (escape_resolve c') as Er. destruct (escape_char c') as [known cc].
    destruct Er as [Er1 Er2].
    set (s5 := Sc _ _ _ _ _ _ _ _ _).
    change (match next_char G s5 cc with (Some d, s9) => scan_loop f G d s9 | (None, s9) => s9 end) with (cont G f s5 cc).
    assert (S5 : c_str s5 = resolve c') by (unfold s5; cbn [c_str]; rewrite Er1, F1; reflexivity).
    rewrite (cont_word G SG t' w' r W' f s5 cc r' tm sep line').
    + rewrite S5. unfold s5. cbn [c_added]. rewrite F7. reflexivity.
    + unfold s5, ahead in *. cbn [c_buf c_rest]. exact A4.
    + cbn [List.length] in F. lia.
    + unfold s5. cbn [c_quoted]. exact F2.
    + reflexivity.
    + unfold s5. cbn [c_term]. rewrite F4. exact Tm.
    + unfold s5. cbn [c_sep]. exact F5.
    + rewrite S5. unfold resolve. repeat (destruct (_ =? _); try discriminate).
    + unfold s5. cbn [c_line]. rewrite F6. unfold s3. cbn [c_line]. rewrite Er2.
      change (newlines [backslash]) with 0. rewrite newlines_app in St.
      replace (c_line s + 0 + newlines (resolve c') + newlines w') with (c_line s + (newlines (resolve c') + newlines w')) by lia.
      exact St.
Qed.

Lemma cont_quoted : forall src body, quoted src body -> forall f s c0 r,
  c_buf s = [] -> c_rest s = src ++ quote :: r -> (S (List.length src) <= f)%nat -> c_quoted s = true -> c_esc s = false ->
  c_str s <> [] ->
  cont G f s c0 = Sc r [] (c_str s ++ body ++ [quote]) true false (c_term s) quote (c_line s + newlines [c0] + newlines body) (c_added s).
Proof.
  intros src body H. induction H as [|c s0 b N0 Nq Nb H IH|c s0 b N0 H IH]; intros f s c0 r B R F Q Ec Ns; unfold cont, next_char; rewrite newlines_one, B, Q, R; cbn [app].
  - destruct f as [|f]; [lia|]. cbn [scan_loop c_quoted c_esc c_rest c_buf c_str c_term c_line c_added c_sep]. rewrite Ec.
    rewrite search_yes by (left; reflexivity). cbn [andb negb]. rewrite newlines_nil, Z.add_0_r. reflexivity.
  - destruct f as [|f]; [cbn in F; lia|]. cbn [scan_loop c_quoted c_esc c_rest c_buf c_str c_term c_line c_added c_sep]. rewrite Ec.
    rewrite search_no; [|assumption|intros [X|[]]; congruence]. cbn [andb].
    rewrite (proj2 (Z.eqb_neq _ _) Nb). destruct (c_str s) as [|s1 ss] eqn:Es; [congruence|].
    set (s3 := Sc _ _ _ _ _ _ _ _ _).
    change (match next_char G s3 c with (Some d, s9) => scan_loop f G d s9 | (None, s9) => s9 end) with (cont G f s3 c).
    rewrite (IH f s3 c r); try reflexivity; try (unfold s3; cbn [c_str c_line c_term c_added]).
    + rewrite <- app_assoc. cbn [app]. f_equal. rewrite (newlines_cons c b). lia.
    + cbn [List.length] in F. lia.
    + intros X. apply app_eq_nil in X as [_ X]. discriminate X.
  - destruct f as [|[|f]]; [cbn in F; lia|cbn in F; lia|].
    remember (S f) as f1. cbn [scan_loop c_quoted c_esc c_rest c_buf c_str c_term c_line c_added c_sep]. rewrite Ec.
    rewrite search_no; [|discriminate|intros [X|[]]; discriminate X]. cbn [andb].
    rewrite Z.eqb_refl. destruct (c_str s) as [|s1 ss] eqn:Es; [congruence|].
    unfold next_char. cbn [c_quoted c_esc c_rest c_buf c_str c_term c_line c_added c_sep]. rewrite newlines_one. subst f1.
    cbn [scan_loop c_quoted c_esc c_rest c_buf c_str c_term c_line c_added c_sep negb]. rewrite !andb_false_r.
    pose proof (escape_resolve c) as Er. destruct (escape_char c) as [known cc]. destruct Er as [Er1 Er2]. rewrite Er1.
    set (s5 := Sc _ _ _ _ _ _ _ _ _).
    change (match next_char G s5 cc with (Some d, s9) => scan_loop f G d s9 | (None, s9) => s9 end) with (cont G f s5 cc).
    rewrite (IH f s5 cc r); try reflexivity; try (unfold s5; cbn [c_str c_line c_term c_added]).
    + rewrite <- !app_assoc. f_equal. change (newlines [backslash]) with 0. rewrite Er2, newlines_app. lia.
    + cbn [List.length] in F. lia.
    + intros X. apply app_eq_nil in X as [X _]. discriminate X.
Qed.
Lemma scan_quoted src body f r line ad : quoted src body -> (S (S (List.length src)) <= f)%nat ->
  scan_loop f G quote (Sc (src ++ quote :: r) [] [] false false 0 0 line ad) =
  Sc r [] (quote :: body ++ [quote]) true false 0 quote (line + newlines body) ad.
Proof.
  intros H F. destruct f as [|f]; [lia|]. cbn [scan_loop c_quoted c_esc c_rest c_buf c_str c_term c_line c_added c_sep].
  rewrite search_no; [|discriminate|exact quote_not_sep]. cbn [andb].
  rewrite search_no; [|discriminate|exact quote_not_term]. cbn [andb].
  change (quote =? backslash) with false. rewrite Z.eqb_refl. cbn [orb app].
  set (s3 := Sc _ _ _ _ _ _ _ _ _).
  change (match next_char G s3 quote with (Some d, s9) => scan_loop f G d s9 | (None, s9) => s9 end) with (cont G f s3 quote).
  rewrite (cont_quoted src body H f s3 quote r); try reflexivity; try lia; try discriminate.
  unfold s3. cbn [c_str c_line c_term c_added app]. change (newlines [quote]) with 0. rewrite Z.add_0_r. reflexivity.
Qed.
End Simple.
