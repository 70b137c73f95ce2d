(** C36: lexical analysis. *)
From Coq Require Import String Ascii.
From Verif Require Import Base Lex_Model Lex_Spec Lex_Proofs Lex_Proofs2 Lex_Proofs3.
Open Scope string_scope.
Open Scope Z_scope.
Open Scope list_scope.

(** A text made of separators, comments, terminals, quoted strings and words is returned as its tokens, in order, with
    their lines, by any sequence of GetToken and PeekToken(0); afterwards only end-of-file tokens are returned. *)
Theorem C36_tokens_of_the_text_in_order_partial : forall G text toks ops,
  simple G -> lexes G 1 text toks -> exists ans, calls G ops (lexer_of text) = Some ans /\ answers ops toks ans.
Proof. intros G text toks ops S L. exact (lexer_answers G S text toks ops L). Qed.
Print Assumptions C36_tokens_of_the_text_in_order_partial.

(** Every text without NUL, quotes, backslashes and slashes is such a text. *)
Definition plain_text (text : list Z) : Prop := forall c, In c text -> c <> 0 /\ c <> quote /\ c <> backslash /\ c <> slash.

Lemma in_dec_Z (c : Z) l : {In c l} + {~ In c l}. Proof. apply in_dec, Z.eq_dec. Qed.
Lemma no_back_total w : exists v, no_back w v.
Proof. eexists. apply strip_last_spec. Qed.
Lemma no_quotes_total w : w <> [] -> exists v, no_quotes w v.
Proof.
  intros N. destruct w as [|c w]; [congruence|]. destruct (Z.eq_dec c quote) as [->|Nq].
  - destruct (no_back_total w) as (v & H). exists v. constructor. exact H.
  - destruct (no_back_total (c :: w)) as (v & H). exists v. apply NQkeep; assumption.
Qed.
Lemma word_token_total G w line : w <> [] -> exists tok, word_token G w line tok.
Proof.
  intros N. destruct (isnum G w) eqn:E1; [destruct (digit_first w) eqn:E2|].
  - eexists. apply WTnum. split; [exact E1|]. apply digit_first_spec. exact E2.
  - destruct (no_quotes_total w N) as (v & H). eexists. eapply WTstr; [|exact H]. intros [_ X]. apply digit_first_spec in X. congruence.
  - destruct (no_quotes_total w N) as (v & H). eexists. eapply WTstr; [|exact H]. intros [X _]. congruence.
Qed.
Lemma word_total G t : plain_text t -> exists w r, word G t w r /\ t = w ++ r.
Proof.
  induction t as [|c t IH]; intros P.
  - exists [], []. split; [constructor; left; reflexivity|reflexivity].
  - destruct (in_dec_Z c (separators G)) as [S|NS]; [|destruct (in_dec_Z c (terminals G)) as [T|NT]].
    + exists [], (c :: t). split; [|reflexivity]. constructor. right. right. exists c, t. split; [reflexivity|]. left. exact S.
    + exists [], (c :: t). split; [|reflexivity]. constructor. right. right. exists c, t. split; [reflexivity|]. right. exact T.
    + destruct IH as (w & r & W & ->); [intros x Hx; apply P; right; exact Hx|].
      destruct (P c (or_introl eq_refl)) as (P1 & P2 & P3 & P4).
      exists (c :: w), r. split; [|reflexivity]. apply WPlain; try assumption. split; [exact P1|]. split; [exact NS|].
      split; [intros (_ & d & t' & [= E _] & _); congruence|]. intros _ E. congruence.
Qed.
Theorem C36_plain_texts_have_tokens : forall G line text, simple G -> plain_text text -> exists toks, lexes G line text toks.
Proof.
  intros G line text SG. remember (List.length text) as n eqn:En. revert line text En.
  induction n as [n IH] using lt_wf_ind. intros line text -> P. destruct text as [|c t]; [exists []; constructor|].
  assert (Pt : plain_text t) by (intros x Hx; apply P; right; exact Hx).
  destruct (in_dec_Z c (separators G)) as [S|NS]; [|destruct (in_dec_Z c (terminals G)) as [T|NT]].
  - destruct (IH (List.length t) ltac:(cbn; lia) (line + newlines [c]) t eq_refl Pt) as (toks & L). exists toks. apply LSep; assumption.
  - destruct (IH (List.length t) ltac:(cbn; lia) line t eq_refl Pt) as (toks & L). eexists. apply LTerminal; eassumption.
  - destruct (P c (or_introl eq_refl)) as (P1 & P2 & P3 & P4).
    destruct (word_total G t Pt) as (w & r & W & E).
    assert (W' : word G (c :: t) (c :: w) r).
    { apply WPlain; try assumption. split; [exact P1|]. split; [exact NS|].
      split; [intros (_ & d & t' & [= X _] & _); congruence|]. intros _ X. congruence. }
    assert (Pr : plain_text r) by (intros x Hx; apply Pt; rewrite E; apply in_or_app; right; exact Hx).
    destruct (IH (List.length r)) with (line := line + newlines (c :: w)) (text := r) as (toks & L); try reflexivity; try assumption.
    { rewrite E. cbn [List.length]. rewrite app_length. lia. }
    assert (Gl : glued r 0).
    { right. split; [|reflexivity]. intros s Es. subst r. destruct (Pr slash (or_introl eq_refl)) as (_ & _ & _ & X). congruence. }
    destruct (word_token_total G (c :: w) (line + newlines (c :: w) + 0) ltac:(discriminate)) as (tok & Wt).
    exists (tok :: toks). eapply LWord; try eassumption; [discriminate|]. intros s [= X _]. congruence.
Qed.
Print Assumptions C36_plain_texts_have_tokens.

(** ** Examples *)
Definition chars (s : string) : list Z := map (fun a => Z.of_N (N_of_ascii a)) (list_ascii_of_string s).
Definition newline : string := String (ascii_of_N 10) EmptyString.
Definition qt : string := String (ascii_of_N 34) EmptyString.
(** GrammarInfo.h:137, 143, 149, 160. *)
Definition seps : list Z := [10; 13; 9; 44; 32].
Definition some_num (w : list Z) : bool := forallb (fun c => (48 <=? c) && (c <=? 57) || (c =? 46) || (c =? 43) || (c =? 45)) w.
Definition standard : grammar := Gr (chars "={}{}{}()|") seps (chars "//") (chars "/*") (chars "*/") [] some_num.
Definition json : grammar := Gr (chars ":{}[][]") seps [] [] [] [] some_num.
Definition xml : grammar := Gr (chars "<>{}/()<>") seps [] (chars "<!--") (chars "-->") [] some_num.
Definition math : grammar :=
  Gr (chars "+-*/=()()!,;") [10; 13; 9; 32] (chars "//") (chars "/*") (chars "*/") (chars "|| && ^ < > <= >= == !=") some_num.

Lemma standard_simple : simple standard.
Proof.
  split; [reflexivity|]. split; [left; repeat split|]. split.
  - intros c [H|H]; vm_compute in H; repeat (destruct H as [<-|H]; [repeat split; discriminate|]); destruct H.
  - intros c H1 H2. vm_compute in H1, H2. repeat (destruct H1 as [<-|H1]; [intuition discriminate|]). destruct H1.
Qed.
Lemma json_simple : simple json.
Proof.
  split; [reflexivity|]. split; [right; repeat split|]. split.
  - intros c [H|H]; vm_compute in H; repeat (destruct H as [<-|H]; [repeat split; discriminate|]); destruct H.
  - intros c H1 H2. vm_compute in H1, H2. repeat (destruct H1 as [<-|H1]; [intuition discriminate|]). destruct H1.
Qed.

(** The first [n] tokens: kind, text and line. *)
Definition first_tokens (G : grammar) (n : nat) (text : string) : option (list (kind * list Z * Z)) :=
  match calls G (repeat Get n) (lexer_of (chars text)) with
  | Some l => Some (map (fun t => (t_kind t, t_data t, t_line t)) l)
  | None => None
  end.
Definition sample : string :=
  ("+A = { // first" ++ newline ++ "x=-12 /* a" ++ newline ++ "b */ s=" ++ qt ++ "u v\" ++ qt ++ "w" ++ qt ++ "}")%string.
Example C36_example_run :
  first_tokens standard 12 sample =
  Some [(STRING, chars "+A", 1); (TERMINAL, chars "=", 1); (TERMINAL, chars "{", 1);
        (STRING, chars "x", 2); (TERMINAL, chars "=", 2); (NUMBER, chars "-12", 2);
        (STRING, chars "s", 3); (TERMINAL, chars "=", 3); (STRING, chars "u v" ++ [34] ++ chars "w", 3);
        (TERMINAL, chars "}", 3); (EOF, [], 3); (EOF, [], 3)].
Proof. vm_compute. reflexivity. Qed.

(** The same text meets the specification. *)
Ltac sep := apply LSep; [vm_compute; tauto|].
Ltac plainc := apply WPlain; [discriminate|vm_compute; intuition discriminate|
  split; [discriminate|split; [vm_compute; intuition discriminate|split; [intros (_ & d & t' & [= ] & _)|intros _ X; discriminate X]]]|].
Ltac wend := apply WEnd; vm_compute; right; right; eexists _, _; split; [reflexivity|]; intuition.
Example C36_example :
  exists toks, lexes standard 1 (chars (("ab = { // c" ++ newline ++ "7 /* d */ " ++ qt ++ "u\n" ++ qt ++ "}")%string)) toks /\
    map t_kind toks = [STRING; TERMINAL; TERMINAL; NUMBER; STRING; TERMINAL] /\
    map t_data toks = [chars "ab"; chars "="; chars "{"; chars "7"; chars "u" ++ [10]; chars "}"].
Proof.
  eexists. split; [|split].
  - vm_compute chars. eapply (LWord standard 1 _ [97; 98] [32; 61; 32; 123; 32; 47; 47; 32; 99; 10; 55; 32; 47; 42; 32; 100; 32; 42; 47; 32; 34; 117; 92; 110; 34; 125] 0).
    + discriminate. + discriminate. + plainc. plainc. wend.
    + right. split; [discriminate|reflexivity].
    + eapply WTstr; [intros [X _]; discriminate X|]. apply NQkeep; [discriminate|]. apply NBkeep.
      intros u X. destruct u as [|? [|? [|? ?]]]; discriminate X.
    + sep. apply LTerminal; [vm_compute; tauto|]. sep. apply LTerminal; [vm_compute; tauto|]. sep.
      apply (LOneLine standard _ [32; 99]); [repeat split|discriminate|vm_compute; intuition discriminate|].
      eapply (LWord standard _ _ [55] [32; 47; 42; 32; 100; 32; 42; 47; 32; 34; 117; 92; 110; 34; 125] 0).
      * discriminate. * discriminate. * plainc. wend.
      * right. split; [discriminate|reflexivity].
      * apply WTnum. split; [reflexivity|]. left. exists 55. split; [reflexivity|lia].
      * sep. apply (LMulti standard _ [32; 100; 32]); [repeat split| |].
        { intros u v X. destruct u as [|? [|? [|? [|? [|? [|? u]]]]]]; discriminate X. }
        sep. apply (LQuoted standard _ [117; 92; 110] [117; 10]).
        { apply QPlain; try discriminate. apply (QEsc 110 [] []); [discriminate|constructor]. }
        apply LTerminal; [vm_compute; tauto|]. constructor.
  - reflexivity.
  - reflexivity.
Qed.

(** ** What is false *)
(** A one line comment with an empty text swallows the next line. *)
Theorem C36_empty_comment_swallows_the_next_line_refuted :
  first_tokens standard 3 ("a //" ++ newline ++ "b" ++ newline ++ "c")%string =
  Some [(STRING, chars "a", 1); (STRING, chars "c", 2); (EOF, [], 2)].
Proof. vm_compute. reflexivity. Qed.
Print Assumptions C36_empty_comment_swallows_the_next_line_refuted.

(** PeekToken(1) puts a false end of file between the tokens. *)
Theorem C36_peek_ahead_inserts_end_of_file_refuted :
  exists t x, peek_token standard 1 (lexer_of (chars "a b")) = (Some t, x) /\ t_kind t = EOF /\
    match calls standard [Get; Get; Get] x with
    | Some l => map t_data l = [chars "a"; []; chars "b"] /\ map t_kind l = [STRING; EOF; STRING]
    | None => False
    end.
Proof. eexists _, _. split; [vm_compute; reflexivity|]. vm_compute. auto. Qed.
Print Assumptions C36_peek_ahead_inserts_end_of_file_refuted.

(** A slash at the end of the text is lost. *)
Theorem C36_trailing_slash_lost_refuted :
  first_tokens standard 2 "a/" = Some [(STRING, chars "a", 1); (EOF, [], 1)].
Proof. vm_compute. reflexivity. Qed.
Print Assumptions C36_trailing_slash_lost_refuted.

(** A backslash before a separator gives a false end of file. *)
Theorem C36_backslash_inserts_end_of_file_refuted :
  first_tokens standard 3 "\ b" = Some [(EOF, [], 1); (STRING, chars "b", 1); (EOF, [], 1)].
Proof. vm_compute. reflexivity. Qed.
Print Assumptions C36_backslash_inserts_end_of_file_refuted.

(** The escape sequence \n counts as a line. *)
Theorem C36_escape_counts_as_a_line_refuted :
  first_tokens standard 2 (qt ++ "\n" ++ qt ++ " x")%string = Some [(STRING, [10], 2); (STRING, chars "x", 2)].
Proof. vm_compute. reflexivity. Qed.
Print Assumptions C36_escape_counts_as_a_line_refuted.

(** Mathematical expressions: operators that are keywords do not end a word, and a part of a keyword is taken for a
    terminal. *)
Theorem C36_operators_not_split_refuted :
  first_tokens math 2 "a<b" = Some [(STRING, chars "a<b", 1); (EOF, [], 1)] /\
  first_tokens math 4 "a < b" = Some [(STRING, chars "a", 1); (TERMINAL, chars "<", 1); (STRING, chars "b", 1); (EOF, [], 1)] /\
  first_tokens math 2 "|" = Some [(TERMINAL, chars "|", 1); (EOF, [], 1)].
Proof. vm_compute. auto. Qed.
Print Assumptions C36_operators_not_split_refuted.

(** XML: a comment directly after an angle bracket is not seen. *)
Theorem C36_xml_comment_missed_refuted :
  first_tokens xml 2 "<!--c-->" = Some [(EOF, [], 1); (EOF, [], 1)] /\
  first_tokens xml 3 "<<!--c-->" = Some [(TERMINAL, chars "<", 1); (TERMINAL, chars "<", 1); (STRING, chars "!--c--", 1)].
Proof. vm_compute. auto. Qed.
Print Assumptions C36_xml_comment_missed_refuted.
