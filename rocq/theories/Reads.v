(** Texts made of tokens: lemmas to show that a text consists of given tokens (Lex_Spec.lexes), on whatever line it begins. *)
From Coq Require Import String Ascii.
From Verif Require Import Base Lex_Model Lex_Spec Slk_Model Txt_Model.
Open Scope string_scope. Open Scope Z_scope. Open Scope list_scope.

Definition reads (G : grammar) (text : list Z) (l : list token) : Prop := forall line, exists toks, lexes G line text toks /\ map token_of toks = l.
(** A character without a meaning of its own *)
Definition ordinary (G : grammar) (c : Z) : Prop := c <> 0 /\ c <> quote /\ c <> backslash /\ c <> slash /\ ~ is_sep G c /\ ~ is_term G c.
Definition plain (c : Z) : Prop := c <> 0 /\ c <> quote /\ c <> backslash.
(** The text is at its end, or at a separator or a terminal. *)
Definition stop (G : grammar) (r : list Z) : Prop := r = [] \/ exists c r', r = c :: r' /\ (is_sep G c \/ is_term G c).

Section Reads.
Context (G : grammar) (SG : simple G).
Lemma reads_nil : reads G [] [].
Proof. intros line. exists []. split; [constructor|reflexivity]. Qed.
Lemma reads_sep c r l : is_sep G c -> reads G r l -> reads G (c :: r) l.
Proof. intros S R line. destruct (R (line + newlines [c])) as (t & L & E). exists t. split; [apply LSep; assumption|exact E]. Qed.
Lemma reads_seps s r l : Forall (is_sep G) s -> reads G r l -> reads G (s ++ r) l.
Proof. induction 1; intros R; [exact R|]. apply reads_sep; auto. Qed.
Lemma reads_term c r l : is_term G c -> reads G r l -> reads G (c :: r) (TTerm (text_of [c]) :: l).
Proof. intros S R line. destruct (R line) as (t & L & <-). exists (Tk TERMINAL [c] line :: t). split; [apply LTerminal; assumption|reflexivity]. Qed.
Lemma quoted_plain b : Forall plain b -> quoted b b.
Proof. induction 1 as [|c b (X & Y & Z) F IH]; constructor; auto. Qed.
Lemma reads_quoted b r l : Forall plain b -> reads G r l -> reads G (quote :: b ++ quote :: r) (TStr (text_of b) :: l).
Proof. intros S R line. destruct (R (line + newlines b)) as (t & L & <-). exists (Tk STRING b (line + newlines b) :: t). split; [apply LQuoted; auto using quoted_plain|reflexivity]. Qed.
Lemma stop_ends r : stop G r -> ends G r.
Proof. intros [->|(c & r' & -> & X)]; [left; reflexivity|right; right; eauto]. Qed.
Lemma stop_glued r : stop G r -> glued r 0.
Proof.
  intros X. right. split; [|reflexivity]. intros t ->. destruct X as [X|(c & r' & X & Y)]; [discriminate|]. injection X as <- _. destruct SG as (_ & _ & K & _). destruct (K slash Y) as (_ & _ & _ & N). apply N. reflexivity.
Qed.
Lemma word_plain w r : Forall (ordinary G) w -> stop G r -> word G (w ++ r) w r.
Proof.
  intros F X. induction F as [|c w (A & B & C & D & E & K) F IH]; [apply WEnd, stop_ends, X|]. cbn [app]. apply WPlain; [exact C|exact K| |exact IH].
  split; [exact A|]. split; [exact E|]. split; [|congruence]. intros (_ & d & t' & Y & _). injection Y as Y _. congruence.
Qed.
Lemma ordinary_quotes w : w <> [] -> Forall (ordinary G) w -> no_quotes w w.
Proof.
  intros N F. destruct w as [|c w]; [congruence|]. apply NQkeep; [inversion F as [|? ? (A & B & _)]; exact B|]. apply NBkeep. intros u X.
  rewrite X in F. apply Forall_app in F. destruct F as [_ F]. inversion F as [|? ? (A & B & _)]. congruence.
Qed.
Lemma reads_word_gen w r l k : w <> [] -> Forall (ordinary G) w -> stop G r -> (forall line, word_token G w line (Tk k w line)) -> reads G r l -> reads G (w ++ r) (token_of (Tk k w 0) :: l).
Proof.
  intros N F X K R line. destruct (R (line + newlines w)) as (t & L & <-). exists (Tk k w (line + newlines w + 0) :: t). split; [|reflexivity].
  eapply LWord; [exact N| |apply word_plain; eassumption|apply stop_glued; exact X|apply K|exact L].
  intros s Y. destruct w as [|c w]; [congruence|]. injection Y as -> _. inversion F as [|? ? (_ & B & _)]. congruence.
Qed.
Lemma reads_word w r l : w <> [] -> Forall (ordinary G) w -> ~ numeric G w -> stop G r -> reads G r l -> reads G (w ++ r) (TStr (text_of w) :: l).
Proof. intros N F K X R. apply (reads_word_gen w r l STRING N F X); [|exact R]. intros line. apply WTstr; [exact K|apply ordinary_quotes; assumption]. Qed.
Lemma reads_num w r l : w <> [] -> Forall (ordinary G) w -> numeric G w -> stop G r -> reads G r l -> reads G (w ++ r) (TNum (text_of w) :: l).
Proof. intros N F K X R. apply (reads_word_gen w r l NUMBER N F X); [|exact R]. intros line. apply WTnum; exact K. Qed.
Lemma reads_comment body r l : cpp_comments G -> body <> [] -> ~ In nl body -> reads G r l -> reads G (slash :: slash :: body ++ nl :: r) l.
Proof. intros C N I R line. destruct (R (line + 1)) as (t & L & E). exists t. split; [apply LOneLine; assumption|exact E]. Qed.
Lemma not_numeric c w : ~ (48 <= c <= 57) -> c <> 43 -> c <> 45 -> ~ numeric G (c :: w).
Proof. intros A B C [_ [(d & E & F)|[(d & E & F) _]]]; injection E as <-; lia. Qed.
End Reads.

Lemma text_of_chars s : text_of (chars s) = s.
Proof.
  unfold text_of, chars. rewrite map_map. rewrite <- (string_of_list_ascii_of_string s) at 2. f_equal. rewrite <- (map_id (list_ascii_of_string s)) at 2. apply map_ext. intros a.
  rewrite N2Z.id. apply ascii_N_embedding.
Qed.
