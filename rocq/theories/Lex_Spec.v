(** What the lexical analyser should return: a text is cut into separators, comments, terminals, quoted strings and
    words. *)
From Verif Require Import Base Lex_Model.
Open Scope Z_scope.
Open Scope list_scope.

Definition slash : Z := 47.
Definition star : Z := 42.

Definition is_sep (G : grammar) (c : Z) : Prop := In c (separators G).
Definition is_term (G : grammar) (c : Z) : Prop := In c (terminals G).
(** C++ comments are recognised (otherwise there are no comments). *)
Definition cpp_comments (G : grammar) : Prop :=
  one_line G = [slash; slash] /\ multi_begin G = [slash; star] /\ multi_end G = [star; slash].
Definition no_comments (G : grammar) : Prop := one_line G = [] /\ multi_begin G = [] /\ multi_end G = [].
(** The grammars considered: no keywords; NUL, quote, backslash and slash have no other role. *)
Definition simple (G : grammar) : Prop :=
  keywords G = [] /\ (cpp_comments G \/ no_comments G) /\
  (forall c, is_sep G c \/ is_term G c -> c <> 0 /\ c <> quote /\ c <> backslash /\ c <> slash) /\
  (forall c, is_sep G c -> is_term G c -> False).

(** The character that an escape sequence stands for; an unknown one stands for itself, with its backslash. *)
Definition resolve (c : Z) : list Z :=
  if c =? 110 then [10] else if c =? 116 then [9] else if c =? 114 then [13]
  else if (c =? quote) || (c =? backslash) then [c] else [backslash; c].

(** [quoted src body]: between quotes, [src] stands for [body]. *)
Inductive quoted : list Z -> list Z -> Prop :=
| QNil : quoted [] []
| QPlain c s b : c <> 0 -> c <> quote -> c <> backslash -> quoted s b -> quoted (c :: s) (c :: b)
| QEsc c s b : c <> 0 -> quoted s b -> quoted (backslash :: c :: s) (resolve c ++ b).

(** A comment begins here. *)
Definition comment_here (G : grammar) (t : list Z) : Prop :=
  cpp_comments G /\ exists d t', t = slash :: d :: t' /\ (d = slash \/ d = star).
(** The character [c], followed by [t], belongs to a word: it does not begin a comment, and a slash is not the end
    of the text. *)
Definition word_char (G : grammar) (c : Z) (t : list Z) : Prop :=
  c <> 0 /\ ~ is_sep G c /\ ~ comment_here G (c :: t) /\ (cpp_comments G -> c = slash -> t <> []).
(** A word ends here. *)
Definition ends (G : grammar) (r : list Z) : Prop :=
  r = [] \/ comment_here G r \/ exists c r', r = c :: r' /\ (is_sep G c \/ is_term G c).
(** [word t w r]: the text [t] begins with a word that stands for [w] and is followed by [r]. *)
Inductive word (G : grammar) : list Z -> list Z -> list Z -> Prop :=
| WEnd r : ends G r -> word G r [] r
| WPlain c t w r : c <> backslash -> ~ is_term G c -> word_char G c t -> word G t w r -> word G (c :: t) (c :: w) r
| WEsc c t w r : word_char G c t -> word G t w r -> word G (backslash :: c :: t) (resolve c ++ w) r.

(** A word is a number if it begins with a digit (after a sign) and can be converted; otherwise it is a string,
    and a quote at its beginning or at its end is dropped. *)
Definition digit_at (i : nat) (w : list Z) : Prop := exists d, nth_error w i = Some d /\ 48 <= d <= 57.
Definition numeric (G : grammar) (w : list Z) : Prop :=
  isnum G w = true /\ (digit_at 0 w \/ (exists s, hd_error w = Some s /\ (s = 43 \/ s = 45)) /\ digit_at 1 w).
Inductive no_back : list Z -> list Z -> Prop :=
| NBdrop v : no_back (v ++ [quote]) v
| NBkeep v : (forall u, v <> u ++ [quote]) -> no_back v v.
Inductive no_quotes : list Z -> list Z -> Prop :=
| NQdrop w v : no_back w v -> no_quotes (quote :: w) v
| NQkeep c w v : c <> quote -> no_back (c :: w) v -> no_quotes (c :: w) v.
Inductive word_token (G : grammar) (w : list Z) (line : Z) : token -> Prop :=
| WTnum : numeric G w -> word_token G w line (Tk NUMBER w line)
| WTstr v : ~ numeric G w -> no_quotes w v -> word_token G w line (Tk STRING v line).

(** The number of newlines; the number of those in a multiple line comment that follows a word directly, which are
    counted for the word. *)
Definition newlines (l : list Z) : Z := Z.of_nat (count_occ Z.eq_dec l nl).
Definition glued (r : list Z) (n : Z) : Prop :=
  (exists body r', r = slash :: star :: body ++ star :: slash :: r' /\ (forall u v, body ++ [star] <> u ++ star :: slash :: v) /\ n = newlines body) \/
  ((forall t, r <> slash :: star :: t) /\ n = 0).

(** [lexes line text toks]: the text, which begins on the given line, consists of these tokens. *)
Inductive lexes (G : grammar) : Z -> list Z -> list token -> Prop :=
| LEnd line : lexes G line [] []
| LSep line c r toks : is_sep G c -> lexes G (line + newlines [c]) r toks -> lexes G line (c :: r) toks
| LOneLine line body r toks : cpp_comments G -> body <> [] -> ~ In nl body -> lexes G (line + 1) r toks ->
    lexes G line (slash :: slash :: body ++ nl :: r) toks
| LOneLineEnd line body : cpp_comments G -> ~ In nl body -> lexes G line (slash :: slash :: body) []
| LMulti line body r toks : cpp_comments G -> (forall u v, body ++ [star] <> u ++ star :: slash :: v) ->
    lexes G (line + newlines body) r toks -> lexes G line (slash :: star :: body ++ star :: slash :: r) toks
| LTerminal line c r toks : is_term G c -> lexes G line r toks -> lexes G line (c :: r) (Tk TERMINAL [c] line :: toks)
| LQuoted line src body r toks : quoted src body -> lexes G (line + newlines body) r toks ->
    lexes G line (quote :: src ++ quote :: r) (Tk STRING body (line + newlines body) :: toks)
| LWord line t w r n tok toks : w <> [] -> (forall s, t <> quote :: s) -> word G t w r -> glued r n ->
    word_token G w (line + newlines w + n) tok -> lexes G (line + newlines w) r toks -> lexes G line t (tok :: toks).

(** What a caller sees: [Get] returns the next token and removes it, [Peek] returns it; after the last token both
    return end-of-file tokens. *)
Inductive call := Get | Peek.
Inductive answers : list call -> list token -> list token -> Prop :=
| ANil toks : answers [] toks []
| AGet ops t toks ans : answers ops toks ans -> answers (Get :: ops) (t :: toks) (t :: ans)
| APeek ops t toks ans : answers ops (t :: toks) ans -> answers (Peek :: ops) (t :: toks) (t :: ans)
| AEof op ops l ans : answers ops [] ans -> answers (op :: ops) [] (Tk EOF [] l :: ans).

(** The same calls on the analyser; None if a call returns no token. *)
Fixpoint calls (G : grammar) (ops : list call) (x : lexer) : option (list token) :=
  match ops with
  | [] => Some []
  | op :: ops' =>
      let '(t, x') := match op with Get => get_token G x | Peek => peek_token G 0 x end in
      match t, calls G ops' x' with
      | Some t, Some l => Some (t :: l)
      | _, _ => None
      end
  end.
