(** Source/Core/BareMetal/L4Configuration: ParserI.cpp on the tokens of LexicalAnalyzer.cpp (Lex_Model): GetNextTokenType 93-117, PeekNextTokenType 119-138, Parse 142-244.
    The same code as in Slk_Model, with the lexical analyser in the place of the list of tokens; the simplifications are the same. A NULL token (never, by C44_text) is dereferenced:
    Undef. *)
From Coq Require Import String Ascii.
From Verif Require Import Base Lex_Model Slk_Model.
Open Scope string_scope. Open Scope nat_scope. Open Scope list_scope.

(** The characters of a string and back *)
Definition chars (s : string) : list Z := map (fun a => Z.of_N (N_of_ascii a)) (list_ascii_of_string s).
Definition text_of (l : list Z) : string := string_of_list_ascii (map (fun c => ascii_of_N (Z.to_N c)) l).
(** Token.h 149-169: what the parser sees of a token *)
Definition token_of (t : Lex_Model.token) : token :=
  match t_kind t with EOF => TEof | STRING => TStr (text_of (t_data t)) | NUMBER => TNum (text_of (t_data t)) | TERMINAL => TTerm (text_of (t_data t)) end.

(** L3Streams/GrammarInfo.h 137, 143, with the terminals as ParserI.cpp 69-74 passes them; [isnum]: TypeConvert to float64 *)
Definition separators_ : list Z := [10; 13; 9; 44; 32]%Z.
Definition standard_grammar (isnum : list Z -> bool) : grammar := Gr (chars "={}{}{}()|") separators_ (chars "//") (chars "/*") (chars "*/") [] isnum.
Definition json_grammar (isnum : list Z -> bool) : grammar := Gr (chars ":{}[][]") separators_ [] [] [] [] isnum.

Section Engine.
Context (G : grammar) (T : tables) {A : Type} (execute : nat -> token -> A -> out (A * bool)).

(** tokenProducer.GetToken and PeekToken *)
Definition tget (x : lexer) : out (token * lexer) := match get_token G x with (Some t, x) => Ret (token_of t, x) | _ => Undef end.
Definition tpeek (n : nat) (x : lexer) : out (token * lexer) := match peek_token G n x with (Some t, x) => Ret (token_of t, x) | _ => Undef end.

Record tst := Ts { lx : lexer; cur : token; tty : nat; tstk : list nat; tusr : A; terr : bool; teof : bool }.
(** The loop 170-176 *)
Fixpoint tresolve (fuel : nat) (x : lexer) (entry level : nat) : out (nat * lexer) :=
  if entry <? START_CONFLICT T then Ret (entry, x) else
  match fuel with
  | O => NoFuel
  | S k => bind (get (Conflict_row T) (entry - (START_CONFLICT T - 1))) (fun row => bind (tpeek level x) (fun '(t, x) =>
           bind (get (Conflict T) (row + token_type T t)) (fun e => tresolve k x e (S level))))
  end.
(** 193-199, 202-208 *)
Definition tsyntax (s : tst) : tst := Ts (lx s) (cur s) (END_OF_SLK_INPUT T) (tstk s) (tusr s) (if tty s =? 0 then terr s else true) (if tty s =? 0 then true else teof s).
(** 177-209 *)
Definition texpand (s : tst) (symbol entry : nat) : out tst :=
  if entry =? 0 then Ret (tsyntax s) else
  bind (get (Production_row T) entry) (fun row => bind (get (Production T) row) (fun len => bind (get (Production T) (S row)) (fun head =>
  if head =? symbol then
    let body := firstn (len - 1) (skipn (S (S row)) (Production T)) in
    Ret (Ts (lx s) (cur s) (tty s) (push_all body (tstk s)) (tusr s) (terr s) (teof s))
  else Ret (tsyntax s)))).
(** One iteration 159-233 *)
Definition titer (fuel : nat) (symbol : nat) (s : tst) : out tst :=
  if START_ACTION T <=? symbol then bind (execute (symbol - (START_ACTION T - 1)) (cur s) (tusr s)) (fun '(u, e) => Ret (Ts (lx s) (cur s) (tty s) (tstk s) u e (teof s)))
  else if START_SYMBOL T <=? symbol then
    bind (get (Parse_row T) (symbol - (START_SYMBOL T - 1))) (fun row => bind (get (ParseArray T) (row + tty s)) (fun e =>
    bind (tresolve fuel (lx s) e 0) (fun '(e, x) => texpand (Ts x (cur s) (tty s) (tstk s) (tusr s) (terr s) (teof s)) symbol e)))
  else if symbol =? tty s then bind (tget (lx s)) (fun '(t, x) => Ret (Ts x t (token_type T t) (tstk s) (tusr s) (terr s) (teof s)))
  else Ret (Ts (lx s) (cur s) (END_OF_SLK_INPUT T) (tstk s) (tusr s) true (teof s)).
(** The loop 159-233 *)
Fixpoint tloop (fuel cf : nat) (s : tst) : out tst :=
  match tstk s with
  | [] => Ret s
  | symbol :: r =>
    if (symbol =? 0) || terr s then Ret s else
    match fuel with
    | O => NoFuel
    | S k => bind (titer cf symbol (Ts (lx s) (cur s) (tty s) r (tusr s) (terr s) (teof s))) (tloop k cf)
    end
  end.
(** The loop 146-241 *)
Fixpoint tparses (rounds fuel cf : nat) (s : tst) : out tst :=
  if terr s || teof s then Ret s else
  match rounds with
  | O => NoFuel
  | S k => bind (tget (lx s)) (fun '(t, x) => bind (tloop fuel cf (Ts x t (token_type T t) (push (START_SYMBOL T) []) (tusr s) (terr s) (teof s))) (fun s =>
           tparses k fuel cf (if tty s =? END_OF_SLK_INPUT T then s else Ts (lx s) (cur s) (tty s) (tstk s) (tusr s) true (teof s))))
  end.
(** Parse of a text by a new parser: what it returns and the state of the actions *)
Definition parse_text (rounds fuel cf : nat) (text : list Z) (u : A) : out (bool * A) :=
  bind (tparses rounds fuel cf (Ts (lexer_of text) TEof 0 [] u false false)) (fun s => Ret (negb (terr s), tusr s)).
End Engine.
Arguments tst A : clear implicits.
