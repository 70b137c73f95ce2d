(** Source/Core/BareMetal/L4Configuration: ParserI.cpp (GetNextTokenType 93-117, PeekNextTokenType 119-138, Parse 142-244) and ParserI.h (StackPush,
    StackPop 294-312), for any tables and any actions.
    The input is the list of tokens of the lexical analyser (C36); after the last one it returns end-of-file tokens for ever.
    Undef: a table is read out of its bounds or an action has undefined behaviour. NoFuel: a loop has not ended within the given number of iterations.
    Simplifications: the messages about errors are not modelled; new_token is token except after an error or the end of the input, where
    lines 224-231 make token END_OF_SLK_INPUT: the model sets it there. *)
From Coq Require Import String Ascii.
From Verif Require Import Base.
Open Scope string_scope. Open Scope nat_scope. Open Scope list_scope.

Inductive token := TEof | TStr (d : string) | TNum (d : string) | TTerm (d : string).
(** Token::GetData, Token::GetDescription, Token::GetId (Token.h 149-169) *)
Definition tdata (t : token) : string := match t with TEof => "" | TStr d | TNum d | TTerm d => d end.
Definition tdescr (t : token) : string := match t with TEof => "EOF" | TStr _ => "STRING" | TNum _ => "NUMBER" | TTerm _ => "TERMINAL" end.
Definition tid (t : token) : nat := match t with TEof => 0 | TStr _ => 1 | TNum _ => 2 | TTerm _ => 4 end.

Inductive out (A : Type) := Ret (a : A) | Undef | NoFuel.
Arguments Ret {A}. Arguments Undef {A}. Arguments NoFuel {A}.
Definition bind {A B} (x : out A) (f : A -> out B) : out B := match x with Ret a => f a | Undef => Undef | NoFuel => NoFuel end.
Definition get (l : list nat) (i : nat) : out nat := match nth_error l i with Some x => Ret x | None => Undef end.

(** The tables and constants of a grammar (GetProduction, GetProductionRow, GetParse, GetParseRow, GetConflict, GetConflictRow, GetConstant, GetSymbolName) *)
Record tables := Tb { Production : list nat; Production_row : list nat; ParseArray : list nat; Parse_row : list nat; Conflict : list nat; Conflict_row : list nat;
                      START_SYMBOL : nat; END_OF_SLK_INPUT : nat; START_CONFLICT : nat; START_ACTION : nat; Terminal_name : list string }.
(** ParserConstant::PARSE_STACK_SIZE *)
Definition PARSE_STACK_SIZE := 512.

Section Engine.
Context (T : tables) {A : Type} (execute : nat -> token -> A -> out (A * bool)).   (* the action, on the current token: the new state and isError *)

(** GetSymbolName (StandardParser.cpp 133-143) *)
Definition symbol_name (s : nat) : string := if (0 <? s) && (s <? START_SYMBOL T) then nth s (Terminal_name T) "" else "not a symbol".
(** ParserI.cpp GetNextTokenType, PeekNextTokenType 93-138: the last index with that name *)
Definition token_type (t : token) : nat :=
  let to_compare := match t with TTerm d => d | _ => tdescr t end in
  fold_left (fun ret i => if String.eqb to_compare (symbol_name i) then i else ret) (seq 0 (START_SYMBOL T)) 0.

(** [inp]: the current token (currentToken) and the ones after it. [usr]: the state of the actions. *)
Record st := mk { inp : list token; ty : nat; stk : list nat; usr : A; err : bool; eof : bool }.
Definition current (s : st) : token := hd TEof (inp s).
Definition peek (l : list token) (position : nat) : nat := token_type (nth (S position) l TEof).
(** StackPush 294-303 for the symbols of a production, the last one first (186-191). The array has PARSE_STACK_SIZE entries, the last is the 0 at the bottom. *)
Definition push (x : nat) (l : list nat) : list nat := if List.length l <? PARSE_STACK_SIZE - 1 then x :: l else l.
Definition push_all (p l : list nat) : list nat := fold_right push l p.

(** The loop 170-176 *)
Fixpoint resolve (fuel : nat) (l : list token) (entry level : nat) : out nat :=
  if entry <? START_CONFLICT T then Ret entry else
  match fuel with
  | O => NoFuel
  | S k => bind (get (Conflict_row T) (entry - (START_CONFLICT T - 1))) (fun row => bind (get (Conflict T) (row + peek l level)) (fun e => resolve k l e (S level)))
  end.
(** 193-199, 202-208: the input is not what the grammar asks for *)
Definition syntax (s : st) : st := mk (inp s) (END_OF_SLK_INPUT T) (stk s) (usr s) (if ty s =? 0 then err s else true) (if ty s =? 0 then true else eof s).
(** 177-209 *)
Definition expand (s : st) (symbol entry : nat) : out st :=
  if entry =? 0 then Ret (syntax s) else
  bind (get (Production_row T) entry) (fun row => bind (get (Production T) row) (fun len => bind (get (Production T) (S row)) (fun head =>
  if head =? symbol then
    let body := firstn (len - 1) (skipn (S (S row)) (Production T)) in
    Ret (mk (inp s) (ty s) (push_all body (stk s)) (usr s) (err s) (eof s))
  else Ret (syntax s)))).
(** One iteration 159-233, the symbol already popped. isError is an attribute: an action can only be reached when it is false. *)
Definition iter (fuel : nat) (symbol : nat) (s : st) : out st :=
  if START_ACTION T <=? symbol then bind (execute (symbol - (START_ACTION T - 1)) (current s) (usr s)) (fun '(u, e) => Ret (mk (inp s) (ty s) (stk s) u e (eof s)))
  else if START_SYMBOL T <=? symbol then
    bind (get (Parse_row T) (symbol - (START_SYMBOL T - 1))) (fun row => bind (get (ParseArray T) (row + ty s)) (fun e => bind (resolve fuel (inp s) e 0) (expand s symbol)))
  else if symbol =? ty s then
    let l := tl (inp s) in Ret (mk l (token_type (hd TEof l)) (stk s) (usr s) (err s) (eof s))
  else Ret (mk (inp s) (END_OF_SLK_INPUT T) (stk s) (usr s) true (eof s)).
(** The loop 159-233; [fuel] bounds its iterations, [cf] those of the loop 170-176. *)
Fixpoint loop (fuel cf : nat) (s : st) : out st :=
  match stk s with
  | [] => Ret s
  | symbol :: r =>
    if (symbol =? 0) || err s then Ret s else
    match fuel with
    | O => NoFuel
    | S k => bind (iter cf symbol (mk (inp s) (ty s) r (usr s) (err s) (eof s))) (loop k cf)
    end
  end.
(** The loop 146-241: a parse from the start symbol; [inp s] begins with the token that GetNextTokenType returns. *)
Fixpoint parses (rounds fuel cf : nat) (s : st) : out st :=
  if err s || eof s then Ret s else
  match rounds with
  | O => NoFuel
  | S k => bind (loop fuel cf (mk (inp s) (token_type (current s)) (push (START_SYMBOL T) []) (usr s) (err s) (eof s))) (fun s =>
           let s := if ty s =? END_OF_SLK_INPUT T then s else mk (inp s) (ty s) (stk s) (usr s) true (eof s) in
           parses k fuel cf (mk (tl (inp s)) (ty s) (stk s) (usr s) (err s) (eof s)))
  end.
(** Parse: what it returns and the state of the actions *)
Definition parse (rounds fuel cf : nat) (l : list token) (u : A) : out (bool * A) :=
  bind (parses rounds fuel cf (mk l 0 [] u false false)) (fun s => Ret (negb (err s), usr s)).
End Engine.
Arguments st A : clear implicits.
