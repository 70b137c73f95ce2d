(** Source/Core/BareMetal/L4Configuration: ParserI.cpp (Parse 142-244), ParserI.h (StackPush, StackPop 294-312) and MathExpressionParser.cpp.
    The input is the list of tokens of the lexical analyser (C36); after the last one it returns end-of-file tokens for ever.
    Undef: a table is read out of its bounds. NoFuel: the loop has not ended within the given number of iterations.
    Simplifications: the messages about errors are not modelled; memory is never exhausted (Add on the StaticLists succeeds);
    new_token is token except after an error or the end of the input, where line 224-231 make token END_OF_SLK_INPUT: the model sets it there. *)
From Coq Require Import String Ascii.
From Verif Require Import Base.
Open Scope string_scope. Open Scope nat_scope. Open Scope list_scope.

Inductive token := TEof | TStr (d : string) | TNum (d : string) | TTerm (d : string).
(** Token::GetData, Token::GetDescription *)
Definition tdata (t : token) : string := match t with TEof => "" | TStr d | TNum d | TTerm d => d end.
Definition tdescr (t : token) : string := match t with TEof => "EOF" | TStr _ => "STRING" | TNum _ => "NUMBER" | TTerm _ => "TERMINAL" end.

Inductive out (A : Type) := Ret (a : A) | Undef | NoFuel.
Arguments Ret {A}. Arguments Undef {A}. Arguments NoFuel {A}.

(** ** The tables, 41-119 *)
Definition Production : list nat := [0
 ;3;23;24;39 ;7;24;45;1;2;26;25;46 ;2;25;3 ;2;25;4
 ;3;26;28;40 ;2;27;5 ;2;27;6 ;2;27;7 ;3;28;30;41
 ;2;29;8 ;2;29;9 ;2;29;10 ;2;29;11 ;2;29;12 ;2;29;13
 ;3;30;32;42 ;2;31;14 ;2;31;15 ;3;32;34;43 ;2;33;16
 ;2;33;17 ;2;34;36 ;5;34;47;31;36;49 ;5;34;47;35;36;48
 ;2;35;18 ;2;36;37 ;7;36;19;50;1;20;37;51 ;7;36;19;50;1;20;52;21
 ;3;36;53;21 ;2;37;38 ;8;37;47;1;19;26;44;20;48
 ;4;38;19;26;20 ;3;38;53;1 ;3;39;24;39 ;1;39 ;6;40;47;27;28;48;40
 ;1;40 ;6;41;47;29;30;48;41 ;1;41 ;6;42;47;31;32;48;42
 ;1;42 ;6;43;47;33;34;48;43 ;1;43 ;4;44;4;26;44
 ;1;44
 ;0].
Definition Production_row : list nat := [0
 ;1;5;13;16;19;23;26;29;32;36;39;42;45;48;51;54
 ;58;61;64;68;71;74;77;83;89;92;95;103;111;115;118;127
 ;132;136;140;142;149;151;158;160;167;169;176;178;183
 ;0].
Definition ParseArray : list nat := [
 0;0;1;2;43;43;43;43;43;43;43;43;43;43;43;43;43;42;42
 ;3;4;43;41;41;41;41;41;41;41;41;41;41;41;40;40;6;7;8;5
 ;41;39;39;39;39;39;38;38;38;38;38;38;5;5;9;47;5;5;39;5
 ;10;11;12;13;14;15;16;9;9;17;18;9;9;30;9;19;26;20;21;16
 ;16;44;33;16;16;22;16;25;19;19;34;0;19;19;46;19;29;45;23;23
 ;32;0;24;22;0;22;37;37;36;36;36;35;0;0;0;0;0;0;0;0
 ;0;0;0;37;0;0].
Definition Parse_row : list nat := [0
 ;1;2;16;37;30;52;51;64;54;73;60;83;68;74;53;80
 ;88;102;37;19;1;76
 ;0].
Definition Conflict : list nat := [
 0;0;48;0;0;0;0;0;0;0;0;0;0;0;0;26;26;0;0
 ;26;26;0;26;30;30;30;30;30;30;30;30;30;30;30;30;30;30;30;0
 ;31;30;26;26;26;26;26;26;26;26;26;26;26;26;26;0;26;49;27;0
 ;26;26;26;26;26;26;26;26;26;26;26;26;26;26;26;0;27;26;28].
Definition Conflict_row : list nat := [0 ;1;20;36;56 ;0].
(** Constants 93 *)
Definition START_SYMBOL := 23. Definition END_OF_SLK_INPUT := 22. Definition START_CONFLICT := 46. Definition START_ACTION := 45.
(** ParserConstant::PARSE_STACK_SIZE *)
Definition PARSE_STACK_SIZE := 512.
Definition Terminal_name : list string := ["0";"STRING";"=";";";",";"||";"&&";"^";">";"<";">=";"<=";"==";"!=";"+";"-";"*";"/";"!";"(";")";"NUMBER";"END_OF_SLK_INPUT"].
(** GetSymbolName 412-422 *)
Definition symbol_name (s : nat) : string := if (0 <? s) && (s <? START_SYMBOL) then nth s Terminal_name "" else "not a symbol".
(** ParserI.cpp GetNextTokenType, PeekNextTokenType 100-137: the last index with that name *)
Definition token_type (t : token) : nat :=
  let to_compare := match t with TTerm d => d | _ => tdescr t end in
  fold_left (fun ret i => if String.eqb to_compare (symbol_name i) then i else ret) (seq 0 START_SYMBOL) 0.

(** ** State. [inp]: the current token (currentToken) and the ones after it. [ops], [casts]: the last added first. *)
Record st := mk { inp : list token; ty : nat; stk : list nat; ops : list string; casts : list string; asg : string; txt : string; err : bool; eof : bool }.
Definition current (s : st) : token := hd TEof (inp s).
Definition peek (l : list token) (position : nat) : nat := token_type (nth (S position) l TEof).
(** StackPush 294-303 for the symbols of a production, the last one first (186-191). The array has PARSE_STACK_SIZE entries, the last is the 0 at the bottom. *)
Definition push (x : nat) (l : list nat) : list nat := if List.length l <? PARSE_STACK_SIZE - 1 then x :: l else l.
Definition push_all (p l : list nat) : list nat := fold_right push l p.

(** ** Actions *)
Definition to_upper_c (c : ascii) : ascii := let n := nat_of_ascii c in if (97 <=? n) && (n <=? 122) then ascii_of_nat (n - 32) else c.
Fixpoint to_upper (s : string) : string := match s with EmptyString => EmptyString | String c r => String (to_upper_c c) (to_upper r) end.
(** OperatorFormatting 170-232 *)
Definition operator_formatting (o : string) : string :=
  if String.eqb o "&&" then "AND" else if String.eqb o "||" then "OR" else if String.eqb o "^" then "XOR" else if String.eqb o "==" then "EQ" else if String.eqb o "!=" then "NEQ"
  else if String.eqb o ">" then "GT" else if String.eqb o "<" then "LT" else if String.eqb o ">=" then "GTE" else if String.eqb o "<=" then "LTE" else if String.eqb o "+" then "ADD"
  else if String.eqb o "-" then "SUB" else if String.eqb o "*" then "MUL" else if String.eqb o "/" then "DIV" else if String.eqb o "!" then "NOT" else to_upper o.
Definition nl : string := String (ascii_of_nat 10) "".
Definition emit (s : st) (x : string) : st := mk (inp s) (ty s) (stk s) (ops s) (casts s) (asg s) (txt s ++ x) (err s) (eof s).
Definition set_ops (s : st) (o : list string) : st := mk (inp s) (ty s) (stk s) o (casts s) (asg s) (txt s) (err s) (eof s).
Definition set_casts (s : st) (o : list string) : st := mk (inp s) (ty s) (stk s) (ops s) o (asg s) (txt s) (err s) (eof s).
(** Execute 408: the actions 1-9 *)
Definition execute (n : nat) (s : st) : out st :=
  match n with
  | 1 => Ret (mk (inp s) (ty s) (stk s) (ops s) (casts s) (tdata (current s)) (txt s) (err s) (eof s))     (* StoreAssignment 394 *)
  | 2 => Ret (emit s ("WRITE " ++ asg s ++ nl))                                                            (* PopAssignment 400 *)
  | 3 => Ret (set_ops s (tdata (current s) :: ops s))                                                      (* PushOperator 235 *)
  | 4 => Ret (match ops s with o :: r => emit (set_ops s r) (operator_formatting o ++ nl) | [] => emit s ("ERR" ++ nl) end)   (* PopOperator 246 *)
  | 5 => Ret (match ops s with                                                                             (* PopOperatorAlternate 273 *)
              | o :: r => if String.eqb o "+" then set_ops s r else if String.eqb o "-" then emit (set_ops s r) ("NEG" ++ nl) else set_ops s r
              | [] => emit s ("ERR" ++ nl) end)
  | 6 => Ret (set_casts s (tdata (current s) :: casts s))                                                  (* PushTypecast 309 *)
  | 7 => Ret (match casts s with o :: r => emit (set_casts s r) ("CAST " ++ o ++ nl) | [] => emit s ("ERR" ++ nl) end)        (* PopTypecast 320 *)
  | 8 => Ret (match casts s with o :: r => emit (set_casts s r) ("CONST " ++ o ++ " " ++ tdata (current s) ++ nl) | [] => emit s ("ERR" ++ nl) end)   (* AddOperandTypecast 365 *)
  | 9 => Ret (emit s (match current s with TStr d => "READ " ++ d ++ nl | TNum d => "CONST float64 " ++ d ++ nl | _ => "ERR" ++ nl end))   (* AddOperand 348 *)
  | _ => Undef
  end.

(** ** Parse *)
Definition get (l : list nat) (i : nat) : out nat := match nth_error l i with Some x => Ret x | None => Undef end.
Definition bind {A B} (x : out A) (f : A -> out B) : out B := match x with Ret a => f a | Undef => Undef | NoFuel => NoFuel end.
(** The loop 170-176 *)
Fixpoint resolve (fuel : nat) (l : list token) (entry level : nat) : out nat :=
  if entry <? START_CONFLICT then Ret entry else
  match fuel with
  | O => NoFuel
  | S k => bind (get Conflict_row (entry - (START_CONFLICT - 1))) (fun row => bind (get Conflict (row + peek l level)) (fun e => resolve k l e (S level)))
  end.
(** 193-199, 202-208: the input is not what the grammar asks for *)
Definition syntax (s : st) : st := mk (inp s) END_OF_SLK_INPUT (stk s) (ops s) (casts s) (asg s) (txt s) (if ty s =? 0 then err s else true) (if ty s =? 0 then true else eof s).
(** 177-209 *)
Definition expand (s : st) (symbol entry : nat) : out st :=
  if entry =? 0 then Ret (syntax s) else
  bind (get Production_row entry) (fun row => bind (get Production row) (fun len => bind (get Production (S row)) (fun head =>
  if head =? symbol then
    let body := firstn (len - 1) (skipn (S (S row)) Production) in
    Ret (mk (inp s) (ty s) (push_all body (stk s)) (ops s) (casts s) (asg s) (txt s) (err s) (eof s))
  else Ret (syntax s)))).
(** One iteration 159-233, the symbol already popped *)
Definition iter (fuel : nat) (symbol : nat) (s : st) : out st :=
  if START_ACTION <=? symbol then execute (symbol - (START_ACTION - 1)) s
  else if START_SYMBOL <=? symbol then
    bind (get Parse_row (symbol - (START_SYMBOL - 1))) (fun row => bind (get ParseArray (row + ty s)) (fun e => bind (resolve fuel (inp s) e 0) (expand s symbol)))
  else if symbol =? ty s then
    let l := tl (inp s) in Ret (mk l (token_type (hd TEof l)) (stk s) (ops s) (casts s) (asg s) (txt s) (err s) (eof s))
  else Ret (mk (inp s) END_OF_SLK_INPUT (stk s) (ops s) (casts s) (asg s) (txt s) true (eof s)).
(** The loop 159-233; [fuel] bounds its iterations, [cf] those of the loop 170-176. *)
Fixpoint loop (fuel cf : nat) (s : st) : out st :=
  match stk s with
  | [] => Ret s
  | symbol :: r =>
    if (symbol =? 0) || err s then Ret s else
    match fuel with
    | O => NoFuel
    | S k => bind (iter cf symbol (mk (inp s) (ty s) r (ops s) (casts s) (asg s) (txt s) (err s) (eof s))) (loop k cf)
    end
  end.
(** The loop 146-241: a parse from the start symbol; [l] begins with the token that GetNextTokenType returns. *)
Fixpoint parses (rounds fuel cf : nat) (s : st) : out st :=
  if err s || eof s then Ret s else
  match rounds with
  | O => NoFuel
  | S k => bind (loop fuel cf (mk (inp s) (token_type (current s)) (push START_SYMBOL []) (ops s) (casts s) (asg s) (txt s) (err s) (eof s))) (fun s =>
           let s := if ty s =? END_OF_SLK_INPUT then s else mk (inp s) (ty s) (stk s) (ops s) (casts s) (asg s) (txt s) true (eof s) in
           parses k fuel cf (mk (tl (inp s)) (ty s) (stk s) (ops s) (casts s) (asg s) (txt s) (err s) (eof s)))
  end.
(** Parse and GetStackMachineExpression *)
Definition parse (rounds fuel cf : nat) (l : list token) : out (bool * string) :=
  bind (parses rounds fuel cf (mk l 0 [] [] [] "" "" false false)) (fun s => Ret (negb (err s), txt s)).
