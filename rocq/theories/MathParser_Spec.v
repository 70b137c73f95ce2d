(** C34: the specification. Expressions as they are written, the stack program of an expression, and the meaning of both. *)
From Coq Require Import String Ascii.
From Verif Require Import Base MathParser_Model.
Open Scope string_scope. Open Scope nat_scope. Open Scope list_scope.

(** ** Expressions *)
Inductive bop := Or | And | Xor | Gt | Lt | Ge | Le | Eq | Ne | Add | Sub | Mul | Div.
Inductive uop := Plus | Minus | Not.
Inductive expr :=
| Var (x : string) | Num (n : string) | CastNum (ty n : string)    (* x   12   (float32) 12 *)
| Cast (ty : string) (e : expr)                                    (* (float32) e *)
| Un (o : uop) (e : expr) | Bin (o : bop) (a b : expr)
| Paren (e : expr)
| Call (f : string) (a : expr) (l : list expr).                    (* f(a, ...) *)
Definition bsym (o : bop) : string :=
  match o with Or => "||" | And => "&&" | Xor => "^" | Gt => ">" | Lt => "<" | Ge => ">=" | Le => "<=" | Eq => "==" | Ne => "!=" | Add => "+" | Sub => "-" | Mul => "*" | Div => "/" end.
Definition usym (o : uop) : string := match o with Plus => "+" | Minus => "-" | Not => "!" end.
(** How an expression is written. *)
Fixpoint write (e : expr) : list token :=
  match e with
  | Var x => [TStr x]
  | Num n => [TNum n]
  | CastNum ty n => [TTerm "("; TStr ty; TTerm ")"; TNum n]
  | Cast ty e => TTerm "(" :: TStr ty :: TTerm ")" :: write e
  | Un o e => TTerm (usym o) :: write e
  | Bin o a b => write a ++ TTerm (bsym o) :: write b
  | Paren e => TTerm "(" :: write e ++ [TTerm ")"]
  | Call f a l => TStr f :: TTerm "(" :: write a ++ flat_map (fun x => TTerm "," :: write x) l ++ [TTerm ")"]
  end.
(** Precedence: the logical operators (all the same), comparisons, sums, products, signs, casts. Binary operators associate to the left. *)
Definition blevel (o : bop) : nat := match o with Or | And | Xor => 1 | Gt | Lt | Ge | Le | Eq | Ne => 2 | Add | Sub => 3 | Mul | Div => 4 end.
Definition level (e : expr) : nat := match e with Bin o _ _ => blevel o | Un _ _ => 5 | Num _ | CastNum _ _ | Cast _ _ => 6 | _ => 7 end.
Definition symbols : list string := ["&&"; "||"; "^"; "=="; "!="; ">"; "<"; ">="; "<="; "+"; "-"; "*"; "/"; "!"].
(** An expression is well formed when the parts of each operator are of its precedence: what is written is then read in this way only. *)
Fixpoint well (e : expr) : Prop :=
  match e with
  | Var _ | Num _ | CastNum _ _ => True
  | Cast _ e => level e = 7 /\ well e
  | Un _ e => 6 <= level e /\ well e
  | Bin o a b => blevel o <= level a /\ blevel o < level b /\ well a /\ well b
  | Paren e => well e
  | Call f a l => ~ In f symbols /\ well a /\ (fix all l := match l with [] => True | x :: r => well x /\ all r end) l
  end.
(** Nesting of parentheses and calls *)
Fixpoint nest (e : expr) : nat :=
  match e with
  | Var _ | Num _ | CastNum _ _ => 0
  | Cast _ e | Un _ e => nest e
  | Bin _ a b => Nat.max (nest a) (nest b)
  | Paren e => S (nest e)
  | Call f a l => S (fold_right (fun x m => Nat.max (nest x) m) (nest a) l)
  end.
(** An assignment, ended by a semicolon or by a comma *)
Record stmt := Asg { dst : string; rhs : expr; comma : bool }.
Definition write_stmt (s : stmt) : list token := TStr (dst s) :: TTerm "=" :: write (rhs s) ++ [TTerm (if comma s then "," else ";")].

(** ** Stack programs *)
Inductive instr := READ (x : string) | CONST (ty n : string) | CAST (ty : string) | OP (name : string) | WRITE (x : string).
Definition bname (o : bop) : string :=
  match o with Or => "OR" | And => "AND" | Xor => "XOR" | Gt => "GT" | Lt => "LT" | Ge => "GTE" | Le => "LTE" | Eq => "EQ" | Ne => "NEQ" | Add => "ADD" | Sub => "SUB" | Mul => "MUL" | Div => "DIV" end.
Fixpoint program (e : expr) : list instr :=
  match e with
  | Var x => [READ x]
  | Num n => [CONST "float64" n]
  | CastNum ty n => [CONST ty n]
  | Cast ty e => program e ++ [CAST ty]
  | Un Plus e => program e
  | Un Minus e => program e ++ [OP "NEG"]
  | Un Not e => program e ++ [OP "NOT"]
  | Bin o a b => program a ++ program b ++ [OP (bname o)]
  | Paren e => program e
  | Call f a l => program a ++ flat_map program l ++ [OP (to_upper f)]
  end.
Definition program_stmt (s : stmt) : list instr := program (rhs s) ++ [WRITE (dst s)].
(** The text of a program *)
Definition line (i : instr) : string :=
  match i with READ x => "READ " ++ x | CONST ty n => "CONST " ++ ty ++ " " ++ n | CAST ty => "CAST " ++ ty | OP n => n | WRITE x => "WRITE " ++ x end ++ nl.
Definition text (p : list instr) : string := fold_right (fun i r => line i ++ r)%string "" p.

(** ** Meaning, for any values, constants and functions *)
Section Meaning.
Context {V : Type} (const : string -> string -> V) (cast : string -> V -> V) (fn : string -> list V -> V) (arity : string -> nat).
Fixpoint value (env : string -> V) (e : expr) : V :=
  match e with
  | Var x => env x
  | Num n => const "float64" n
  | CastNum ty n => const ty n
  | Cast ty e => cast ty (value env e)
  | Un Plus e => value env e
  | Un Minus e => fn "NEG" [value env e]
  | Un Not e => fn "NOT" [value env e]
  | Bin o a b => fn (bname o) [value env a; value env b]
  | Paren e => value env e
  | Call f a l => fn (to_upper f) (value env a :: map (value env) l)
  end.
Fixpoint arities (e : expr) : Prop :=
  match e with
  | Var _ | Num _ | CastNum _ _ => True
  | Cast _ e | Paren e => arities e
  | Un Plus e => arities e
  | Un Minus e => arity "NEG" = 1 /\ arities e
  | Un Not e => arity "NOT" = 1 /\ arities e
  | Bin o a b => arity (bname o) = 2 /\ arities a /\ arities b
  | Call f a l => arity (to_upper f) = S (List.length l) /\ arities a /\ (fix all l := match l with [] => True | x :: r => arities x /\ all r end) l
  end.
(** A stack machine: the top of the stack is the head of the list; the arguments of a function are below each other, the last on top. *)
Definition step (s : list V * (string -> V)) (i : instr) : option (list V * (string -> V)) :=
  let '(st, env) := s in
  match i with
  | READ x => Some (env x :: st, env)
  | CONST ty n => Some (const ty n :: st, env)
  | CAST ty => match st with v :: r => Some (cast ty v :: r, env) | [] => None end
  | OP f => if arity f <=? List.length st then Some (fn f (rev (firstn (arity f) st)) :: skipn (arity f) st, env) else None
  | WRITE x => match st with v :: r => Some (r, fun y => if String.eqb y x then v else env y) | [] => None end
  end.
Fixpoint run (p : list instr) (s : list V * (string -> V)) : option (list V * (string -> V)) :=
  match p with [] => Some s | i :: r => match step s i with Some s => run r s | None => None end end.
Definition assign (env : string -> V) (s : stmt) : string -> V := let v := value env (rhs s) in fun y => if String.eqb y (dst s) then v else env y.
End Meaning.
