(** What a program of the runtime evaluator means: a machine with a stack of typed values and named variables.
    Nothing here knows about addresses, word sizes, code memory or the size of the stack. *)
From Coq Require Import String.
From Verif Require Import Base RuntimeEval_Model.
Open Scope string_scope.
Open Scope Z_scope.
Open Scope list_scope.

Inductive instr :=
| IRead (x : string)              (* READ x *)
| IWrite (x : string)             (* WRITE x *)
| IConst (t : ty) (txt : string)  (* CONST type value *)
| ICast (t : ty)                  (* CAST type *)
| IOp (name : string).            (* any other command *)

(** The instruction on a line (a list of words); None: no such instruction. *)
Definition parse (l : list string) : option (list instr) :=
  match l with
  | [] => Some []
  | cmd :: params =>
      if cmd =s? "READ" then match params with [x] => Some [IRead x] | _ => None end
      else if cmd =s? "WRITE" then match params with [x] => Some [IWrite x] | _ => None end
      else if cmd =s? "CONST" then match params with [t; v] => Some [IConst (ty_of_name t) v] | _ => None end
      else if cmd =s? "CAST" then match params with [t] => Some [ICast (ty_of_name t)] | _ => None end
      else Some [IOp cmd]
  end.

(** What the user set before compiling: the latest setting counts; a NULL location means none. *)
Record config := Cfg { in_type : string -> ty; in_mem : string -> Z; out_type : string -> ty; out_mem : string -> Z }.
Definition no_config : config := Cfg (fun _ => TVoid) (fun _ => 0) (fun _ => TVoid) (fun _ => 0).
Definition supd {A} (f : string -> A) (x : string) (a : A) : string -> A := fun y => if x =s? y then a else f y.
Definition set_config (c : config) (s : setting) : config :=
  match s with
  | SetInMem x p => Cfg (in_type c) (supd (in_mem c) x p) (out_type c) (out_mem c)
  | SetOutMem x p => Cfg (in_type c) (in_mem c) (out_type c) (supd (out_mem c) x p)
  | SetInType x t => Cfg (supd (in_type c) x t) (in_mem c) (out_type c) (out_mem c)
  | SetOutType x t => Cfg (in_type c) (in_mem c) (supd (out_type c) x t) (out_mem c)
  end.
Definition config_of (s : list setting) : config := fold_left set_config s no_config.

(** Where a value lives: in an input variable, in an output variable, or in the user's object at an address (which
    several variables may share). *)
Inductive place := PIn (x : string) | POut (x : string) | PExt (p : Z).
Definition place_eqb (a b : place) : bool :=
  match a, b with
  | PIn x, PIn y | POut x, POut y => x =s? y
  | PExt p, PExt q => p =? q
  | _, _ => false
  end.
Definition in_place (c : config) (x : string) : place := if in_mem c x =? 0 then PIn x else PExt (in_mem c x).
Definition out_place (c : config) (x : string) : place := if out_mem c x =? 0 then POut x else PExt (out_mem c x).

(** The state: the stack (top first) of typed bit patterns, the content of the places, and the output variables
    already written with their types. *)
Record sstate := SS { stk : list (ty * Z); mem : place -> Z; wr : list (string * ty) }.

Fixpoint lookup (x : string) (l : list (string * ty)) : option ty :=
  match l with [] => None | (y, t) :: l' => if x =s? y then Some t else lookup x l' end.
Definition pupd (f : place -> Z) (a : place) (v : Z) : place -> Z := fun b => if place_eqb b a then v else f b.
(** Writing a value of [n] bits changes the low [n] bits of a place. *)
Definition write_low (n old v : Z) : Z := old - old mod 2 ^ n + v mod 2 ^ n.

Inductive sres := SDone (s : sstate)   (* no error *)
                | SError (s : sstate)  (* the instruction reported an error *)
                | SUndef               (* the instruction has no defined result *)
                | SStuck.              (* no such instruction, operand or type *)
Definition done (err : bool) (s : sstate) : sres := if err then SError s else SDone s.

Fixpoint starts (want have : list ty) : bool :=
  match want, have with
  | [], _ => true
  | t :: w, s :: h => ty_eqb s t && starts w h
  | _ :: _, [] => false
  end.

Section Machine.
Variable L : lib.
Variable c : config.

(** Conversion of a value to another type: the same type keeps it; otherwise the library's saturating conversion
    (C05 for integers); (converted value, an error is reported). *)
Definition convert (t t' : ty) (v : Z) : Z * bool :=
  if ty_eqb t t' then (v, false) else let '(ok, v') := n2n L t t' v in (v', negb ok).

Definition sstep (i : instr) (s : sstate) : sres :=
  match i with
  | IRead x =>
      let '(pl, t) := match lookup x (wr s) with
                      | Some t => (out_place c x, t)             (* already written by the program *)
                      | None => (in_place c x, in_type c x)
                      end in
      SDone (SS ((t, mem s pl mod 2 ^ bits t) :: stk s) (mem s) (wr s))
  | IConst t txt =>
      match conv L t txt with
      | Some v => SDone (SS ((t, v mod 2 ^ bits t) :: stk s) (mem s) (wr s))
      | None => SStuck
      end
  | IWrite x =>
      match stk s with
      | (t, v) :: st =>
          let t' := match lookup x (wr s) with
                    | Some t0 => t0
                    | None => if ty_eqb (out_type c x) TVoid then t else out_type c x
                    end in
          let '(v', err) := convert t t' v in
          let pl := out_place c x in
          done err (SS st (pupd (mem s) pl (write_low (bits t') (mem s pl) v')) ((x, t') :: wr s))
      | [] => SStuck
      end
  | ICast t' =>
      match stk s with
      | (t, v) :: st => let '(ok, v') := n2n L t t' v in done (negb ok) (SS ((t', v') :: st) (mem s) (wr s))
      | [] => SStuck
      end
  | IOp name =>
      match List.find (fun r => (rname r =s? name) && starts (ins_of r) (map fst (stk s))) (table L) with
      | Some r =>
          match rbody r with
          | BFun _ _ out f =>
              match f (map snd (firstn (rnin r) (stk s))) with
              | Some (v, err) => done err (SS ((out, v) :: skipn (rnin r) (stk s)) (mem s) (wr s))
              | None => SUndef
              end
          | _ => SStuck
          end
      | None => SStuck
      end
  end.

Definition then_ (r : sres) (k : sstate -> sres) : sres := match r with SDone s => k s | _ => r end.
Fixpoint srun_instrs (l : list instr) (s : sstate) : sres :=
  match l with [] => SDone s | i :: l' => then_ (sstep i s) (srun_instrs l') end.
(** The program stops at the first error. *)
Fixpoint srun (p : list (list string)) (s : sstate) : sres :=
  match p with
  | [] => SDone s
  | l :: p' => match parse l with Some i => then_ (srun_instrs i s) (srun p') | None => SStuck end
  end.
End Machine.

(** ** The condition under which the evaluator is proved: at most 32767 lines, no variable named like a constant
    of the evaluator, no command RREAD or RWRITE, pointers of 64 bits. *)
Definition plain_name (x : string) : Prop := String.prefix "Constant@" x = false.
Definition plain_line (l : list string) : Prop :=
  match l with
  | [] => True
  | cmd :: params =>
      cmd <> "RREAD" /\ cmd <> "RWRITE" /\
      ((cmd = "READ" \/ cmd = "WRITE") -> Forall plain_name params)
  end.
Definition plain_setting (s : setting) : Prop :=
  match s with
  | SetInMem x p | SetOutMem x p => plain_name x /\ 0 <= p < 2 ^ 64
  | SetInType x _ | SetOutType x _ => plain_name x
  end.
Definition plain (p : list (list string)) (st : list setting) : Prop :=
  Z.of_nat (List.length p) <= 32767 /\ Forall plain_line p /\ Forall plain_setting st.

(** The value of type [t] found where the API says that a variable is. *)
Definition value_at (m_data m_ext : Z -> Z) (w : where_) (t : ty) : Z :=
  match w with
  | Internal a => load m_data a t
  | External p => m_ext p mod 2 ^ bits t
  | Nowhere => 0
  end.
(** The words of the evaluator's memory that hold the values of internal variables (not constants). *)
Definition in_variable (l : list var) (a : Z) : Prop :=
  exists x v, find_var x l = Some v /\ plain_name x /\ vext v = 0 /\ vloc v <= a < vloc v + words (vty v).
(** Before an execution the user (or an earlier execution) may have changed the internal variables only. *)
Definition user_changed (e : ev) (d : Z -> Z) : Prop :=
  forall a, ~ in_variable (ins e) a -> ~ in_variable (outs e) a -> d a = data e a.

(** The initial state of the machine for the given memory. *)
Definition initial (e : ev) (d x : Z -> Z) : sstate :=
  SS [] (fun pl => match pl with
                   | PIn n => match find_var n (ins e) with Some v => load d (vloc v) (vty v) | None => 0 end
                   | POut n => match find_var n (outs e) with Some v => load d (vloc v) (vty v) | None => 0 end
                   | PExt p => x p
                   end) [].

(** The memory after an execution holds the values of the machine. *)
Definition holds (c : config) (e : ev) (s : sstate) (m : mach) : Prop :=
  (forall x t, lookup x (wr s) = Some t ->
     value_at (dmem m) (emem m) (memory_of x (outs e)) t = mem s (out_place c x) mod 2 ^ bits t) /\
  (forall x v, find_var x (ins e) = Some v -> plain_name x ->
     value_at (dmem m) (emem m) (memory_of x (ins e)) (vty v) = mem s (in_place c x) mod 2 ^ bits (vty v)) /\
  (forall p, emem m p = mem s (PExt p)).

(** After an execution: the values are those of the machine, and nothing else in the evaluator's memory changed. *)
Definition after_exec (e : ev) (c : config) (d : Z -> Z) (s : sstate) (m : mach) : Prop :=
  holds c e s m /\ (forall a, ~ in_variable (outs e) a -> dmem m a = d a).

(** ** What the integer operators compute: [a] is the operand pushed first, [b] the one on top. *)
Definition integer (t : ty) : bool := numeric t && negb (is_float t).
Definition arithmetic (name : string) : bool :=
  (name =s? "ADD") || (name =s? "SUB") || (name =s? "MUL") || (name =s? "DIV").
Definition comparison (name : string) : bool :=
  (name =s? "GT") || (name =s? "LT") || (name =s? "GTE") || (name =s? "LTE") || (name =s? "EQ") || (name =s? "NEQ").
Definition truth (b : bool) : Z := if b then 1 else 0.
Definition int_result (name : string) (a b : Z) : option Z :=
  if name =s? "ADD" then Some (a + b)
  else if name =s? "SUB" then Some (a - b)
  else if name =s? "MUL" then Some (a * b)
  else if name =s? "DIV" then if b =? 0 then None else Some (Z.quot a b)
  else if name =s? "GT" then Some (truth (b <? a))
  else if name =s? "LT" then Some (truth (a <? b))
  else if name =s? "GTE" then Some (truth (b <=? a))
  else if name =s? "LTE" then Some (truth (a <=? b))
  else if name =s? "EQ" then Some (truth (a =? b))
  else if name =s? "NEQ" then Some (truth (negb (a =? b)))
  else None.
(** The least and greatest number of an integer type. *)
Definition least (t : ty) : Z := match t with I8 => -128 | I16 => -32768 | I32 => - 2 ^ 31 | I64 => - 2 ^ 63 | _ => 0 end.
Definition greatest (t : ty) : Z :=
  match t with
  | I8 => 127 | I16 => 32767 | I32 => 2 ^ 31 - 1 | I64 => 2 ^ 63 - 1
  | U8 => 255 | U16 => 65535 | U32 => 2 ^ 32 - 1 | U64 => 2 ^ 64 - 1 | _ => 0
  end.
Definition in_range (t : ty) (z : Z) : bool := (least t <=? z) && (z <=? greatest t).
(** Every number of [t] is a number of [u]. *)
Definition widens (t u : ty) : bool := in_range u (least t) && in_range u (greatest t).
