(** The runtime evaluator: a stack machine with typed overloads, its compiler and its interpreter.
    Paths relative to Source/Core/BareMetal/L4Configuration.
    Not modelled: the splitting of the program text into lines and words (GetToken, see Token_Model: here a
    program is the list of the words of its lines), the debug execution mode, DeCompile, the access to variables
    by index.  Memory is little-endian, pointers have 64 bits, the functions of floating point numbers are a
    parameter.  A failed operation is [Fail]; what the C++ standard leaves undefined (access outside of an
    array, division overflow) is [Undef]. *)
From Coq Require Import String.
From Verif Require Import Base IntArith_Model.
Open Scope string_scope.
Open Scope Z_scope.
Open Scope list_scope.
Notation "a =s? b" := (String.eqb a b) (at level 70).

Inductive res (A : Type) := Ok (a : A) | Fail | Undef.
Arguments Ok {A}. Arguments Fail {A}. Arguments Undef {A}.
Definition bind {A B} (x : res A) (f : A -> res B) : res B :=
  match x with Ok a => f a | Fail => Fail | Undef => Undef end.
Definition of_opt {A} (x : option A) : res A := match x with Some a => Ok a | None => Fail end.
Notation "'do' x <- e ; f" := (bind e (fun x => f)) (at level 200, x pattern, e at level 100, f at level 200).

(** ** L1Portability/TypeDescriptor.cpp:55-135.  The ten numeric types with a name; [TVoid] is VoidType, [TOther]
    any non-numeric descriptor.  Numeric descriptors of other widths are left out: no function takes them. *)
Inductive ty := I8 | I16 | I32 | I64 | U8 | U16 | U32 | U64 | F32 | F64 | TVoid | TOther.
Definition ty_eqb (a b : ty) : bool :=
  match a, b with
  | I8, I8 | I16, I16 | I32, I32 | I64, I64 | U8, U8 | U16, U16 | U32, U32 | U64, U64 | F32, F32 | F64, F64
  | TVoid, TVoid | TOther, TOther => true
  | _, _ => false
  end.
Definition bits (t : ty) : Z :=
  match t with
  | I8 | U8 => 8 | I16 | U16 => 16 | I32 | U32 | F32 => 32 | I64 | U64 | F64 => 64 | TVoid | TOther => 0
  end.
Definition numeric (t : ty) : bool := match t with TVoid | TOther => false | _ => true end.
(** TypeDescriptor.cpp:123-135 GetTypeDescriptorFromTypeName. *)
Definition ty_of_name (s : string) : ty :=
  if s =s? "int8" then I8 else if s =s? "int16" then I16 else if s =s? "int32" then I32 else if s =s? "int64" then I64
  else if s =s? "uint8" then U8 else if s =s? "uint16" then U16 else if s =s? "uint32" then U32
  else if s =s? "uint64" then U64 else if s =s? "float32" then F32 else if s =s? "float64" then F64
  else if s =s? "void" then TVoid else TOther.
(** RuntimeEvaluator.h:813-815 ByteSizeToDataMemorySize(numberOfBits / 8). *)
Definition words (t : ty) : Z := uwrap 16 ((bits t / 8 + 4 - 1) / 4).
Definition u16 (z : Z) : Z := uwrap 16 z.
Definition max16 : Z := 65535.

(** The integer type behind a type, and the number held by a bit pattern. *)
Definition ity_of (t : ty) : ity :=
  match t with
  | I8 => ITy 8 true | I16 => ITy 16 true | I32 => ITy 32 true | I64 => ITy 64 true
  | U8 => ITy 8 false | U16 => ITy 16 false | U32 => ITy 32 false | _ => ITy 64 false
  end.
Definition is_float (t : ty) : bool := match t with F32 | F64 => true | _ => false end.
Definition val (t : ty) (p : Z) : Z := cast (ity_of t) p.
Definition pat (t : ty) (z : Z) : Z := uwrap (bits t) z.

(** ** Memory of 32 bit words (DataMemoryElement): RuntimeEvaluator.h:817-857, the accesses of Pop, Push and
    Variable.  A value narrower than a word occupies its low bytes. *)
Definition upd (m : Z -> Z) (a v : Z) : Z -> Z := fun b => if b =? a then v else m b.
Definition set_low (n old v : Z) : Z := old - old mod 2 ^ n + v mod 2 ^ n.
Definition load (m : Z -> Z) (a : Z) (t : ty) : Z :=
  if words t =? 2 then m a mod 2 ^ 32 + 2 ^ 32 * (m (a + 1) mod 2 ^ 32) else m a mod 2 ^ bits t.
Definition store (m : Z -> Z) (a : Z) (t : ty) (v : Z) : Z -> Z :=
  if words t =? 2 then upd (upd m a (v mod 2 ^ 32)) (a + 1) (v / 2 ^ 32 mod 2 ^ 32)
  else upd m a (set_low (bits t) (m a) v).

(** ** The function table *)

(** What is not computed here: conversion of a text to a number (TypeConvert) and every function with a floating
    point operand or result (its value as a bit pattern, and whether it sets the error). *)
Record lib := Lib { conv : ty -> string -> option Z; fprim : string -> list ty -> ty -> list Z -> Z * bool }.

Definition fun_t := list Z -> option (Z * bool).  (* operands in pop order; None: undefined *)
Inductive body :=
| BRead (t : ty)                       (* RuntimeEvaluatorFunction.cpp:152-156 Read<T> *)
| BWrite (t : ty)                      (* 158-162 Write<T> *)
| BWriteConv (ti to_ : ty)             (* 974-987 Write_2T<Tin,Tout> *)
| BRRead (t : ty)                      (* 1022-1027 RRead<T> *)
| BRWrite (t : ty)                     (* 1028-1033 RWrite<T> *)
| BRWriteConv (ti to_ : ty)            (* 1057-1068 RWrite_2T<Tin,Tout> *)
| BFun (guard : bool) (pops : list ty) (push : ty) (f : fun_t).
(* [guard]: the function does nothing when an error is already set (SAddition_3T and the like, 530-576, 597-658) *)

(** RuntimeEvaluatorFunction.h:115-218: name, numberOfInputs, numberOfOutputs, types, function. *)
Record rfun := RF { rname : string; rnin : nat; rnout : nat; rtypes : list ty; rbody : body }.

Section Table.
Variable L : lib.

(** L0Types/TypeCharacteristics.h:233-256 SafeNumber2Number on bit patterns: (no saturation, result). *)
Definition n2n (ti to_ : ty) (p : Z) : bool * Z :=
  if is_float ti || is_float to_ then
    let '(z, e) := fprim L "SafeNumber2Number" [ti] to_ [p] in (negb e, pat to_ z)
  else let '(ok, z) := safe_number2number (ity_of ti) (ity_of to_) (val ti p) in (ok, pat to_ z).

Definition flib (name : string) (ins : list ty) (out : ty) : fun_t :=
  fun l => let '(z, e) := fprim L name ins out l in Some (pat out z, e).

(** 204-214 Casting<T1,T2>. *)
Definition f_cast (t1 t2 : ty) : fun_t :=
  fun l => match l with [x1] => let '(ok, x2) := n2n t1 t2 x1 in Some (x2, negb ok) | _ => None end.

Definition of_bool (b : bool) : Z := if b then 1 else 0.
(** 296-304 the comparison templates (GT, LT, GTE, LTE) on integers; 324-333 the equality templates
    (SafeMath::IsEqual on integers is ==). *)
Definition cmp_op (name : string) (x2 x1 : Z) : bool :=
  if name =s? "GT" then x2 >? x1 else if name =s? "LT" then x2 <? x1
  else if name =s? "GTE" then x2 >=? x1 else if name =s? "LTE" then x2 <=? x1
  else if name =s? "EQ" then (x2 =? x1)%Z else negb (x2 =? x1)%Z.
Definition f_cmp (name : string) (t : ty) : fun_t :=
  if is_float t then flib name [t; t] U8
  else fun l => match l with [x1; x2] => Some (of_bool (cmp_op name (val t x2) (val t x1)), false) | _ => None end.

(** 357-366 the logical templates: a byte other than 0 and 1 is not a bool. *)
Definition f_logic (name : string) : fun_t :=
  fun l => match l with
           | [x1; x2] =>
               if (x1 <=? 1) && (x2 <=? 1) then
                 let b1 := x1 =? 1 in let b2 := x2 =? 1 in
                 Some (of_bool (if name =s? "AND" then b2 && b1 else if name =s? "OR" then b2 || b1 else xorb b2 b1)%bool,
                       false)
               else None
           | _ => None
           end.
(** 383-390 NOT. *)
Definition f_not : fun_t := fun l => match l with [x1] => Some (of_bool (x1 =? 0), false) | _ => None end.

(** 432-446 NEG<T1,Tout>. *)
Definition f_neg (ti to_ : ty) : fun_t :=
  if is_float ti then flib "NEG" [ti] to_
  else fun l => match l with
                | [z1] => let '(sat, x1) := n2n ti to_ z1 in
                          if sat then if signed_ub (ity_of to_) (- val to_ x1) then None
                                      else Some (pat to_ (- val to_ x1), false)
                          else Some (0, true)
                | _ => None
                end.

(** 469-509 Addition_3T, Subtraction_3T, Multiplication_3T<T1,T2,Tout>. *)
Definition f_plain (op : Z -> Z -> Z) (t1 t2 to_ : ty) : fun_t :=
  fun l => match l with
           | [z1; z2] => let x1 := cast (ity_of to_) (val t1 z1) in let x2 := cast (ity_of to_) (val t2 z2) in
                         Some (pat to_ (op x2 x1), false)
           | _ => None
           end.
(** 511-528 Division_3T; the quotient of the least integer by -1 does not exist. *)
Definition quot (to_ : ty) (x2 x1 : Z) : option Z :=
  if isgn (ity_of to_) && (x1 =? -1) && (x2 =? imin (ity_of to_)) then None else Some (pat to_ (Z.quot x2 x1)).
Definition f_div (t1 t2 to_ : ty) : fun_t :=
  fun l => match l with
           | [z1; z2] =>
               if negb (val t1 z1 =? 0) then
                 let x1 := cast (ity_of to_) (val t1 z1) in let x2 := cast (ity_of to_) (val t2 z2) in
                 match quot to_ x2 x1 with Some x3 => Some (x3, false) | None => None end
               else Some (0, true)
           | _ => None
           end.
(** 578-595 SDivision_3T. *)
Definition f_sdiv (t1 t2 to_ : ty) : fun_t :=
  fun l => match l with
           | [z1; z2] =>
               let '(sat1, x1) := n2n t1 to_ z1 in let '(sat2, x2) := n2n t2 to_ z2 in
               if negb (val t1 z1 =? 0) && sat1 && sat2 then
                 match quot to_ (val to_ x2) (val to_ x1) with Some x3 => Some (x3, false) | None => None end
               else Some (0, true)
           | _ => None
           end.
(** L1Portability/SafeMath.h:232-312, the sum, difference and product of x2 and x1 with the error. *)
Definition safe_op (name : string) (t : ity) (x2 x1 : Z) : Z * bool :=
  if name =s? "ADD" then let '(e, s) := sm_add t x2 x1 in (s, match e with SmOk => false | _ => true end)
  else if name =s? "SUB" then let '(e, s) := sm_sub t x2 x1 in (s, match e with SmOk => false | _ => true end)
  else let '(o, u, s) := sm_mul t x2 x1 in (s, (o || u)%bool).
(** 530-576 SAddition_3T, SSubtraction_3T, SMultiplication_3T. *)
Definition f_safe (name : string) (t1 t2 to_ : ty) : fun_t :=
  fun l => match l with
           | [z1; z2] => let x1 := cast (ity_of to_) (val t1 z1) in let x2 := cast (ity_of to_) (val t2 z2) in
                         let '(x3, e) := safe_op name (ity_of to_) x2 x1 in Some (pat to_ x3, e)
           | _ => None
           end.
(** 597-658 SSAddition_3T, SSSubtraction_3T, SSMultiplication_3T. *)
Definition f_ssafe (name : string) (t1 t2 to_ : ty) : fun_t :=
  fun l => match l with
           | [z1; z2] =>
               let '(sat1, x1) := n2n t1 to_ z1 in let '(sat2, x2) := n2n t2 to_ z2 in
               if sat1 && sat2 then
                 let '(x3, e) := safe_op name (ity_of to_) (val to_ x2) (val to_ x1) in Some (pat to_ x3, e)
               else Some (0, true)
           | _ => None
           end.
(** 806-924 Greater_3T ... Different_3T<T1,T2,Ttest>. *)
Definition f_cmp3 (name : string) (t1 t2 tq : ty) : fun_t :=
  fun l => match l with
           | [x1; x2] =>
               let '(ret1, z1) := n2n t1 tq x1 in let '(ret2, z2) := n2n t2 tq x2 in
               if ret1 && ret2 then Some (of_bool (cmp_op name (val tq z2) (val tq z1)), false) else Some (0, true)
           | _ => None
           end.

(** The registration macros, in the order of the file: the records are registered by static objects. *)
Definition all_ty : list ty := [F64; F32; U64; I64; U32; I32; U16; I16; U8; I8].
Definition binary (name : string) (guard : bool) (t1 t2 out : ty) (f : fun_t) : rfun :=
  RF name 2 1 [t1; t2; out] (BFun guard [t1; t2] out f).
Definition unary (name : string) (t out : ty) (f : fun_t) : rfun := RF name 1 1 [t; out] (BFun false [t] out f).
(** 661-663 REGISTER_2T_OPERATOR and 666-670 REGISTER_3T_OPERATOR; the template by its prefix. *)
Inductive tmpl := Plain | Safe | SSafe | Div | SDiv.
Definition arith (name : string) (k : tmpl) (t1 t2 out : ty) : rfun :=
  match k with
  | Plain => binary name false t1 t2 out
               (f_plain (if name =s? "ADD" then Z.add else if name =s? "SUB" then Z.sub else Z.mul) t1 t2 out)
  | Safe => binary name true t1 t2 out (f_safe name t1 t2 out)
  | SSafe => binary name true t1 t2 out (f_ssafe name t1 t2 out)
  | Div => binary name false t1 t2 out (f_div t1 t2 out)
  | SDiv => binary name false t1 t2 out (f_sdiv t1 t2 out)
  end.
Definition op2 (name : string) (k : tmpl) (t out : ty) : list rfun := [arith name k t t out].
Definition op3 (name : string) (k : tmpl) (t1 t2 out : ty) : list rfun :=
  [arith name k t1 t2 out; arith name k t2 t1 out].
(** 928-932 REGISTER_2T_COMP_OPERATOR, 934-954 its block. *)
Definition comp (name : string) (p : ty * ty) : list rfun :=
  let '(t, tq) := p in
  [binary name false t tq U8 (f_cmp3 name t tq tq); binary name false tq t U8 (f_cmp3 name tq t tq)].
Definition comp_block : list (ty * ty) :=
  [(I8, I32); (I16, I32); (U8, I32); (U16, I32); (U32, I32);
   (I8, I64); (I16, I64); (I32, I64); (U8, I64); (U16, I64); (U32, I64); (U64, I64);
   (U8, U32); (U16, U32); (I8, U64); (I16, U64); (I32, U64); (U8, U64); (U16, U64); (U32, U64)].
(** 992-1010 and 1070-1086 the pairs of REGISTER_WRITECONV. *)
Definition write_conv : list (ty * ty) :=
  [(U64, U8); (U64, U16); (U64, U32); (I64, U8); (I64, U16); (I64, U32); (I64, U64); (I64, I8); (I64, I16);
   (I64, I32); (U32, U8); (U32, U16); (I32, U8); (I32, U16); (I32, U32); (I32, I8); (I32, I16)].

Definition table : list rfun :=
  (* 164-173 *) map (fun t => RF "READ" 0 1 [t] (BRead t)) all_ty ++
  (* 175-184 *) map (fun t => RF "WRITE" 1 0 [t; t] (BWrite t)) all_ty ++
  (* 216-237 *) flat_map (fun t1 => map (fun t2 => unary "CAST" t1 t2 (f_cast t1 t2)) all_ty) all_ty ++
  (* 247-266 *) flat_map (fun n => map (fun t => unary n t t (flib n [t] t)) [F32; F64])
                  ["SIN"; "COS"; "TAN"; "EXP"; "LOG"; "LOG10"] ++
  (* 268-285 *) map (fun t => binary "POW" false t t t (flib "POW" [t; t] t)) [F32; F64] ++
  (* 296-320, 324-346 *) flat_map (fun n => map (fun t => binary n false t t U8 (f_cmp n t)) all_ty)
                  ["GT"; "LT"; "GTE"; "LTE"; "EQ"; "NEQ"] ++
  (* 357-371 *) map (fun n => binary n false U8 U8 U8 (f_logic n)) ["AND"; "OR"; "XOR"] ++
  (* 383-393 *) [unary "NOT" U8 U8 f_not] ++
  (* 404-420 *) flat_map (fun n => map (fun t => binary n false t t t (flib n [t; t] t)) [F64; F32])
                  ["ADD"; "SUB"; "MUL"; "DIV"] ++
  (* 432-458 *) map (fun p => unary "NEG" (fst p) (snd p) (f_neg (fst p) (snd p)))
                  [(F64, F64); (F32, F32); (I8, I8); (I16, I16); (I32, I32); (I64, I64); (U8, I16); (U16, I32);
                   (U32, I64); (U64, I64)] ++
  (* 673-703 *)
  op2 "ADD" Plain I8 I32 ++ op2 "ADD" Plain I16 I32 ++ op2 "ADD" Safe I32 I32 ++ op2 "ADD" Plain I32 I64 ++
  op2 "ADD" Safe I64 I64 ++ op2 "ADD" Plain U8 U32 ++ op2 "ADD" Plain U16 U32 ++ op2 "ADD" Safe U32 U32 ++
  op2 "ADD" Plain U32 U64 ++ op2 "ADD" Safe U64 U64 ++
  op3 "ADD" Safe I8 I32 I32 ++ op3 "ADD" Safe I16 I32 I32 ++ op3 "ADD" Safe U8 I32 I32 ++
  op3 "ADD" Safe U16 I32 I32 ++ op3 "ADD" SSafe U32 I32 I32 ++
  op3 "ADD" Safe I8 I64 I64 ++ op3 "ADD" Safe I16 I64 I64 ++ op3 "ADD" Safe I32 I64 I64 ++
  op3 "ADD" Safe U8 I64 I64 ++ op3 "ADD" Safe U16 I64 I64 ++ op3 "ADD" Safe U32 I64 I64 ++
  op3 "ADD" SSafe U64 I64 I64 ++
  op3 "ADD" Safe U8 U32 U32 ++ op3 "ADD" Safe U16 U32 U32 ++
  op3 "ADD" Safe U8 U64 U64 ++ op3 "ADD" Safe U16 U64 U64 ++ op3 "ADD" Safe U32 U64 U64 ++
  (* 706-730 *)
  op2 "SUB" Plain I8 I32 ++ op2 "SUB" Plain I16 I32 ++ op2 "SUB" Safe I32 I32 ++ op2 "SUB" Safe I64 I64 ++
  op2 "SUB" Plain U8 I32 ++ op2 "SUB" Plain U16 I32 ++ op2 "SUB" SSafe U32 I32 ++ op2 "SUB" SSafe U64 I64 ++
  op3 "SUB" Safe I8 I32 I32 ++ op3 "SUB" Safe I16 I32 I32 ++ op3 "SUB" Safe U8 I32 I32 ++
  op3 "SUB" Safe U16 I32 I32 ++ op3 "SUB" SSafe U32 I32 I32 ++
  op3 "SUB" Safe I8 I64 I64 ++ op3 "SUB" Safe I16 I64 I64 ++ op3 "SUB" Safe I32 I64 I64 ++
  op3 "SUB" Safe U8 I64 I64 ++ op3 "SUB" Safe U16 I64 I64 ++ op3 "SUB" Safe U32 I64 I64 ++
  op3 "SUB" SSafe U64 I64 I64 ++ op3 "SUB" SSafe U8 U32 I32 ++ op3 "SUB" SSafe U16 U32 I32 ++
  op3 "SUB" SSafe U8 U64 I64 ++ op3 "SUB" SSafe U16 U64 I64 ++ op3 "SUB" SSafe U32 U64 I64 ++
  (* 733-763 *)
  op2 "MUL" Plain I8 I32 ++ op2 "MUL" Plain I16 I32 ++ op2 "MUL" Safe I32 I32 ++ op2 "MUL" Plain I32 I64 ++
  op2 "MUL" Safe I64 I64 ++ op2 "MUL" Plain U8 U32 ++ op2 "MUL" Plain U16 U32 ++ op2 "MUL" Safe U32 U32 ++
  op2 "MUL" Plain U32 U64 ++ op2 "MUL" Safe U64 U64 ++
  op3 "MUL" Safe I8 I32 I32 ++ op3 "MUL" Safe I16 I32 I32 ++ op3 "MUL" Safe U8 I32 I32 ++
  op3 "MUL" Safe U16 I32 I32 ++ op3 "MUL" SSafe U32 I32 I32 ++
  op3 "MUL" Safe I8 I64 I64 ++ op3 "MUL" Safe I16 I64 I64 ++ op3 "MUL" Safe I32 I64 I64 ++
  op3 "MUL" Safe U8 I64 I64 ++ op3 "MUL" Safe U16 I64 I64 ++ op3 "MUL" Safe U32 I64 I64 ++
  op3 "MUL" SSafe U64 I64 I64 ++
  op3 "MUL" Safe U8 U32 U32 ++ op3 "MUL" Safe U16 U32 U32 ++
  op3 "MUL" Safe U8 U64 U64 ++ op3 "MUL" Safe U16 U64 U64 ++ op3 "MUL" Safe U32 U64 U64 ++
  (* 766-794 *)
  op2 "DIV" Div I8 I32 ++ op2 "DIV" Div I16 I32 ++ op2 "DIV" Div I32 I32 ++ op2 "DIV" Div I64 I64 ++
  op2 "DIV" Div U8 U32 ++ op2 "DIV" Div U16 U32 ++ op2 "DIV" Div U32 U32 ++ op2 "DIV" Div U64 U64 ++
  op3 "DIV" Div I8 I32 I32 ++ op3 "DIV" Div I16 I32 I32 ++ op3 "DIV" Div U8 I32 I32 ++
  op3 "DIV" Div U16 I32 I32 ++ op3 "DIV" SDiv U32 I32 I32 ++
  op3 "DIV" Div I8 I64 I64 ++ op3 "DIV" Div I16 I64 I64 ++ op3 "DIV" Div I32 I64 I64 ++
  op3 "DIV" Div U8 I64 I64 ++ op3 "DIV" Div U16 I64 I64 ++ op3 "DIV" Div U32 I64 I64 ++
  op3 "DIV" SDiv U64 I64 I64 ++
  op3 "DIV" Div U8 U32 U32 ++ op3 "DIV" Div U16 U32 U32 ++
  op3 "DIV" Div U8 U64 U64 ++ op3 "DIV" Div U16 U64 U64 ++ op3 "DIV" Div U32 U64 U64 ++
  (* 956-961 *) flat_map (fun n => flat_map (comp n) comp_block) ["GT"; "LT"; "GTE"; "LTE"; "EQ"; "NEQ"] ++
  (* 994-1010 *) map (fun p => RF "WRITE" 1 0 [fst p; snd p] (BWriteConv (fst p) (snd p))) write_conv ++
  (* 1035-1055 *) map (fun t => RF "RREAD" 0 1 [t] (BRRead t)) all_ty ++
  map (fun t => RF "RWRITE" 1 0 [t; t] (BRWrite t)) all_ty ++
  (* 1070-1086 *) map (fun p => RF "RWRITE" 1 0 [fst p; snd p] (BRWriteConv (fst p) (snd p))) write_conv.

(** ** Overload resolution *)

(** RuntimeEvaluatorFunction.cpp:57-107 TryConsume.  The type stack is a list, top first. *)
Fixpoint peek_all (want : list ty) (st : list ty) : option (list ty) :=  (* the rest of the stack *)
  match want, st with
  | [], _ => Some st
  | t :: want', s :: st' => if ty_eqb s t then peek_all want' st' else None
  | _ :: _, [] => None
  end.
Definition sum_words (l : list ty) : Z := fold_right (fun t s => words t + s) 0 l.
Definition outs_of (r : rfun) : list ty := firstn (rnout r) (skipn (rnin r) (rtypes r)).
Definition ins_of (r : rfun) : list ty := firstn (rnin r) (rtypes r).
Definition try_consume (r : rfun) (name : string) (st : list ty) (match_out : bool) (dss : Z) :
  option (list ty * Z) :=
  if rname r =s? name then
    match (if match_out then peek_all (firstn 1 (skipn (rnin r) (rtypes r))) st else Some st) with
    | Some st1 =>
        match peek_all (ins_of r) st1 with
        | Some st2 => Some (rev (outs_of r) ++ st2, u16 (u16 (dss - sum_words (ins_of r)) + sum_words (outs_of r)))
        | None => None
        end
    | None => None
    end
  else None.
(** 129-140 FindPCodeAndUpdateTypeStack. *)
Fixpoint find_pcode (tab : list rfun) (i : Z) (name : string) (st : list ty) (match_out : bool) (dss : Z) :
  option (Z * (list ty * Z)) :=
  match tab with
  | [] => None
  | r :: tab' => match try_consume r name st match_out dss with
                 | Some x => Some (i, x)
                 | None => find_pcode tab' (i + 1) name st match_out dss
                 end
  end.

(** ** Variables *)

(** VariableInformation.h:79-138; [vext] = 0 is a NULL externalLocation. *)
Record var := V { vname : string; vty : ty; vloc : Z; vext : Z; vused : bool }.
(** The evaluator (RuntimeEvaluator.h:692-804).  [data] is the content of dataMemory, [dsize] its number of
    words, [ssize] the number of words of the stack. *)
Record ev := EV { ins : list var; outs : list var; start : Z; code : list Z; ssize : Z; data : Z -> Z; dsize : Z }.

(** RuntimeEvaluator.cpp:143-158 FindVariableinDB.  The code takes the last match; names are unique
    (AddVariable2DB refuses duplicates). *)
Definition find_var (x : string) (l : list var) : option var := List.find (fun v => vname v =s? x) l.
(** 160-183 AddVariable2DB. *)
Definition add_var (x : string) (t : ty) (loc : Z) (l : list var) : option (list var) :=
  match find_var x l with Some _ => None | None => Some (l ++ [V x t loc 0 false]) end.

(** "Constant@%u". *)
Definition digit (z : Z) : Ascii.ascii := Ascii.ascii_of_N (Z.to_N (48 + z)).
Fixpoint dec (fuel : nat) (z : Z) (acc : string) : string :=
  match fuel with
  | O => acc
  | S f => let acc := String (digit (z mod 10)) acc in if z <? 10 then acc else dec f (z / 10) acc
  end.
Definition const_name (a : Z) : string := ("Constant@" ++ dec 5 a "")%string.

(** The words of a line: READ and WRITE have one parameter, CAST one, CONST two (259-335, 686-884); further words
    of the other commands are ignored. *)
(** 224-347 ExtractVariables: one line; the state is (inputs, outputs, nextConstantAddress). *)
Definition extract_line (s : list var * list var * Z) (l : list string) : res (list var * list var * Z) :=
  let '(vi, vo, next) := s in
  match l with
  | [] => Ok s
  | cmd :: params =>
      if cmd =s? "READ" then
        match params with
        | [x] => match find_var x vo with
                 | Some _ => Ok s
                 | None => match add_var x TVoid max16 vi with
                           | Some vi' => Ok (vi', vo, next)
                           | None => Ok s             (* already registered *)
                           end
                 end
        | _ => Fail
        end
      else if cmd =s? "WRITE" then
        match params with
        | [x] => do vo' <- of_opt (add_var x TVoid max16 vo); Ok (vi, vo', next)
        | _ => Fail
        end
      else if cmd =s? "CONST" then
        match params with
        | [t; _] =>
            let td := ty_of_name t in
            if numeric td then
              do vi' <- of_opt (add_var (const_name next) td next vi); Ok (vi', vo, u16 (next + words td))
            else Fail
        | _ => Fail
        end
      else Ok s
  end.
Fixpoint extract_lines (p : list (list string)) s : res (list var * list var * Z) :=
  match p with [] => Ok s | l :: p' => do s' <- extract_line s l; extract_lines p' s' end.
Definition extract (p : list (list string)) : res ev :=
  do (vi, vo, next) <- extract_lines p ([], [], 0); Ok (EV vi vo next [] 0 (fun _ => 0) 0).

(** 431-558 SetInputVariableMemory, SetOutputVariableMemory, SetInputVariableType, SetOutputVariableType by name:
    the first variable of that name. *)
Inductive setting :=
| SetInMem (x : string) (p : Z) | SetOutMem (x : string) (p : Z) | SetInType (x : string) (t : ty)
| SetOutType (x : string) (t : ty).
Fixpoint update_first (x : string) (f : var -> var) (l : list var) : list var :=
  match l with
  | [] => []
  | v :: l' => if vname v =s? x then f v :: l' else v :: update_first x f l'
  end.
Definition with_ext (p : Z) (v : var) : var := V (vname v) (vty v) (vloc v) p (vused v).
Definition with_ty (t : ty) (v : var) : var := V (vname v) t (vloc v) (vext v) (vused v).
Definition with_loc (a : Z) (v : var) : var := V (vname v) (vty v) a (vext v) (vused v).
Definition with_used (v : var) : var := V (vname v) (vty v) (vloc v) (vext v) true.
Definition with_vars (e : ev) (vi vo : list var) : ev := EV vi vo (start e) (code e) (ssize e) (data e) (dsize e).
Definition set_one (e : ev) (s : setting) : ev :=
  match s with
  | SetInMem x p => with_vars e (update_first x (with_ext p) (ins e)) (outs e)
  | SetOutMem x p => with_vars e (ins e) (update_first x (with_ext p) (outs e))
  | SetInType x t => with_vars e (update_first x (with_ty t) (ins e)) (outs e)
  | SetOutType x t => with_vars e (ins e) (update_first x (with_ty t) (outs e))
  end.
Definition configure (e : ev) (s : list setting) : ev := fold_left set_one s e.

(** ** Compile (575-962) *)

(** 586-607 the locations of the input variables, 609-635 those of the output variables; the state is
    nextVariableAddress.  sizeof(void pointer) and sizeof(float64) take two words. *)
Fixpoint place_ins (l : list var) (next : Z) : res (list var * Z) :=
  match l with
  | [] => Ok ([], next)
  | v :: l' =>
      if numeric (vty v) then
        let '(v', next') :=
          if vloc v =? max16 then (with_loc next v, u16 (next + if vext v =? 0 then words (vty v) else 2))
          else (v, next) in
        do (r, n) <- place_ins l' next'; Ok (v' :: r, n)
      else Fail
  end.
Fixpoint place_outs (l : list var) (next : Z) : res (list var * Z) :=
  match l with
  | [] => Ok ([], next)
  | v :: l' =>
      if ty_eqb (vty v) TVoid && (vext v =? 0) then
        do (r, n) <- place_outs l' (u16 (next + 2)); Ok (with_loc next v :: r, n)
      else if numeric (vty v) then
        do (r, n) <- place_outs l' (u16 (next + if vext v =? 0 then words (vty v) else 2));
        Ok (with_loc next v :: r, n)
      else Fail
  end.

(** 642-646 the state of the compilation loop; [c_code] is codeMemory, newest element first. *)
Record cst := C { c_in : list var; c_out : list var; c_ts : list ty; c_max : Z; c_size : Z; c_next : Z;
                  c_code : list Z; c_data : Z -> Z; c_dsize : Z }.

(** 886-933 the end of every command: find the function, add the code and its operand. *)
Definition emit (c : cst) (name : string) (ts : list ty) (match_out : bool) (code2 : Z) : res cst :=
  match find_pcode table 0 name ts match_out (c_size c) with
  | None => Fail
  | Some (k, (ts', size')) =>
      let max' := if size' >? c_max c then size' else c_max c in
      let code' := k :: c_code c in
      let code'' := if code2 =? max16 then code' else code2 :: code' in
      Ok (C (c_in c) (c_out c) ts' max' size' (c_next c) code'' (c_data c) (c_dsize c))
  end.
(** 735, 809: Variable<void pointer>(location) = externalLocation. *)
Definition put_data (c : cst) (a : Z) (t : ty) (v : Z) : res cst :=
  if (0 <=? a) && (a + words t <=? c_dsize c) then
    Ok (C (c_in c) (c_out c) (c_ts c) (c_max c) (c_size c) (c_next c) (c_code c) (store (c_data c) a t v)
          (c_dsize c))
  else Undef.
Definition set_out (c : cst) (x : string) (f : var -> var) : cst :=
  C (c_in c) (update_first x f (c_out c)) (c_ts c) (c_max c) (c_size c) (c_next c) (c_code c) (c_data c) (c_dsize c).

Definition compile_line (c : cst) (l : list string) : res cst :=
  match l with
  | [] => Ok c
  | cmd :: params =>
      if cmd =s? "CAST" then                                                             (* 686-709 *)
        match params with
        | [t] => let td := ty_of_name t in
                 if numeric td then emit c "CAST" (td :: c_ts c) true max16 else Fail
        | _ => Fail
        end
      else if cmd =s? "WRITE" then                                                       (* 717-773 *)
        match params with
        | [x] =>
            do v <- of_opt (find_var x (c_out c));
            do c1 <- (if vext v =? 0 then Ok c else put_data c (vloc v) U64 (vext v));
            do td <- (if ty_eqb (vty v) TVoid && (vext v =? 0) then of_opt (hd_error (c_ts c))
                      else if numeric (vty v) then Ok (vty v) else Fail);
            let c2 := set_out c1 x (fun v => with_used (if ty_eqb (vty v) TVoid && (vext v =? 0)
                                                         then with_ty td v else v)) in
            emit c2 (if vext v =? 0 then "WRITE" else "RWRITE") (td :: c_ts c) true (vloc v)
        | _ => Fail
        end
      else if cmd =s? "READ" then                                                        (* 782-834 *)
        match params with
        | [x] =>
            do v <- of_opt (match find_var x (c_out c) with
                            | Some v => if vused v then Some v else find_var x (c_in c)
                            | None => find_var x (c_in c)
                            end);
            do c1 <- (if vext v =? 0 then Ok c else put_data c (vloc v) U64 (vext v));
            if numeric (vty v) then
              emit c1 (if vext v =? 0 then "READ" else "RREAD") (vty v :: c_ts c) true (vloc v)
            else Fail
        | _ => Fail
        end
      else if cmd =s? "CONST" then                                                       (* 842-884 *)
        match params with
        | [t; txt] =>
            let td := ty_of_name t in
            if numeric td then
              do v <- of_opt (conv L td txt);
              do c1 <- put_data c (c_next c) td v;
              let c2 := C (c_in c1) (c_out c1) (c_ts c1) (c_max c1) (c_size c1) (u16 (c_next c1 + words td))
                          (c_code c1) (c_data c1) (c_dsize c1) in
              emit c2 "READ" (td :: c_ts c) true (c_next c)
            else Fail
        | _ => Fail
        end
      else emit c cmd (c_ts c) false max16
  end.
Fixpoint compile_lines (p : list (list string)) (c : cst) : res cst :=
  match p with [] => Ok c | l :: p' => do c' <- compile_line c l; compile_lines p' c' end.

(** 575-962 Compile; [d0] is the content of the memory dataMemory.SetSize provides. *)
Definition compile (p : list (list string)) (e : ev) (d0 : Z -> Z) : res ev :=
  do (vi, n1) <- place_ins (ins e) (start e);
  do (vo, n2) <- place_outs (outs e) n1;
  do c <- compile_lines p (C vi vo [] 0 0 0 [] d0 n2);
  match c_ts c with
  | [] => Ok (EV (c_in c) (c_out c) (start e) (rev (c_code c)) (c_max c) (c_data c) (c_dsize c))
  | _ => Fail                                                                           (* 954-959 *)
  end.

(** ** Execute (1134-1260) *)

(** [emem]: the objects the external locations point to, by address (objects do not overlap). *)
Record mach := M { sp : Z; smem : Z -> Z; dmem : Z -> Z; emem : Z -> Z; merr : bool }.

Section Run.
Variable e : ev.
(** RuntimeEvaluator.h:817-828 Pop, 844-851 Push: stackPtr is in words from the bottom. *)
Definition pop (m : mach) (t : ty) : option (Z * mach) :=
  let sp' := sp m - words t in
  if (0 <=? sp') && (sp m <=? ssize e) then Some (load (smem m) sp' t, M sp' (smem m) (dmem m) (emem m) (merr m))
  else None.
Definition push (m : mach) (t : ty) (v : Z) : option mach :=
  if (0 <=? sp m) && (sp m + words t <=? ssize e) then
    Some (M (sp m + words t) (store (smem m) (sp m) t v) (dmem m) (emem m) (merr m))
  else None.
(** 853-857 Variable<T>(index), read and written. *)
Definition var_get (m : mach) (a : Z) (t : ty) : option Z :=
  if (0 <=? a) && (a + words t <=? dsize e) then Some (load (dmem m) a t) else None.
Definition var_set (m : mach) (a : Z) (t : ty) (v : Z) : option mach :=
  if (0 <=? a) && (a + words t <=? dsize e) then Some (M (sp m) (smem m) (store (dmem m) a t v) (emem m) (merr m))
  else None.
Definition set_err (m : mach) (b : bool) : mach := M (sp m) (smem m) (dmem m) (emem m) (merr m || b).
Definition ext_set (m : mach) (p : Z) (t : ty) (v : Z) : mach :=
  M (sp m) (smem m) (dmem m) (upd (emem m) p (set_low (bits t) (emem m p) v)) (merr m).

Fixpoint pop_all (m : mach) (l : list ty) : option (list Z * mach) :=
  match l with
  | [] => Some ([], m)
  | t :: l' => match pop m t with
               | None => None
               | Some (v, m1) => match pop_all m1 l' with Some (vs, m2) => Some (v :: vs, m2) | None => None end
               end
  end.

Definition operand (b : body) : bool := match b with BFun _ _ _ _ => false | _ => true end.
(** The functions of the table; [a] is the operand read from the code. *)
Definition exec_body (b : body) (a : Z) (m : mach) : option mach :=
  match b with
  | BRead t => match var_get m a t with Some v => push m t v | None => None end
  | BWrite t => match pop m t with Some (v, m1) => var_set m1 a t v | None => None end
  | BWriteConv ti to_ =>
      match pop m ti with
      | Some (v, m1) => let '(ok, x2) := n2n ti to_ v in var_set (set_err m1 (negb ok)) a to_ x2
      | None => None
      end
  | BRRead t => match var_get m a U64 with Some p => push m t (emem m p mod 2 ^ bits t) | None => None end
  | BRWrite t =>
      match var_get m a U64 with
      | Some p => match pop m t with Some (v, m1) => Some (ext_set m1 p t v) | None => None end
      | None => None
      end
  | BRWriteConv ti to_ =>
      match pop m ti with
      | Some (v, m1) => match var_get m1 a U64 with
                        | Some p => let '(ok, x2) := n2n ti to_ v in Some (ext_set (set_err m1 (negb ok)) p to_ x2)
                        | None => None
                        end
      | None => None
      end
  | BFun guard pops out f =>
      if guard && merr m then Some m
      else match pop_all m pops with
           | Some (vs, m1) => match f vs with
                              | Some (v, er) => push (set_err m1 er) out v
                              | None => None
                              end
           | None => None
           end
  end.

Inductive mode := Fast | SafeMode.
(** 1146-1172: [togo] is codeMemoryMaxPtr - codeMemoryPtr, [rest] the code from codeMemoryPtr on; the result has the
    value of [togo] at the end.  Reading beyond the code is undefined. *)
Fixpoint run (md : mode) (rest : list Z) (togo : Z) (m : mach) : option (mach * Z) :=
  if togo <=? 0 then Some (m, togo)
  else match rest with
       | [] => None
       | k :: rest1 =>
           match nth_error table (Z.to_nat k) with
           | None => None
           | Some r =>
               let continue := fun rest' togo' m' =>
                 match md with
                 | Fast => run md rest' togo' m'
                 | SafeMode =>
                     let m2 := set_err m' ((sp m' >? ssize e) || (sp m' <? 0)) in
                     if merr m2 then Some (m2, togo') else run md rest' togo' m2
                 end in
               if operand (rbody r) then
                 match rest1 with
                 | [] => None
                 | a :: rest2 => match exec_body (rbody r) a m with
                                 | Some m' => continue rest2 (togo - 2) m'
                                 | None => None
                                 end
                 end
               else match exec_body (rbody r) 0 m with
                    | Some m' => continue rest1 (togo - 1) m'
                    | None => None
                    end
           end
       end.
End Run.

(** 1134-1260 Execute: (an error is returned, final memories); [s0] is the content of the stack memory. *)
Definition execute (md : mode) (e : ev) (s0 d e0 : Z -> Z) : option (bool * mach) :=
  match run e md (code e) (u16 (Z.of_nat (List.length (code e)))) (M 0 s0 d e0 false) with
  | None => None
  | Some (m, togo) =>
      let err := match md with Fast => merr m | SafeMode => merr m || (togo >? 0) end in
      Some (err || negb (sp m =? 0), m)
  end.
End Table.

(** 349-429 GetInputVariableMemory, GetOutputVariableMemory: where the value of a variable is. *)
Inductive where_ := Internal (a : Z) | External (p : Z) | Nowhere.
Definition memory_of (x : string) (l : list var) : where_ :=
  match find_var x l with
  | Some v => if vext v =? 0 then Internal (vloc v) else External (vext v)
  | None => Nowhere
  end.
