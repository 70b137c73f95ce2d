(** C35: programs of the runtime evaluator. *)
From Coq Require Import String.
From Verif Require Import Base IntArith_Model RuntimeEval_Model RuntimeEval_Spec RuntimeEval_Proofs RuntimeEval_Proofs6
  RuntimeEval_Proofs7.
Open Scope string_scope.
Open Scope Z_scope.
Open Scope list_scope.

(** A program that the evaluator accepts (ExtractVariables, any settings, Compile) executes, from any stack content
    and any values of the variables, as the stack machine does: without an error when the machine has none, with
    the error when the machine has one (safe mode), and without ever leaving the stack or the memory allocated by the
    compilation, unless an operation itself is undefined.  [None] stands for any access out of bounds. *)
Theorem C35_accepted_program_computes_its_stack_semantics_partial :
  forall L p st e0 d0 e s0 d x0,
    plain p st -> extract p = Ok e0 -> compile L p (configure e0 st) d0 = Ok e -> user_changed e d ->
    match srun L (config_of st) p (initial e d x0) with
    | SDone s => forall md, exists m, execute L md e s0 d x0 = Some (false, m) /\ after_exec e (config_of st) d s m
    | SError s => exists m, execute L SafeMode e s0 d x0 = Some (true, m) /\ after_exec e (config_of st) d s m
    | SUndef => forall md, execute L md e s0 d x0 = None
    | SStuck => False
    end.
Proof. exact execution. Qed.
Print Assumptions C35_accepted_program_computes_its_stack_semantics_partial.

(** Compilation itself never writes outside of the memory it allocated. *)
Theorem C35_compilation_stays_in_its_memory :
  forall L p st e0 d0, plain p st -> extract p = Ok e0 -> compile L p (configure e0 st) d0 <> Undef.
Proof. exact compile_defined. Qed.
Print Assumptions C35_compilation_stays_in_its_memory.

(** Every integer overload of the four operators and of the comparisons gives the mathematical result, or reports
    an error; it reports one only when the result is not a number of the result type, for operands whose types are
    contained in the result type (the type of the comparison). *)
Theorem C35_integer_operators_are_exact :
  forall L r g t1 t2 out f,
    In r (table L) -> rbody r = BFun g [t1; t2] out f -> integer t1 = true -> integer t2 = true -> integer out = true ->
    arithmetic (rname r) || comparison (rname r) = true ->
    forall x1 x2,
    match f [x1; x2] with
    | Some (v, false) => int_result (rname r) (val t2 x2) (val t1 x1) = Some (val out v)
    | Some (v, true) =>
        (if arithmetic (rname r) then widens t1 out && widens t2 out else widens t1 t2 || widens t2 t1) = true ->
        forall z, int_result (rname r) (val t2 x2) (val t1 x1) = Some z -> in_range out z = false
    | None => rname r = "DIV" /\ forall z, int_result (rname r) (val t2 x2) (val t1 x1) = Some z -> in_range out z = false
    end.
Proof.
  intros L r g t1 t2 out f I. pose proof (table_exact L) as T. rewrite Forall_forall in T. apply (T r I).
Qed.
Print Assumptions C35_integer_operators_are_exact.

(** CAST saturates, and reports an error exactly when the number does not fit; NEG negates, except for the least
    number of the result type. *)
Theorem C35_integer_conversions_are_exact :
  forall L r g t out f, In r (table L) -> rbody r = BFun g [t] out f -> integer t = true -> integer out = true ->
    forall x,
    (rname r = "CAST" -> exists v, f [x] = Some (v, negb (in_range out (val t x))) /\
       val out v = Z.max (least out) (Z.min (greatest out) (val t x))) /\
    (rname r = "NEG" ->
     match f [x] with
     | Some (v, false) => val t x <> least out -> val out v = - val t x
     | Some (v, true) => in_range out (val t x) = false
     | None => val t x = least out
     end).
Proof.
  intros L r g t out f I B It Io x. pose proof (table_cast L) as T. pose proof (table_neg L) as N.
  rewrite Forall_forall in T, N. split; intros E.
  - exact (T r I g t out f E B It Io x).
  - exact (N r I g t out f E B It Io x).
Qed.
Print Assumptions C35_integer_conversions_are_exact.

(** ** A concrete program *)
Definition lib0 : lib := Lib (fun t s => if s =s? "7" then Some 7 else if s =s? "0" then Some 0 else None) (fun _ _ _ _ => (0, false)).
Definition prog : list (list string) :=
  [["READ"; "a"]; ["READ"; "b"]; ["MUL"]; ["CONST"; "int32"; "7"]; ["ADD"]; ["WRITE"; "y"];
   ["READ"; "y"]; ["CAST"; "int8"]; ["WRITE"; "z"]].
Definition sets : list setting := [SetInType "a" I32; SetInType "b" I16; SetOutType "y" I16; SetOutMem "y" 4096].
Definition data0 (a0 b0 : Z) (e : ev) : Z -> Z :=
  match find_var "a" (ins e), find_var "b" (ins e) with
  | Some va, Some vb => store (store (data e) (vloc va) I32 a0) (vloc vb) I16 b0
  | _, _ => data e
  end.

Lemma prog_plain : plain prog sets.
Proof.
  split; [vm_compute; discriminate|]. split.
  - unfold prog. repeat apply Forall_cons; try apply Forall_nil; cbn [plain_line];
      (split; [discriminate|split; [discriminate|]]); intros [E|E]; try discriminate E; repeat constructor.
  - unfold sets. repeat apply Forall_cons; try apply Forall_nil; cbn [plain_setting]; try split; try lia; reflexivity.
Qed.

(** The hypotheses hold, with values of the inputs chosen by the user; the machine finishes with 6 * -3 + 7 in the
    user's object and in z. *)
Example C35_example :
  exists e0 e, plain prog sets /\ extract prog = Ok e0 /\ compile lib0 prog (configure e0 sets) (fun _ => 0) = Ok e /\
    user_changed e (data0 6 (-3) e) /\
    match srun lib0 (config_of sets) prog (initial e (data0 6 (-3) e) (fun _ => 0)) with
    | SDone s => val I16 (mem s (PExt 4096)) = -11 /\ val I8 (mem s (POut "z")) = -11
    | _ => False
    end /\ ssize e = 2.
Proof.
  eexists _, _. split; [exact prog_plain|]. split; [vm_compute; reflexivity|]. split; [vm_compute; reflexivity|].
  split.
  { intros a Hi Ho. unfold data0. cbn [ins find_var List.find vname String.eqb Ascii.eqb Bool.eqb vloc].
    unfold store. change (words I32 =? 2) with false. change (words I16 =? 2) with false. cbn [data].
    unfold RuntimeEval_Model.upd. destruct (Z.eqb_spec a 2) as [->|N1]; [|destruct (Z.eqb_spec a 1) as [->|N2]; [|reflexivity]].
    - destruct Hi. exists "b". eexists. split; [vm_compute; reflexivity|]. split; [reflexivity|]. vm_compute. intuition discriminate.
    - destruct Hi. exists "a". eexists. split; [vm_compute; reflexivity|]. split; [reflexivity|]. vm_compute. intuition discriminate. }
  vm_compute. auto.
Qed.

(** ** What is false *)

(** Fast mode goes on after an error, and the overflow checked operators then leave their operands on the stack:
    the stack overflows.  x = a / b; y = (c + d) + (e + f) on int64, with b = 0. *)
Definition fast_prog : list (list string) :=
  [["READ"; "a"]; ["READ"; "b"]; ["DIV"]; ["WRITE"; "x"];
   ["READ"; "c"]; ["READ"; "d"]; ["ADD"]; ["READ"; "e"]; ["READ"; "f"]; ["ADD"]; ["ADD"]; ["WRITE"; "y"]].
Definition fast_sets : list setting := map (fun x => SetInType x I64) ["a"; "b"; "c"; "d"; "e"; "f"].
Theorem C35_fast_mode_leaves_the_stack_after_an_error_refuted :
  exists e0 e, plain fast_prog fast_sets /\ extract fast_prog = Ok e0 /\
    compile lib0 fast_prog (configure e0 fast_sets) (fun _ => 0) = Ok e /\ user_changed e (data e) /\
    match srun lib0 (config_of fast_sets) fast_prog (initial e (data e) (fun _ => 0)) with SError _ => True | _ => False end /\
    execute lib0 Fast e (fun _ => 0) (data e) (fun _ => 0) = None.
Proof.
  eexists _, _. split.
  { split; [vm_compute; discriminate|]. split.
    - unfold fast_prog. repeat apply Forall_cons; try apply Forall_nil; cbn [plain_line];
        (split; [discriminate|split; [discriminate|]]); intros [E|E]; try discriminate E; repeat constructor.
    - unfold fast_sets. cbn [map]. repeat constructor. }
  split; [vm_compute; reflexivity|]. split; [vm_compute; reflexivity|]. split; [intros a _ _; reflexivity|].
  split; vm_compute; [exact I|reflexivity].
Qed.
Print Assumptions C35_fast_mode_leaves_the_stack_after_an_error_refuted.

(** The command RREAD, meant for the evaluator itself, is accepted from a program without its operand, and reads
    through an address that is not one. *)
Theorem C35_internal_command_accepted_refuted :
  exists p e0 e, extract p = Ok e0 /\ compile lib0 p (configure e0 []) (fun _ => 0) = Ok e /\
    List.length p = 2%nat /\ execute lib0 SafeMode e (fun _ => 0) (data e) (fun _ => 0) = None.
Proof.
  exists [["RREAD"]; ["WRITE"; "x"]]. eexists _, _. split; [vm_compute; reflexivity|].
  split; [vm_compute; reflexivity|]. split; vm_compute; reflexivity.
Qed.
Print Assumptions C35_internal_command_accepted_refuted.

(** Compiling again moves the outputs onto the inputs. *)
Theorem C35_second_compilation_overlaps_variables_refuted :
  exists p e0 e1 e2, extract p = Ok e0 /\ compile lib0 p (configure e0 [SetInType "a" I32]) (fun _ => 0) = Ok e1 /\
    compile lib0 p e1 (fun _ => 0) = Ok e2 /\
    memory_of "a" (ins e1) <> memory_of "b" (outs e1) /\ memory_of "a" (ins e2) = memory_of "b" (outs e2).
Proof.
  exists [["READ"; "a"]; ["WRITE"; "b"]]. eexists _, _, _. split; [vm_compute; reflexivity|].
  split; [vm_compute; reflexivity|]. split; [vm_compute; reflexivity|]. split; vm_compute; [discriminate|reflexivity].
Qed.
Print Assumptions C35_second_compilation_overlaps_variables_refuted.

(** A program of 65536 words of code (a product of 21845 factors) is accepted, but executes nothing and reports no
    error. *)
Fixpoint muls (n : nat) : list (list string) :=
  match n with O => [["WRITE"; "x"]] | S n' => ["READ"; "a"] :: ["MUL"] :: muls n' end.
Definition long_prog : list (list string) := ["READ"; "a"] :: muls (N.to_nat 21844).
Lemma muls_extract n : extract_lines (muls n) ([V "a" TVoid max16 0 false], [], 0) =
  Ok ([V "a" TVoid max16 0 false], [V "x" TVoid max16 0 false], 0).
Proof. induction n as [|n IH]; [reflexivity|]. exact IH. Qed.
Definition long_in : list var := [V "a" I64 0 0 false].
Definition long_out : list var := [V "x" TVoid 2 0 false].
Definition during (size max : Z) (ts : list ty) (code : list Z) (d0 : Z -> Z) : cst :=
  C long_in long_out ts max size 0 code d0 4.
Lemma muls_compile d0 n code : exists e c,
  compile_lines lib0 (muls n) (during 2 4 [I64] code d0) = Ok c /\ c_ts c = [] /\
  c_out c = [e] /\ memory_of "x" [e] = Internal 2 /\
  List.length (c_code c) = (List.length code + 3 * n + 2)%nat.
Proof.
  revert code. induction n as [|n IH]; intros code.
  - eexists _, _. split; [vm_compute; reflexivity|]. split; [reflexivity|]. split; [reflexivity|]. split; [reflexivity|].
    cbn [c_code List.length]. lia.
  - cbn [muls compile_lines].
    assert (R : exists k1, (compile_line lib0 (during 2 4 [I64] code d0) ["READ"; "a"]) =
      Ok (during 4 4 [I64; I64] (0 :: k1 :: code) d0)) by (eexists; vm_compute; reflexivity).
    destruct R as (k1 & ->). cbn [bind].
    assert (R : exists k2, compile_line lib0 (during 4 4 [I64; I64] (0 :: k1 :: code) d0) ["MUL"] =
      Ok (during 2 4 [I64] (k2 :: 0 :: k1 :: code) d0)) by (eexists; vm_compute; reflexivity).
    destruct R as (k2 & ->). cbn [bind].
    destruct (IH (k2 :: 0 :: k1 :: code)) as (e & c & A & B & D & E & F). exists e, c.
    split; [exact A|]. split; [exact B|]. split; [exact D|]. split; [exact E|]. rewrite F. cbn [List.length]. lia.
Qed.
Theorem C35_long_program_executes_nothing_refuted :
  forall d0, exists e0 e, extract long_prog = Ok e0 /\ compile lib0 long_prog (configure e0 [SetInType "a" I64]) d0 = Ok e /\
    memory_of "x" (outs e) = Internal 2 /\
    forall md s0 d x0, execute lib0 md e s0 d x0 = Some (false, M 0 s0 d x0 false).
Proof.
  intros d0. unfold extract, long_prog, compile. cbn [extract_lines].
  change (extract_line ([], [], 0) ["READ"; "a"]) with (Ok ([V "a" TVoid max16 0 false], @nil var, 0)).
  cbn [bind]. rewrite muls_extract. cbn [bind].
  set (e0 := EV _ _ _ _ _ _ _). exists e0.
  change (place_ins (ins (configure e0 [SetInType "a" I64])) (start (configure e0 [SetInType "a" I64]))) with (Ok (long_in, 2)).
  cbn [bind]. change (place_outs (outs (configure e0 [SetInType "a" I64])) 2) with (Ok (long_out, 4)). cbn [bind compile_lines].
  assert (R : exists k1, compile_line lib0 (C long_in long_out [] 0 0 0 [] d0 4) ["READ"; "a"] =
      Ok (C long_in long_out [I64] 2 2 0 [0; k1] d0 4)) by (eexists; vm_compute; reflexivity).
  destruct R as (k1 & ->). cbn [bind].
  replace (N.to_nat 21844) with (S (N.to_nat 21843)) by lia. cbn [muls compile_lines].
  assert (R : exists k1', compile_line lib0 (C long_in long_out [I64] 2 2 0 [0; k1] d0 4) ["READ"; "a"] =
      Ok (during 4 4 [I64; I64] [0; k1'; 0; k1] d0)) by (eexists; vm_compute; reflexivity).
  destruct R as (k1' & ->). cbn [bind].
  assert (R : exists k2, compile_line lib0 (during 4 4 [I64; I64] [0; k1'; 0; k1] d0) ["MUL"] =
      Ok (during 2 4 [I64] [k2; 0; k1'; 0; k1] d0)) by (eexists; vm_compute; reflexivity).
  destruct R as (k2 & ->). cbn [bind].
  destruct (muls_compile d0 (N.to_nat 21843) [k2; 0; k1'; 0; k1]) as (v & c & A & B & D & E & F).
  rewrite A. cbn [bind]. rewrite B. eexists. split; [reflexivity|]. split; [reflexivity|]. cbn [outs]. split; [rewrite D; exact E|].
  intros md s0 d x0. unfold execute. cbn [code]. rewrite rev_length, F. cbn [List.length].
  replace (Z.of_nat (5 + 3 * N.to_nat 21843 + 2)) with 65536 by lia. change (u16 65536) with 0.
  destruct (rev (c_code c)), md; reflexivity.
Qed.
Print Assumptions C35_long_program_executes_nothing_refuted.

(** NEG of the least int8 is itself, without an error. *)
Theorem C35_negation_of_the_least_int8_refuted :
  exists r g f v, In r (table lib0) /\ rname r = "NEG" /\ rbody r = BFun g [I8] I8 f /\
    f [pat I8 (-128)] = Some (v, false) /\ val I8 v = -128.
Proof.
  exists (unary "NEG" I8 I8 (f_neg lib0 I8 I8)), false, (f_neg lib0 I8 I8), (pat I8 128).
  split; [unfold table; do 9 (apply in_or_app; right); apply in_or_app; left; cbn [map fst snd In]; auto|].
  split; [reflexivity|]. split; [reflexivity|]. split; vm_compute; reflexivity.
Qed.
Print Assumptions C35_negation_of_the_least_int8_refuted.

(** Comparing a negative int8 with a uint64 is an error, although the answer is known. *)
Theorem C35_mixed_sign_comparison_is_an_error_refuted :
  exists r g f v, In r (table lib0) /\ rname r = "LT" /\ rbody r = BFun g [U64; I8] U8 f /\
    f [pat U64 5; pat I8 (-1)] = Some (v, true) /\ int_result "LT" (-1) 5 = Some 1.
Proof.
  exists (binary "LT" false U64 I8 U8 (f_cmp3 lib0 "LT" U64 I8 U64)), false, (f_cmp3 lib0 "LT" U64 I8 U64), 0.
  split.
  { unfold table. do 10 (apply in_or_app; right).
    repeat match goal with
    | |- In _ (op2 _ _ _ _ _ ++ _) => apply in_or_app; right
    | |- In _ (op3 _ _ _ _ _ _ ++ _) => apply in_or_app; right
    end.
    apply in_or_app; left. apply in_flat_map. exists "LT". split; [cbn [In]; auto|].
    apply in_flat_map. exists (I8, U64). split; [unfold comp_block; cbn [In]; tauto|]. right; left; reflexivity. }
  split; [reflexivity|]. split; [reflexivity|]. split; vm_compute; reflexivity.
Qed.
Print Assumptions C35_mixed_sign_comparison_is_an_error_refuted.

(** The operations that the specification leaves undefined: the quotient of the least number by -1, and the logical
    operators on a byte that is not 0 or 1. *)
Example C35_undefined_operations :
  f_div I32 I32 I32 [pat I32 (-1); pat I32 (- 2 ^ 31)] = None /\ f_logic "AND" [2; 1] = None /\ f_logic "AND" [1; 1] = Some (1, false).
Proof. vm_compute. auto. Qed.
