(** Source/Core/BareMetal/L4Configuration: ConfigurationParserI.cpp (the actions), AnyTypeCreator.cpp, and the tables of StandardParser.cpp, XMLParser.cpp and
    JsonParser.cpp, which run on ParserI (Slk_Model). The output is a ConfigurationDatabase (C31).
    Simplifications: the conversion of a text to an element of a type (TypeConvert, AnyTypeCreator::Add) is a parameter, as are the compilation of an
    expression (C34, C35) and its evaluation; the elements of a value are fewer than 2^32, and so are the expressions; mathExpressionsCDB, where
    the parser notes the expressions under the names 0, 1, 2..., is the list of its nodes; memory is never exhausted. *)
From Coq Require Import String Ascii DecimalString.
From Verif Require Import Base Paths ConfigDB_Model Slk_Model.
Open Scope string_scope. Open Scope nat_scope. Open Scope list_scope.

(** A value: the type asked for, the number of dimensions and of elements, the elements *)
Record value (E : Type) := Value_ { vtype : string; vdims : nat; vcols : nat; vrows : nat; velems : list E }.
Arguments Value_ {E}. Arguments vtype {E}. Arguments vdims {E}. Arguments vcols {E}. Arguments vrows {E}. Arguments velems {E}.

Section Actions.
Context {E : Type} (H : string -> Z)                       (* the hash of the names *)
        (conv : string -> string -> option E)              (* AnyTypeCreator::Add: the element of that type with that text *)
        (text_of : value E -> option string)               (* ConfigurationDatabase::Read of a value as a string *)
        (vars : string -> option (list string))            (* the variables of an expression, None if it is not accepted (MathExpressionParser::Parse, ExtractVariables) *)
        (is_num : string -> bool)                          (* the type is numeric *)
        (eval : string -> string -> list (value E) -> option (value E)).   (* Compile and Execute: the output type, the expression, the values of the variables *)
Notation value := (value E).

(** The attributes, ConfigurationParserI.h 204-264 *)
Record cst := Cs { typeName : string; nodeName : string; numberOfColumns : nat; firstNumberOfColumns : nat; numberOfRows : nat; memory : option (list E);
                   tokenType : nat; numberOfDimensions : nat; handleMathExpr : bool; exprs : list (string * string * option string); database : db value; vectorStructureIdx : db nat }.
Definition defaultTypeName := "string".
(** The constructor 90-108 *)
Definition cfg_init (d : db value) : cst := Cs defaultTypeName "" 0 0 0 None 0 0 false [] d init.

Notation answer := (out (cst * bool)).
Definition ok (s : cst) : answer := Ret (s, false).
Definition fail (s : cst) : answer := Ret (s, true).
Definition with_db (s : cst) (d : db value) : cst :=
  Cs (typeName s) (nodeName s) (numberOfColumns s) (firstNumberOfColumns s) (numberOfRows s) (memory s) (tokenType s) (numberOfDimensions s) (handleMathExpr s) (exprs s) d (vectorStructureIdx s).
Definition with_vec (s : cst) (d : db nat) : cst :=
  Cs (typeName s) (nodeName s) (numberOfColumns s) (firstNumberOfColumns s) (numberOfRows s) (memory s) (tokenType s) (numberOfDimensions s) (handleMathExpr s) (exprs s) (database s) d.
(** A call of the database that returns a bool; Undef: its behaviour is undefined *)
Definition call {V} (d : db V) (o : op V) : out (bool * db V) := match step H d o with Some (Ok b, d) => Ret (b, d) | _ => Undef end.
Definition read {V} (d : db V) (n : string) : out (option V) := match step H d (Read n) with Some (Value v, _) => Ret v | _ => Undef end.
(** A call whose failure is an error *)
Definition must (s : cst) (o : op value) : answer := bind (call (database s) o) (fun '(b, d) => Ret (with_db s d, negb b)).

(** GetTypeCast 114-116 *)
Definition get_type_cast (t : token) (s : cst) : answer :=
  ok (Cs (tdata t) (nodeName s) (numberOfColumns s) (firstNumberOfColumns s) (numberOfRows s) (memory s) (tokenType s) (numberOfDimensions s) (handleMathExpr s) (exprs s) (database s) (vectorStructureIdx s)).
(** GetExprCast: the loop 127-142, on a copy of the database *)
Fixpoint path_up (fuel : nat) (d : db value) (path : string) : out string :=
  match fuel with
  | O => NoFuel
  | S k => match step H d GetName with
           | Some (Name (Some n), _) => let path := match path with EmptyString => n | _ => (n ++ "." ++ path)%string end in
                                        bind (call d (MoveToAncestor 1)) (fun '(b, d) => if (b : bool) then path_up k d path else Ret path)
           | Some (Name None, _) => Ret path
           | _ => Undef
           end
  end.
(** 119-168 *)
Definition get_expr_cast (t : token) (s : cst) : answer :=
  bind (path_up (S (S (nxt (database s)))) (database s) "") (fun path =>
  ok (Cs (typeName s) (nodeName s) (numberOfColumns s) (firstNumberOfColumns s) (numberOfRows s) (memory s) (tokenType s) (numberOfDimensions s) true
         (exprs s ++ [(tdata t, path, None)]) (database s) (vectorStructureIdx s))).
(** BlockEnd 170-175 *)
Definition block_end (t : token) (s : cst) : answer := must s (MoveToAncestor 1).
(** CreateNode 177-182 *)
Definition create_node (t : token) (s : cst) : answer := must s (CreateRelative (tdata t)).
(** AnyTypeCreator::Create 82-117 *)
Definition create_value (s : cst) (dims cols rows : nat) : option value :=
  match memory s with
  | None => None
  | Some l => if cols * rows =? List.length l then
                let dim_check := if 1 <? rows then 2 else if 1 <? cols then 1 else 0 in
                if (dim_check <=? dims) && (dims <? 3) then Some (Value_ (typeName s) dims cols rows l) else None
              else None
  end.
(** Write("Leaf", nodeName) in the node of mathExpressionsCDB that was made last (204) *)
Fixpoint set_leaf (n : string) (l : list (string * string * option string)) : list (string * string * option string) :=
  match l with [] => [] | [(t, p, _)] => [(t, p, Some n)] | x :: r => x :: set_leaf n r end.
(** AddLeaf 184-225 *)
Definition add_leaf (t : token) (s : cst) : answer :=
  let rows := if numberOfDimensions s =? 1 then 1 else if numberOfDimensions s =? 0 then 1 else numberOfRows s in
  let cols := if numberOfDimensions s =? 0 then firstNumberOfColumns s else numberOfColumns s in
  let clean ex d := Cs defaultTypeName (nodeName s) 0 0 0 None 0 0 false ex d (vectorStructureIdx s) in
  match create_value s (numberOfDimensions s) cols rows with
  | None => fail (clean (exprs s) (database s))
  | Some v => bind (call (database s) (Write (nodeName s) v)) (fun '(b, d) =>
              if (b : bool) then ok (clean (if handleMathExpr s then set_leaf (nodeName s) (exprs s) else exprs s) d) else fail (clean (exprs s) d))
  end.
(** GetNodeName 227-229 *)
Definition get_node_name (t : token) (s : cst) : answer :=
  ok (Cs (typeName s) (tdata t) (numberOfColumns s) (firstNumberOfColumns s) (numberOfRows s) (memory s) (tokenType s) (numberOfDimensions s) (handleMathExpr s) (exprs s) (database s) (vectorStructureIdx s)).
(** AddScalar 231-251, with AnyTypeCreator::Add 119-300 *)
Definition add_scalar (t : token) (s : cst) : answer :=
  let tt := if tokenType s =? 0 then tid t else tokenType s in
  let res m f := Cs (typeName s) (nodeName s) (numberOfColumns s) f (numberOfRows s) m tt (numberOfDimensions s) (handleMathExpr s) (exprs s) (database s) (vectorStructureIdx s) in
  let l := match memory s with Some l => l | None => [] end in
  if tt =? tid t then
    match conv (typeName s) (tdata t) with
    | Some e => ok (res (Some (l ++ [e])) (S (firstNumberOfColumns s)))
    | None => fail (res (Some l) (firstNumberOfColumns s))
    end
  else fail (res (memory s) (firstNumberOfColumns s)).
(** EndVector 253-268 *)
Definition end_vector (t : token) (s : cst) : answer :=
  let c := if numberOfColumns s =? 0 then firstNumberOfColumns s else numberOfColumns s in
  Ret (Cs (typeName s) (nodeName s) c 0 (S (numberOfRows s)) (memory s) (tokenType s) (if numberOfDimensions s =? 0 then 1 else numberOfDimensions s) (handleMathExpr s) (exprs s) (database s) (vectorStructureIdx s),
       negb (c =? firstNumberOfColumns s)).
(** EndMatrix 277-279 *)
Definition end_matrix (t : token) (s : cst) : answer :=
  ok (Cs (typeName s) (nodeName s) (numberOfColumns s) (firstNumberOfColumns s) (numberOfRows s) (memory s) (tokenType s) 2 (handleMathExpr s) (exprs s) (database s) (vectorStructureIdx s)).

(** A move to the node of an expression: ExpandExpression 324-329 *)
Definition goto (d : db value) (path : string) : out (bool * db value) := match path with EmptyString => call d MoveToRoot | _ => call d (MoveAbsolute path) end.
(** The last part of a variable's name and what is before it: BrowseExpressionVariables 436-452 *)
Fixpoint split_var (fuel : nat) (s path last : string) : out (string * string) :=
  match fuel with
  | O => NoFuel
  | S k => match get_tok s with
           | None => Ret (path, last)
           | Some (t, _, rest) => let path := match path with EmptyString => path | _ => (path ++ ".")%string end in split_var k rest (path ++ last)%string t
           end
  end.
(** BrowseExpressionVariables 427-495: the values of the variables, None if it fails. A variable without a dot is looked for in the current node. *)
Fixpoint browse (d : db value) (l : list string) : out (option (list value) * db value) :=
  match l with
  | [] => Ret (Some [], d)
  | v :: r =>
    bind (split_var (S (String.length v)) v "" "") (fun '(path, name) =>
    bind (match path with EmptyString => Ret (true, d, v) | _ => bind (call d (MoveAbsolute path)) (fun '(b, d) => Ret (b, d, name)) end) (fun '(b, d, name) =>
    if (b : bool) then bind (read d name) (fun x => match x with None => Ret (None, d) | Some x => bind (browse d r) (fun '(l, d) => Ret (match l with Some l => Some (x :: l) | None => None end, d)) end)
    else Ret (None, d)))
  end.
(** ExpandExpression 322-424 *)
Definition expand_expression (d : db value) (path leaf outputType : string) : out (bool * db value) :=
  bind (goto d path) (fun '(b, d) => if negb b then Ret (false, d) else
  bind (read d leaf) (fun x => match match x with Some x => text_of x | None => None end with None => Ret (false, d) | Some e =>
  match vars e with None => Ret (false, d) | Some vs =>
  if negb (is_num outputType) then Ret (false, d) else
  bind (call d MoveToRoot) (fun '(b, d) => if negb b then Ret (false, d) else
  bind (browse d vs) (fun '(l, d) => match l with None => Ret (false, d) | Some l =>
  match eval outputType e l with None => Ret (false, d) | Some r =>
  bind (goto d path) (fun '(b, d) => if negb b then Ret (false, d) else call d (Write leaf r)) end end)) end end)).
(** End 281-319: the loop 291-311, then MoveToRoot *)
Fixpoint expand_all (d : db value) (l : list (string * string * option string)) : out (bool * db value) :=
  match l with
  | [] => Ret (true, d)
  | (t, p, None) :: _ => Ret (false, d)
  | (t, p, Some n) :: r => bind (expand_expression d p n t) (fun '(b, d) => if (b : bool) then expand_all d r else Ret (false, d))
  end.
Definition end_ (t : token) (s : cst) : answer :=
  bind (expand_all (database s) (exprs s)) (fun '(b, d) => if (b : bool) then must (with_db s d) MoveToRoot else fail (with_db s d)).

(** The blocks in vectors of JSON: CreateNodeV 497-507, CreateNodeVE 509-529, EndVectorB 270-275. The calls go on after an error. *)
Definition create_node_v (t : token) (s : cst) : answer :=
  bind (call (vectorStructureIdx s) (CreateRelative (tdata t))) (fun '(b1, v) => bind (call v (Write "Idx" 0)) (fun '(b2, v) => Ret (with_vec s v, negb (b1 && b2)))).
Definition create_node_ve (t : token) (s : cst) : answer :=
  bind (read (vectorStructureIdx s) "Idx") (fun i => let idx := match i with Some i => i | None => 0 end in
  match step H (vectorStructureIdx s) GetName with
  | Some (Name (Some n), _) =>
    bind (call (database s) (CreateRelative (n ++ "[" ++ NilZero.string_of_uint (Nat.to_uint idx) ++ "]"))) (fun '(b, d) =>
    bind (call (vectorStructureIdx s) (Write "Idx" (S idx))) (fun '(b2, v) => Ret (with_vec (with_db s d) v, negb (match i with Some _ => b && b2 | None => false end))))
  | _ => Undef                                                                                      (* %s of a NULL pointer *)
  end).
Definition end_vector_b (t : token) (s : cst) : answer :=
  match step H (vectorStructureIdx s) GetName with
  | Some (Name n, _) =>
    bind (call (vectorStructureIdx s) (MoveToAncestor 1)) (fun '(b, v) =>
    if (b : bool) then match n with Some n => bind (call v (Delete n)) (fun '(_, v) => ok (with_vec s v)) | None => Undef end else ok (with_vec s v))
  | _ => Undef
  end.

(** Execute of the three parsers: StandardParser.cpp 111-131, XMLParser.cpp 110-128, JsonParser.cpp 121-142. Action[0] is NULL. *)
Definition nope (t : token) (s : cst) : answer := Undef.
Definition standard_execute (n : nat) : token -> cst -> answer :=
  nth n [nope; end_; get_node_name; add_leaf; get_type_cast; get_expr_cast; create_node; add_scalar; end_vector; end_matrix; block_end] nope.
Definition xml_execute (n : nat) : token -> cst -> answer :=
  nth n [nope; end_; get_node_name; add_leaf; get_type_cast; create_node; add_scalar; end_vector; end_matrix; block_end] nope.
Definition json_execute (n : nat) : token -> cst -> answer :=
  nth n [nope; end_; get_node_name; add_leaf; get_type_cast; create_node; create_node_v; add_scalar; end_vector_b; end_vector; end_matrix; block_end; create_node_ve] nope.
End Actions.
Arguments cst E : clear implicits.

(** The tables of StandardParser.cpp 46-100 *)
Definition Standard : tables := Tb
 [0
  ;3;10;11;23;3;11;12;19;6;12;24;1;2;13;25;10;12;24;1;2;3;26;1;4;13;25
  ;11;12;24;1;2;3;27;1;5;14;4;25;5;12;28;1;2;17
  ;2;13;14;2;13;15;2;13;16;3;14;29;18;5;15;6;14;20;7
  ;5;16;6;15;21;7;5;17;6;12;22;7;2;18;1;2;18;8
  ;3;19;12;19;1;19;3;20;14;20;2;20;30;3;21;15;21
  ;2;21;31;3;22;12;22;2;22;32
  ;0]
 [0;1;5;9;16;27;39;45;48;51;54;58;64;70;76;79;82;86;88;92;95;99;102;106;0]
 [0;0;7;1;18;10;14;25;16;7;19;18;10;15;20;21;17;22;2;24;11;12;13;23;0;0;0;0]
 [0;2;17;18;1;4;14;15;16;5;7;3;8;16;0]
 [0;0;8;26;29;0;3;9;27;8;0;28;0;3;30;4;5;0;0;3;0;3;3;6;0;0;0;0;3;3]
 [0;1;1;5;3;13;11;21;0]
 10 9 24 23 ["0";"STRING";"=";"(";")";"|";"{";"}";"NUMBER";"END_OF_SLK_INPUT"].
(** The tables of XMLParser.cpp 46-88 *)
Definition Xml : tables := Tb
 [0
  ;3;11;12;24;3;12;13;20;11;13;1;25;2;3;14;1;4;2;3;26;15;13;1;25;2;3;5;27;2;6;14;1;4;2;3;26;10;13;1;28;2;3;18;1;4;2
  ;3;2;14;15;2;14;16;2;14;17;3;15;29;19;5;16;7;15;21;8;5;17;7;16;22;8;3;18;13;23;2;19;2;2;19;9;3;20;13;20;1;20;3
  ;21;15;21;2;21;30;3;22;16;22;2;22;31;3;23;13;23;2;23;32;0]
 [0;1;5;9;21;37;48;51;54;57;61;67;73;77;80;83;87;89;93;96;100;103;107;0]
 [0;0;1;6;2;17;9;13;24;15;6;18;17;9;14;19;20;23;16;10;11;12;25;0;0;0;0;0;0;0;0;0]
 [0;1;3;16;1;4;12;13;20;5;8;3;8;21;0]
 [0;0;0;26;7;21;27;22;0;8;0;7;5;3;0;0;4;0;3;0;3]
 [0;1;2;3;3;11;0]
 11 10 23 24 ["0";"<";"STRING";">";"/";"(";")";"{";"}";"NUMBER";"END_OF_SLK_INPUT"].
(** The tables of JsonParser.cpp 47-111 *)
Definition Json : tables := Tb
 [0
  ;3;11;12;29;3;12;13;23;6;13;30;1;2;14;31;10;13;30;1;2;3;32;1;4;14;31
  ;5;13;33;1;2;19;5;13;34;1;2;16;2;13;21;2;14;15
  ;2;14;17;2;14;18;3;15;35;22;5;16;5;20;24;6
  ;5;17;5;15;25;6;5;18;5;17;26;6;5;19;7;13;27;8
  ;3;20;40;19;5;21;7;13;28;8;2;22;1;2;22;9
  ;3;23;13;23;1;23;3;24;20;24;2;24;36;3;25;15;25
  ;2;25;37;3;26;17;26;2;26;38;3;27;13;27;2;27;39
  ;3;28;13;28;1;28
  ;0]
 [0;1;5;9;16;27;33;39;42;45;48;51;55;61;67;73;79;83;89;92;95;99;101;105;108;112;115;119;122;126;129;133;0]
 [0;0;8;20;0;0;33;11;24;20;8;28;21;25;30;11;24;28;29;1;30;31;2;32;18;1;23;22;2;7;26;27;19;12;13;14;15;16;17;0;0;0]
 [0;18;21;22;1;6;28;29;30;29;30;31;23;2;20;7;25;10;13;0]
 [0;0;9;34;0;3;10;4;3;35;9;5;3;3;6;0;3]
 [0;1;1;4;7;0]
 11 10 32 29 ["0";"STRING";":";"(";")";"[";"]";"{";"}";"NUMBER";"END_OF_SLK_INPUT"].
