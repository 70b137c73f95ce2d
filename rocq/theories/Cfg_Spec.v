(** C44: the specification. A configuration as a tree of named items, how it is written, and the tree of values it describes. *)
From Coq Require Import String Ascii DecimalString.
From Verif Require Import Base Paths ConfigDB_Model ConfigDB_Spec Slk_Model Cfg_Model.
Open Scope string_scope. Open Scope nat_scope. Open Scope list_scope.

(** ** Configurations *)
Inductive elem := Num (d : string) | Str (d : string).
Definition row : Type := elem * list elem.
Inductive val := Scalar (e : elem) | Vector (r : row) | Matrix (r : row) (l : list row).
Inductive item :=
| Leaf (n : string) (cast : option string) (v : val)       (* n = v      n = (cast) v *)
| Expr (n out : string) (e : elem)                         (* n = (out|e): the value of the expression e *)
| Block (n : string) (i : item) (l : list item).           (* n = { i ... } *)
Definition row_elems (r : row) : list elem := fst r :: snd r.
Definition rows (v : val) : list (list elem) := match v with Scalar e => [[e]] | Vector r => [row_elems r] | Matrix r l => map row_elems (r :: l) end.
Definition data (e : elem) : string := match e with Num d | Str d => d end.
Definition quoted (e : elem) : bool := match e with Num _ => false | Str _ => true end.

(** ** What they mean *)
Section Meaning.
Context {E : Type} (conv : string -> string -> option E) (text_of : value E -> option string) (vars : string -> option (list string)) (is_num : string -> bool)
        (eval : string -> string -> list (value E) -> option (value E)).
Notation value := (value E).
Fixpoint all_some {X} (l : list (option X)) : option (list X) := match l with [] => Some [] | Some x :: r => match all_some r with Some y => Some (x :: y) | None => None end | None :: _ => None end.
(** The value of type [ty] written as [v]: all the elements are numbers or all are strings, all the rows have the same length, and every element converts. *)
Definition regular (v : val) : bool :=
  let l := concat (rows v) in
  (forallb quoted l || forallb (fun e => negb (quoted e)) l) && forallb (fun r => List.length r =? List.length (hd [] (rows v))) (rows v).
Definition dimensions (v : val) : nat := match v with Scalar _ => 0 | Vector _ => 1 | Matrix _ _ => 2 end.
Definition value_of (ty : string) (v : val) : option value :=
  if regular v then match all_some (map (fun e => conv ty (data e)) (concat (rows v))) with
                    | Some l => Some (Value_ ty (dimensions v) (List.length (hd [] (rows v))) (List.length (rows v)) l)
                    | None => None
                    end
  else None.
(** The tree [t] with the item added in the directory [p]; the expressions in it, with their places. None: the item is refused (a name is empty, a
    value is not regular, a block has the name of something that exists). A value replaces what has its name. *)
Definition put_value (t : tree value) (p : path) (n : string) (v : option value) : option (tree value) := if String.eqb n "" then None else match v with Some v => Some (set t p n v) | None => None end.
Fixpoint add (t : tree value) (p : path) (i : item) : option (tree value * list (string * path * string)) :=
  match i with
  | Leaf n c v => match put_value t p n (value_of (match c with Some ty => ty | None => "string" end) v) with Some t => Some (t, []) | None => None end
  | Expr n out e => match put_value t p n (value_of "string" (Scalar e)) with Some t => Some (t, [(out, p, n)]) | None => None end
  | Block n i l => match ent t (p ++ [n]) with
      | Some _ => None
      | None => (fix addl (t : tree value) (l : list item) : option (tree value * list (string * path * string)) :=
                   match l with [] => Some (t, []) | i :: l => match add t (p ++ [n]) i with None => None | Some (t, x) => match addl t l with None => None | Some (t, y) => Some (t, x ++ y) end end end)
                (mkdir t p n) (i :: l)
      end
  end.
Fixpoint add_all (t : tree value) (p : path) (l : list item) : option (tree value * list (string * path * string)) :=
  match l with [] => Some (t, []) | i :: l => match add t p i with None => None | Some (t, x) => match add_all t p l with None => None | Some (t, y) => Some (t, x ++ y) end end end.
(** A variable is the path of a value from the root: its names, separated by dots *)
Definition leaf_at (t : tree value) (p : path) : option value := match ent t p with Some (Val v) => Some v | _ => None end.
Fixpoint dots (s : string) : path :=
  match s with
  | EmptyString => [""]
  | String c r => if Ascii.eqb c dot then "" :: dots r else match dots r with n :: p => String c n :: p | [] => [String c ""] end
  end.
(** One expression replaced by its value *)
Definition evaluate_one (t : tree value) (out : string) (p : path) (n : string) : option (tree value) :=
  match leaf_at t (p ++ [n]) with None => None | Some x =>
  match text_of x with None => None | Some e =>
  match vars e with None => None | Some vs =>
  if negb (is_num out) then None else
  match all_some (map (fun v => leaf_at t (dots v)) vs) with None => None | Some l =>
  match eval out e l with None => None | Some r => Some (set t p n r) end end end end end.
Fixpoint evaluate (t : tree value) (l : list (string * path * string)) : option (tree value) :=
  match l with [] => Some t | (out, p, n) :: l => match evaluate_one t out p n with None => None | Some t => evaluate t l end end.
(** The tree after a configuration has been read: the items in order, then the expressions in order; the cursor goes to the root (unless there is no item). *)
Definition configured (t : tree value) (l : list item) : option (tree value) :=
  match add_all t (at_ t) l with None => None | Some (t1, ex) => match evaluate t1 ex with None => None | Some t2 => Some (match l with [] => t2 | _ => move_to t2 [] end) end end.

(** The names in a configuration; the names of blocks are good names (no dots). *)
Fixpoint item_names (i : item) : list string :=
  match i with Leaf n _ _ => [n] | Expr n _ _ => [n] | Block n i l => n :: item_names i ++ flat_map item_names l end.
Fixpoint good_item (i : item) : Prop :=
  match i with Leaf _ _ _ | Expr _ _ _ => True | Block n i l => good_name n /\ good_item i /\ (fix all l := match l with [] => True | i :: l => good_item i /\ all l end) l end.
Fixpoint depth (i : item) : nat := match i with Leaf _ _ _ | Expr _ _ _ => 0 | Block _ i l => S (fold_right (fun i m => Nat.max (depth i) m) (depth i) l) end.
(** The expressions that are reached have variables with good names, among [U], those without dots before those with. *)
Definition good_vars (U : list string) (vs : list string) : Prop :=
  (forall v, In v vs -> Forall good_name (dots v) /\ forall n, In n (dots v) -> In n U) /\
  exists a b, vs = a ++ b /\ (forall v, In v a -> List.length (dots v) = 1) /\ (forall v, In v b -> List.length (dots v) > 1).
Fixpoint clear_exprs (U : list string) (t : tree value) (l : list (string * path * string)) : Prop :=
  match l with
  | [] => True
  | (out, p, n) :: l =>
    match leaf_at t (p ++ [n]) with
    | Some x => match text_of x with Some e => match vars e with Some vs => good_vars U vs | None => True end | None => True end
    | None => True
    end /\ match evaluate_one t out p n with Some t => clear_exprs U t l | None => True end
  end.
Definition good_config (U : list string) (t : tree value) (l : list item) : Prop :=
  Forall good_item l /\ (forall n, In n (flat_map item_names l) -> In n U) /\ match add_all t (at_ t) l with Some (t1, ex) => clear_exprs U t1 ex | None => True end.
End Meaning.

(** ** How they are written: MARTe's own syntax *)
Definition tok (e : elem) : token := match e with Num d => TNum d | Str d => TStr d end.
Definition braces (o c : string) (l : list token) : list token := TTerm o :: l ++ [TTerm c].
Definition write_row (o c : string) (r : row) : list token := braces o c (map tok (row_elems r)).
Definition write_val (o c : string) (v : val) : list token :=
  match v with Scalar e => [tok e] | Vector r => write_row o c r | Matrix r l => braces o c (flat_map (write_row o c) (r :: l)) end.
Fixpoint write (i : item) : list token :=
  match i with
  | Leaf n None v => TStr n :: TTerm "=" :: write_val "{" "}" v
  | Leaf n (Some ty) v => TStr n :: TTerm "=" :: TTerm "(" :: TStr ty :: TTerm ")" :: write_val "{" "}" v
  | Expr n out e => [TStr n; TTerm "="; TTerm "("; TStr out; TTerm "|"; tok e; TTerm ")"]
  | Block n i l => TStr n :: TTerm "=" :: braces "{" "}" (write i ++ flat_map write l)
  end.

(** ** XML: the name in the end tag is of no importance *)
Inductive xitem := XLeaf (n : string) (cast : option string) (v : val) (n' : string) | XBlock (n : string) (i : xitem) (l : list xitem) (n' : string).
Definition tags (n : string) (l : list token) (n' : string) : list token := [TTerm "<"; TStr n; TTerm ">"] ++ l ++ [TTerm "<"; TTerm "/"; TStr n'; TTerm ">"].
Fixpoint write_xml (i : xitem) : list token :=
  match i with
  | XLeaf n None v n' => tags n (write_val "{" "}" v) n'
  | XLeaf n (Some ty) v n' => tags n (TTerm "(" :: TStr ty :: TTerm ")" :: write_val "{" "}" v) n'
  | XBlock n i l n' => tags n (write_xml i ++ flat_map write_xml l) n'
  end.
Fixpoint of_xml (i : xitem) : item := match i with XLeaf n c v _ => Leaf n c v | XBlock n i l _ => Block n (of_xml i) (map of_xml l) end.
Fixpoint xdepth (i : xitem) : nat := match i with XLeaf _ _ _ _ => 0 | XBlock _ i l _ => S (fold_right (fun i m => Nat.max (xdepth i) m) (xdepth i) l) end.

(** ** JSON. A vector of blocks "n": [ {...} {...} ] is the blocks n[0], n[1], ...; a block without a name is the items in it. *)
Inductive jitem := JLeaf (n : string) (cast : option string) (v : val) | JBlock (n : string) (b : jblock) | JBlocks (n : string) (b : jblock) (l : list jblock) | JItems (b : jblock)
with jblock := JB (i : jitem) (l : list jitem).
Fixpoint write_json (i : jitem) : list token :=
  match i with
  | JLeaf n None v => TStr n :: TTerm ":" :: write_val "[" "]" v
  | JLeaf n (Some ty) v => TStr n :: TTerm ":" :: TTerm "(" :: TStr ty :: TTerm ")" :: write_val "[" "]" v
  | JBlock n b => TStr n :: TTerm ":" :: write_jblock b
  | JBlocks n b l => TStr n :: TTerm ":" :: braces "[" "]" (write_jblock b ++ flat_map write_jblock l)
  | JItems b => write_jblock b
  end
with write_jblock (b : jblock) : list token := match b with JB i l => braces "{" "}" (write_json i ++ flat_map write_json l) end.
(** The name of the element [k] of the vector [n] *)
Definition element (n : string) (k : nat) : string := (n ++ "[" ++ NilZero.string_of_uint (Nat.to_uint k) ++ "]")%string.
Definition block (n : string) (l : list item) : list item := match l with [] => [] | i :: l => [Block n i l] end.
Fixpoint numbered (n : string) (k : nat) (l : list (list item)) : list item := match l with [] => [] | b :: l => block (element n k) b ++ numbered n (S k) l end.
Fixpoint of_json (i : jitem) : list item :=
  match i with
  | JLeaf n c v => [Leaf n c v]
  | JBlock n b => block n (of_jblock b)
  | JBlocks n b l => numbered n 0 (of_jblock b :: map of_jblock l)
  | JItems b => of_jblock b
  end
with of_jblock (b : jblock) : list item := match b with JB i l => of_json i ++ flat_map of_json l end.
Fixpoint jdepth (i : jitem) : nat :=
  match i with
  | JLeaf _ _ _ => 0
  | JBlock _ b => S (jbdepth b)
  | JBlocks _ b l => S (fold_right (fun b m => Nat.max (jbdepth b) m) (jbdepth b) l)
  | JItems b => S (jbdepth b)
  end
with jbdepth (b : jblock) : nat := match b with JB i l => fold_right (fun i m => Nat.max (jdepth i) m) (jdepth i) l end.
(** The names of the vectors of blocks *)
Fixpoint vector_names (i : jitem) : list string :=
  match i with
  | JLeaf _ _ _ => []
  | JBlock _ b => block_vector_names b
  | JBlocks n b l => n :: block_vector_names b ++ flat_map block_vector_names l
  | JItems b => block_vector_names b
  end
with block_vector_names (b : jblock) : list string := match b with JB i l => vector_names i ++ flat_map vector_names l end.

(** ** The tokens that are a configuration in MARTe's own syntax, up to where it stops *)
(** A token of the lexical analyser: a terminal is one character. *)
Definition lexed (t : token) : Prop := match t with TTerm d => String.length d = 1 | _ => True end.
(** At most [m] braces are open at the same time, [d] are open already. *)
Fixpoint braces_within (m d : nat) (l : list token) : Prop :=
  match l with
  | [] => True
  | TTerm c :: r => if String.eqb c "{" then d < m /\ braces_within m (S d) r else if String.eqb c "}" then braces_within m (pred d) r else braces_within m d r
  | _ :: r => braces_within m d r
  end.
(** The input ends here, or goes on with a character that is no terminal of the syntax. *)
Definition stops (l : list token) : Prop := match l with [] => True | TEof :: _ => True | TTerm d :: _ => ~ In d ["="; "("; ")"; "|"; "{"; "}"] | _ => False end.
(** The same for XML: at most [m] tags are open at the same time. *)
Fixpoint tags_within (m d : nat) (l : list token) : Prop :=
  match l with
  | [] => True
  | TTerm c :: r => if String.eqb c "<" then (if match r with TTerm e :: _ => String.eqb e "/" | _ => false end then tags_within m (pred d) r else d < m /\ tags_within m (S d) r) else tags_within m d r
  | _ :: r => tags_within m d r
  end.
Definition xml_stops (l : list token) : Prop := match l with [] => True | TEof :: _ => True | TTerm d :: _ => ~ In d ["<"; ">"; "/"; "("; ")"; "{"; "}"] | _ => False end.
(** The same for JSON: at most [m] braces and brackets are open at the same time. *)
Fixpoint brackets_within (m d : nat) (l : list token) : Prop :=
  match l with
  | [] => True
  | TTerm c :: r => if String.eqb c "{" || String.eqb c "[" then d < m /\ brackets_within m (S d) r else if String.eqb c "}" || String.eqb c "]" then brackets_within m (pred d) r else brackets_within m d r
  | _ :: r => brackets_within m d r
  end.
Definition json_stops (l : list token) : Prop := match l with [] => True | TEof :: _ => True | TTerm d :: _ => ~ In d [":"; "("; ")"; "["; "]"; "{"; "}"] | _ => False end.
