(** IntrospectionStructure::RegisterStructuredDataI and its recursive part (IntrospectionStructure.cpp 318-498): the types of a tree of data.
    Simplifications: the names of the children of a node are distinct and contain no dot (MoveRelative finds the child looked at); the
    container of the registered types accepts them; what the code does after creating a leaf of a name already used in the type (the
    result of CreateRelative is overwritten, lines 469-474) is not modelled: None. The list of the types is computed first and checked for
    repeated names afterwards: nothing is registered in either order when a name is repeated (CreateAbsolute, line 380). *)
From Verif Require Import Base IntText_Model Isr_Model.

(** A child of a node of the data: a leaf with the name of its basic type, its dimensions and the text it reads as, or a node *)
Inductive content := Lf (type : text) (dims : list Z) (str : option text) | Nd (children : list (text * content)).

(** IOBuffer.cpp 1621-1671 GetToken with one terminator, which is also skipped (C17): the token and what is left, None: false *)
Fixpoint run_until (term : Z) (s : text) : text * text :=
  match s with [] => ([], []) | c :: r => if c =? term then ([], r) else let '(t, rest) := run_until term r in (c :: t, rest) end.
Fixpoint token (term : Z) (s : text) : option (text * text) :=
  match s with [] => None | c :: r => if c =? term then token term r else Some (run_until term s) end.

(** "AutoGenerated", "AutoGeneratedRoot" (IntrospectionStructure.cpp 366, 377, 438) *)
Definition auto : text := [65;117;116;111;71;101;110;101;114;97;116;101;100].
Definition auto_root : text := auto ++ [82;111;111;116].

(** in.Read(typeIdentifier, typeName): the text of the leaf of that name, empty if there is none (lines 360-363, 433-435) *)
Fixpoint read (id : text) (l : list (text * content)) : text :=
  match l with
  | [] => []
  | (n, c) :: r => if text_eqb n id then match c with Lf _ _ (Some s) => s | _ => [] end else read id r
  end.
(** Lines 359-379, and 432-439 for the name of the type of a member, which is the same *)
Definition type_name (id : option text) (name : option text) (children : list (text * content)) : text :=
  match (match id with Some i => read i children | None => [] end) with
  | [] => match name with None => auto_root | Some n => auto ++ (match token ch_open n with Some (t, _) => t | None => n end) end
  | t => t
  end.

(** Lines 395-426: the children after an element of an array which are taken with it. [n] counts the children the loop steps over: the
    one that stops it is one of them. None: ok is false *)
Fixpoint group (base : text) (l : list (text * content)) (numberOfElements : Z) (n : nat) : option (Z * nat) :=
  match l with
  | [] => Some (numberOfElements, n)
  | (name, _) :: r =>
    match token ch_open name with
    | Some (t, rest) =>
      if text_eqb t base then
        match token ch_close rest with
        | Some (k, _) =>
          let '(ok, v) := string_to_integer uint32_t k in
          if ok then group base r (uwrap 32 (v + 1)) (S n) else None
        | None => None
        end
      else Some (numberOfElements, S n)
    | None => Some (numberOfElements, S n)
    end
  end.

(** the type has a member of that name already *)
Definition has_member (n : text) (ms : list child) : bool :=
  existsb (fun c => match c with Node m _ _ => text_eqb m n | Leaf => false end) ms.

Definition types := list (text * list child).

Section Children.
Context (id : option text) (rec : text -> content -> option (option types)).
(** Lines 381-496: the loop over the children; [skip] children are stepped over, [ms] are the members written so far and [nested] the
    types found below. Some None: ok is false *)
Fixpoint children_loop (l : list (text * content)) (skip : nat) (ms : list child) (nested : types) : option (option (list child * types)) :=
  match l with
  | [] => Some (Some (ms, nested))
  | (name, c) :: r =>
    match skip with
    | S skip => children_loop r skip ms nested
    | O =>
      match c with
      | Nd sub =>
        match (match token ch_open name with
               | Some (b, _) => match group b r 1 0 with Some (k, n) => Some (b, k, n) | None => None end
               | None => Some (name, 1, O)
               end) with
        | None => Some None
        | Some (b, k, n) =>
          match rec name c with
          | None => None
          | Some None => Some None
          | Some (Some ts) =>
            if has_member b ms then Some None
            else children_loop r n (ms ++ [Node b (Some (type_name id (Some name) sub)) (Values [k])]) (nested ++ ts)
          end
        end
      | Lf type dims _ =>
        if (match id with Some i => text_eqb name i | None => false end) then children_loop r 0 ms nested
        else if has_member name ms then None
        else children_loop r 0 (ms ++ [Node name (Some type) (Values (match dims with [] => [1] | d => d end))]) nested
      end
    end
  end.
End Children.

(** Lines 357-498: RegisterStructuredDataIPriv; the types in the order of their creation *)
Fixpoint collect (id : option text) (name : option text) (c : content) {struct c} : option (option types) :=
  match c with
  | Lf _ _ _ => Some None
  | Nd children =>
    match children_loop id (fun n c => collect id (Some n) c) children 0 [] [] with
    | Some (Some (ms, nested)) => Some (Some ((type_name id name children, ms) :: nested))
    | Some None => Some None
    | None => None
    end
  end.

(** Lines 333-352: the types are initialised from the last to the first *)
Fixpoint initialise_all (g : registry) (l : types) : option (bool * registry) :=
  match l with
  | [] => Some (true, g)
  | (name, cs) :: r =>
    match initialise g name cs with
    | Some (true, g) => initialise_all g r
    | other => other
    end
  end.
Fixpoint distinct (l : list text) : bool := match l with [] => true | n :: r => negb (existsb (text_eqb n) r) && distinct r end.

(** Lines 318-355: RegisterStructuredDataI on a node with that name (None at the root) and these children *)
Definition register_tree (g : registry) (id name : option text) (children : list (text * content)) : option (bool * registry) :=
  match collect id name (Nd children) with
  | None => None
  | Some None => Some (false, g)
  | Some (Some ts) => if distinct (map fst ts) then initialise_all g (rev ts) else Some (false, g)
  end.
