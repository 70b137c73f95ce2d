(** Source/Core/BareMetal/L2Objects: ReferenceContainer.cpp (Insert 152-229, Delete 231-245, Find 252-367),
    ReferenceContainerFilterObjectName.cpp (SetAddress 66-131, TestPath 187-199, Test 201-252) and ReferenceContainerFilter.cpp (46-129).
    Simplifications: one thread (the locks always succeed), a container is the list of its objects and an object is not in two containers. *)
From Coq Require Import String Ascii.
From Verif Require Import Base Paths.
Open Scope string_scope. Open Scope nat_scope. Open Scope list_scope.

(** An object: an identity, a name (None: NULL) and, when it is a ReferenceContainer, the objects in it. *)
Inductive obj := Ob (id : nat) (name : option string) (kids : option (list obj)).
Definition oid (o : obj) := let 'Ob i _ _ := o in i.
Definition oname (o : obj) := let 'Ob _ n _ := o in n.
Definition okids (o : obj) := let 'Ob _ _ k := o in k.
(** StringHelper::Compare == 0 (false for NULL) *)
Definition named (t : string) (o : obj) : bool := match oname o with Some n => String.eqb n t | None => false end.

(** ** Paths *)
(** StringHelper::TokenizeByChars(string, ".", result): the token and the rest (StringHelperExtras_Generic.cpp 133-179). *)
Fixpoint token (s : string) : string * string :=
  match s with
  | EmptyString => (EmptyString, EmptyString)
  | String c r => if Ascii.eqb c dot then (EmptyString, r) else let '(t, n) := token r in (String c t, n)
  end.
(** SetAddress 84-97: [prev]: i - lastFoundIndex == 1. *)
Fixpoint count_nodes (s : string) (prev : bool) (n : nat) : nat :=
  match s with
  | EmptyString => n
  | String c r => if Ascii.eqb c dot then if prev then 0 else count_nodes r true (S n) else count_nodes r false n
  end.
Fixpoint ends_with_dot (s : string) : bool :=
  match s with EmptyString => false | String c EmptyString => Ascii.eqb c dot | String _ r => ends_with_dot r end.
Fixpoint tokens (n : nat) (s : string) : list string :=
  match n with O => [] | S k => let '(t, r) := token s in t :: tokens k r end.
(** SetAddress 66-131: addressToSearch *)
Definition address (s : string) : list string :=
  match s with
  | EmptyString => []
  | String c r =>
    let body := if Ascii.eqb c dot then r else s in
    let n := count_nodes body true 1 in
    let n := if ends_with_dot s then n - 1 else n in
    tokens n body
  end.

(** ** Filters *)
(** ReferenceContainerFilter: occurrence, originallySetOccurrence == -1, and the bits of mode. *)
Record filt := Fi { occ : Z; all : bool; recu : bool; pathm : bool; rever : bool; remv : bool }.
Definition finished (f : filt) : bool := (occ f =? 0)%Z.                                                                   (* 76-78 *)
Definition increment_found (f : filt) : filt := if (0 <? occ f)%Z then Fi (occ f - 1) (all f) (recu f) (pathm f) (rever f) (remv f) else f. (* 66-70 *)
(** SetMode(GetMode() | PATH) and SetMode(GetMode() & ~(RECURSIVE | PATH)): SetMode 117-129 *)
Definition mode_path (f : filt) : filt := Fi (occ f) false true true (rever f) (remv f).
Definition mode_flat (f : filt) : filt := Fi (occ f) (all f) false false (rever f) (remv f).
(** TestPath 187-199 *)
Fixpoint test_path (addr : list string) (res : list obj) : bool :=
  match res, addr with [], _ => true | o :: r, t :: a => named t o && test_path a r | _ :: _, [] => false end.
(** Test 201-252 *)
Definition test (addr : list string) (f : filt) (res : list obj) (o : obj) : bool * filt :=
  match addr, oname o with
  | [], _ | _, None => (false, f)
  | _, Some _ =>
    let many := 1 <? length addr in
    let index := if many then length res else 0 in
    let found := match nth_error addr index with Some t => named t o | None => false end in
    let path_ok := found && (if many then test_path addr res else true) in
    let found := path_ok && (if many then length res =? length addr - 1 else true) in
    let f := if many then if path_ok then mode_path f else mode_flat f else f in
    (found, if found then increment_found f else f)
  end.

(** ** Find 252-352 *)
(** None: the reference of a deleted node is used (298: IsContainer(currentNodeReference) after ListDelete 281). *)
Section Walk.
Variable visit : obj -> filt -> list obj -> option (option obj * filt * list obj).
Definition cons_opt (o : option obj) (l : list obj) := match o with Some x => x :: l | None => l end.
(** the loop 263-345, forwards and REVERSE: what is left in the container, the filter and the result *)
Fixpoint walk (l : list obj) (f : filt) (res : list obj) : option (list obj * filt * list obj) :=
  match l with
  | [] => Some ([], f, res)
  | o :: r => if finished f then Some (l, f, res) else
      match visit o f res with
      | None => None
      | Some (o', f, res) => match walk r f res with None => None | Some (r', f, res) => Some (cons_opt o' r', f, res) end
      end
  end.
Fixpoint walk_back (l : list obj) (f : filt) (res : list obj) : option (list obj * filt * list obj) :=
  match l with
  | [] => Some ([], f, res)
  | o :: r =>
      match walk_back r f res with
      | None => None
      | Some (r', f, res) => if finished f then Some (o :: r', f, res) else
          match visit o f res with None => None | Some (o', f, res) => Some (cons_opt o' r', f, res) end
      end
  end.
End Walk.
(** one turn of the loop: 265-344 *)
Fixpoint visit (addr : list string) (o : obj) (f : filt) (res : list obj) {struct o} : option (option obj * filt * list obj) :=
  let '(found, f) := test addr f res o in
  let ins := found && (all f || finished f) in
  let res := if ins then res ++ [o] else res in
  let gone := ins && remv f in
  if finished f then Some (if gone then None else Some o, f, res)
  else if gone then None
  else match o with
  | Ob i n (Some kids) =>
    if recu f then
      let res1 := if pathm f then res ++ [o] else res in
      match (if rever f then walk_back (visit addr) kids f res1 else walk (visit addr) kids f res1) with
      | None => None
      | Some (kids', f, res2) =>
        let res3 := if negb (recu f) then []
                    else if length res1 =? length res2 then if pathm f then removelast res2 else res2 else res2 in
        Some (Some (Ob i n (Some kids')), f, res3)
      end
    else Some (Some o, f, res)
  | _ => Some (Some o, f, res)
  end.
Definition find (addr : list string) (f : filt) (l : list obj) : option (list obj * filt * list obj) :=
  if rever f then walk_back (visit addr) l f [] else walk (visit addr) l f [].
(** ReferenceContainerFilterObjectName(occurrence, mode, address): SetAddress 126-131 *)
Definition name_filter (occurrence : Z) (rec rev rem : bool) (addr : list string) : filt :=
  let f := Fi occurrence (occurrence =? -1)%Z rec false rev rem in if 1 <? length addr then mode_path f else f.
(** Find(path, recursive) 354-367 *)
Definition find_path (l : list obj) (path : string) (rec : bool) : option (option obj) :=
  let a := address path in
  match find a (name_filter 1 rec false false a) l with
  | None => None
  | Some (_, _, res) => Some (match rev res with [] => None | o :: _ => Some o end)
  end.
(** Delete(path) 239-245: the container afterwards, and what is returned *)
Definition delete_path (l : list obj) (path : string) : option (list obj * bool) :=
  let a := address path in
  match find a (name_filter 1 false false true a) l with
  | None => None
  | Some (l', _, res) => Some (l', negb (length res =? 0))
  end.

(** ** Insert(path, ref) 152-229 *)
Definition rename (o : obj) (t : string) : obj := let 'Ob i _ k := o in Ob i (Some t) k.
(** the first object named [t] 178-181, with what comes before and after it *)
Fixpoint split_at (t : string) (l : list obj) : option (list obj * obj * list obj) :=
  match l with
  | [] => None
  | o :: r => if named t o then Some ([], o, r) else match split_at t r with None => None | Some (a, x, b) => Some (o :: a, x, b) end
  end.
(** The loop 174-216, on the tokens; the identity of the containers it makes is 0. None: returns false (and has changed nothing). *)
Fixpoint insert_tokens (toks : list string) (l : list obj) (o : obj) : option (list obj) :=
  match toks with
  | [] => None
  | t :: rest =>
    match split_at t l with
    | Some (a, x, b) => match okids x with
                        | None => None
                        | Some k => match insert_tokens rest k o with None => None | Some k' => Some (a ++ Ob (oid x) (oname x) (Some k') :: b) end
                        end
    | None => match rest with
              | [] => Some (l ++ [rename o t])
              | _ => match insert_tokens rest [] o with None => None | Some k => Some (l ++ [Ob 0 (Some t) (Some k)]) end
              end
    end
  end.
(** the tokens of the path up to the first that is empty (174: token[0] != 0; 196: nextToken[0] == 0) *)
Fixpoint insert_path_tokens (fuel : nat) (s : string) : list string :=
  match fuel with O => [] | S k => let '(t, r) := token s in match t with EmptyString => [] | _ => t :: insert_path_tokens k r end end.
Definition insert_path (l : list obj) (path : string) (o : obj) : option (list obj) :=
  match path with
  | EmptyString => Some (l ++ [o])                                                     (* 155-157 *)
  | _ => insert_tokens (insert_path_tokens (S (String.length path)) path) l o
  end.
