(** Source/Core/BareMetal/L4Configuration: ConfigurationDatabase.cpp and ConfigurationDatabaseNode.cpp.
    Nodes live in a heap (an address is a number; the root is at 0 and has no name). None is undefined behaviour: a NULL node is
    dereferenced, an array is accessed out of its bounds, or (never, by C31_history) the fuel of Purge or Find runs out.
    Simplifications: one database (no copies, no SetCurrentNodeAsRootNode or AddToCurrentNode), one thread; a value is stored and
    read as such (the conversions are C39 and others), structured values are not modelled; memory is never exhausted and a node
    has fewer than 2^31 children (sizes do not wrap). The map from names to indexes is the list of its entries (hash, index):
    that UnorderedMap behaves like this on hashes is C14. numberOfNodes (used only to decide about Purge of copies) is left out. *)
From Coq Require Import String Ascii.
From Verif Require Import Base Paths.
Open Scope string_scope. Open Scope nat_scope. Open Scope list_scope.

(** ** Tokens *)
Fixpoint skip_dots (s : string) : string := match s with String c r => if Ascii.eqb c dot then skip_dots r else s | EmptyString => s end.
Fixpoint run (s : string) : string * bool * string :=
  match s with
  | EmptyString => (EmptyString, false, EmptyString)
  | String c r => if Ascii.eqb c dot then (EmptyString, true, r) else let '(t, d, n) := run r in (String c t, d, n)
  end.
(** GetToken(token, ".", terminator) on a StreamString (IOBuffer.cpp 1621-1671; C17): the token, whether it ended with a dot, the rest *)
Definition get_tok (s : string) : option (string * bool * string) := match skip_dots s with EmptyString => None | s' => Some (run s') end.
Fixpoint drop (n : nat) (s : string) : string := match n, s with O, _ => s | S k, String _ r => drop k r | S _, EmptyString => EmptyString end.

Section DB.
Context {V : Type} (H : string -> Z).

(** What a node holds: another node or a value (AnyObject). *)
Inductive ref := RNode (id : nat) | RLeaf (name : string) (v : V).
Record node := Nd { nname : string; par : option nat; cont : list ref; mx : nat; bt : list (Z * nat) }.
Definition heap := nat -> node.
Definition put (h : heap) (i : nat) (n : node) : heap := fun j => if j =? i then n else h j.
Definition rname (h : heap) (r : ref) : string := match r with RNode c => nname (h c) | RLeaf n _ => n end.
(** ConfigurationDatabaseNode() 45-52 *)
Definition new_node (name : string) : node := Nd name None [] 0 [].

(** UnorderedMap Search and Insert *)
Fixpoint bt_search (b : list (Z * nat)) (k : Z) : option nat := match b with [] => None | (k', i) :: r => if (k' =? k)%Z then Some i else bt_search r k end.

(** Purge 60-79 *)
Fixpoint purge (fuel : nat) (h : heap) (i : nat) : option heap :=
  match fuel with
  | O => None
  | S k =>
    let h := put h i (Nd (nname (h i)) None (cont (h i)) (mx (h i)) (bt (h i))) in
    match (fix each (l : list ref) (h : heap) : option heap :=
             match l with
             | [] => Some h
             | RNode c :: r => match purge k h c with None => None | Some h => each r h end
             | RLeaf _ _ :: r => each r h
             end) (cont (h i)) h with
    | None => None
    | Some h => Some (put h i (Nd (nname (h i)) (par (h i)) [] 0 []))
    end
  end.
Fixpoint replace (n : nat) (r : ref) (l : list ref) : list ref := match n, l with O, _ :: t => r :: t | S k, x :: t => x :: replace k r t | _, [] => [] end.
(** Insert 81-125 *)
Definition insert (h : heap) (i : nat) (r : ref) (fail_if_exists : bool) : option (bool * heap) :=
  let n := h i in
  let index := length (cont n) in
  match bt_search (bt n) (H (rname h r)) with
  | Some j => if fail_if_exists then Some (false, h)
              else if j <? length (cont n) then Some (true, put h i (Nd (nname n) (par n) (replace j r (cont n)) (mx n) (bt n))) else None
  | None =>
    let m := if mx n <=? index then if mx n =? 0 then 1 else mx n * 2 else mx n in
    if index <? m then Some (true, put h i (Nd (nname n) (par n) (cont n ++ [r]) m (bt n ++ [(H (rname h r), index)]))) else None
  end.
(** FindLeaf 179-190 *)
Definition search (h : heap) (i : nat) (name : string) : option ref :=
  match bt_search (bt (h i)) (H name) with None => None | Some j => nth_error (cont (h i)) j end.
(** Find 141-177 *)
Fixpoint find_node (fuel : nat) (h : heap) (i : nat) (path : string) : option (option ref) :=
  match fuel with
  | O => None
  | S k =>
    match get_tok path with
    | None => Some None
    | Some (t, term, _) =>
      match search h i t with
      | None => Some None
      | Some r => if term then
          match r with
          | RNode c => match drop (String.length t + 1) path with EmptyString => Some (Some r) | next => find_node k h c next end
          | RLeaf _ _ => Some None
          end
        else Some (Some r)
      end
    end
  end.
(** The loop 234-241; binTree.Insert false ends it with an error. *)
Fixpoint rebuild (h : heap) (l : list ref) (n : nat) (b : list (Z * nat)) : bool * list (Z * nat) :=
  match l with
  | [] => (true, b)
  | r :: t => match bt_search b (H (rname h r)) with Some _ => (false, b) | None => rebuild h t (S n) (b ++ [(H (rname h r), n)]) end
  end.
(** Delete 192-253 *)
Definition delete (fuel : nat) (h : heap) (i : nat) (r : ref) : option (bool * heap) :=
  let n := h i in
  match bt_search (bt n) (H (rname h r)) with
  | None => Some (false, h)
  | Some j =>
    if j <? length (cont n) then
      let size := length (cont n) - 1 in
      let m := if size <? mx n / 2 then Nat.max (mx n / 2) size else mx n in
      if m <? size then None else
      let m := if 0 <? size then m else 0 in
      let l := firstn j (cont n) ++ skipn (S j) (cont n) in
      let '(ok, b) := rebuild h l 0 [] in
      let h := put h i (Nd (nname n) (par n) l m b) in
      if ok then
        match r with
        | RNode c => match purge fuel (put h c (Nd (nname (h c)) None (cont (h c)) (mx (h c)) (bt (h c)))) c with None => None | Some h => Some (true, h) end
        | RLeaf _ _ => Some (true, h)
        end
      else Some (false, h)
    else Some (false, h)
  end.

(** ** ConfigurationDatabase *)
Record db := Db { hp : heap; nxt : nat; cur : nat }.
Definition init : db := Db (fun _ => new_node "") 1 0.

(** CreateNodes: the loop 286-318, from node [c] (None: currentNode is not valid). The result: heap, addresses used, currentNode, ok, created. *)
Fixpoint create_loop (fuel : nat) (h : heap) (nx : nat) (c : option nat) (path : string) (created : bool) : option (heap * nat * option nat * bool * bool) :=
  match fuel with
  | O => None
  | S k =>
    match get_tok path with
    | None => Some (h, nx, c, true, created)
    | Some (t, term, rest) =>
      match c with
      | None => None                                                     (* 295, 306: currentNode-> with a NULL pointer *)
      | Some c =>
        match (if term then search h c t else None) with
        | Some (RNode d) => create_loop k h nx (Some d) rest created
        | Some (RLeaf _ _) => create_loop k h nx None rest created       (* 297: the cast fails *)
        | None =>
          let h1 := put h nx (new_node t) in
          match insert h1 c (RNode nx) true with
          | None => None
          | Some (false, h2) => Some (h2, nx, Some c, false, created)
          | Some (true, h2) => let h3 := put h2 nx (Nd (nname (h2 nx)) (Some c) (cont (h2 nx)) (mx (h2 nx)) (bt (h2 nx))) in
                               create_loop k h3 (S nx) (Some nx) rest true
          end
        end
      end
    end
  end.
(** CreateNodes 275-326, from node [c] *)
Definition create (s : db) (c : nat) (path : string) : option (bool * db) :=
  match path with
  | EmptyString => Some (false, Db (hp s) (nxt s) c)
  | _ => match create_loop (S (String.length path)) (hp s) (nxt s) (Some c) path false with
         | None => None
         | Some (h, nx, Some d, true, true) => Some (true, Db h nx d)
         | Some (h, nx, _, _, _) => Some (false, Db h nx c)
         end
  end.
(** MoveToAncestor 253-273: the loop; [n] generations left *)
Fixpoint ancestor (h : heap) (c n : nat) : option nat :=
  match n with
  | O => Some c
  | S k => match par (h c) with
           | None => None
           | Some f => if f =? 0 then if k =? 0 then Some f else None else ancestor h f k
           end
  end.

Inductive op := Write (n : string) (v : V) | Read (n : string) | CreateAbsolute (p : string) | CreateRelative (p : string) | MoveAbsolute (p : string) | MoveRelative (p : string)
  | MoveToChild (i : nat) | MoveToAncestor (n : nat) | MoveToRoot | Delete (n : string) | GetNumberOfChildren | GetChildName (i : nat) | GetName.
Inductive ans := Ok (b : bool) | Value (v : option V) | Number (n : nat) | Name (n : option string).
Definition move (s : db) (from : nat) (p : string) : option (ans * db) :=
  match find_node (S (String.length p)) (hp s) from p with
  | None => None
  | Some (Some (RNode c)) => Some (Ok true, Db (hp s) (nxt s) c)
  | Some _ => Some (Ok false, s)
  end.
Definition step (s : db) (o : op) : option (ans * db) :=
  match o with
  | Write n v => match n with                                                                     (* 94-125 *)
      | EmptyString => Some (Ok false, s)
      | _ => match insert (hp s) (cur s) (RLeaf n v) false with None => None | Some (b, h) => Some (Ok b, Db h (nxt s) (cur s)) end
      end
  | Read n => Some (Value (match search (hp s) (cur s) n with Some (RLeaf _ v) => Some v | _ => None end), s)  (* 191-217 *)
  | CreateAbsolute p => match create s 0 p with None => None | Some (b, s) => Some (Ok b, s) end               (* 328-331 *)
  | CreateRelative p => match create s (cur s) p with None => None | Some (b, s) => Some (Ok b, s) end         (* 333-335 *)
  | MoveAbsolute p => move s 0 p                                                                               (* 219-228 *)
  | MoveRelative p => move s (cur s) p                                                                         (* 230-239 *)
  | MoveToChild i => match nth_error (cont (hp s (cur s))) i with Some (RNode c) => Some (Ok true, Db (hp s) (nxt s) c) | _ => Some (Ok false, s) end   (* 241-251 *)
  | MoveToAncestor n => match n with                                                                           (* 253-273 *)
      | O => Some (Ok false, s)
      | _ => match ancestor (hp s) (cur s) n with Some c => Some (Ok true, Db (hp s) (nxt s) c) | None => Some (Ok false, s) end
      end
  | MoveToRoot => Some (Ok true, Db (hp s) (nxt s) 0)                                                          (* 183-189 *)
  | Delete n => match search (hp s) (cur s) n with                                                             (* 337-345 *)
      | None => Some (Ok false, s)
      | Some r => match delete (S (nxt s)) (hp s) (cur s) r with None => None | Some (b, h) => Some (Ok b, Db h (nxt s) (cur s)) end
      end
  | GetNumberOfChildren => Some (Number (length (cont (hp s (cur s)))), s)                                     (* 365-371 *)
  | GetChildName i => Some (Name (match nth_error (cont (hp s (cur s))) i with Some r => Some (rname (hp s) r) | None => None end), s)  (* 360-363 *)
  | GetName => Some (Name (if cur s =? 0 then None else Some (nname (hp s (cur s)))), s)                       (* 356-358 *)
  end.
Fixpoint exec (s : db) (l : list op) : option (list ans * db) :=
  match l with
  | [] => Some ([], s)
  | o :: r => match step s o with None => None | Some (a, s) => match exec s r with None => None | Some (al, s) => Some (a :: al, s) end end
  end.
End DB.
Arguments db V : clear implicits. Arguments op V : clear implicits. Arguments ans V : clear implicits. Arguments ref V : clear implicits. Arguments node V : clear implicits. Arguments heap V : clear implicits.
