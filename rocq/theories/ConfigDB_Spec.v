(** C31: the specification. A database is a tree given by what is at each path (a directory or a value), the names in each directory
    in order, and the path of the cursor. *)
From Coq Require Import String Ascii.
From Verif Require Import Base Paths ConfigDB_Model.
Open Scope string_scope. Open Scope nat_scope. Open Scope list_scope.

Notation path := (list string).
(** strip p q = Some r when q = p ++ r *)
Fixpoint strip (p q : path) : option path :=
  match p, q with [], _ => Some q | x :: p, y :: q => if String.eqb x y then strip p q else None | _ :: _, [] => None end.
Definition path_eqb (p q : path) : bool := match strip p q with Some [] => true | _ => false end.
Section Spec.
Context {V : Type}.
Inductive entry := Dir | Val (v : V).
Record tree := Tr { ent : path -> option entry; names : path -> list string; at_ : path }.
Definition empty : tree := Tr (fun p => match p with [] => Some Dir | _ => None end) (fun _ => []) [].
Definition move_to (t : tree) (p : path) : tree := Tr (ent t) (names t) p.
(** A value at [p]/[n]: what was there is gone with everything below it; a new name comes last. *)
Definition set (t : tree) (p : path) (n : string) (v : V) : tree :=
  Tr (fun q => match strip (p ++ [n]) q with Some [] => Some (Val v) | Some _ => None | None => ent t q end)
     (fun q => if path_eqb p q then if existsb (String.eqb n) (names t p) then names t p else names t p ++ [n] else names t q) (at_ t).
Definition mkdir (t : tree) (p : path) (n : string) : tree :=
  match ent t (p ++ [n]) with
  | Some _ => t
  | None => Tr (fun q => if path_eqb (p ++ [n]) q then Some Dir else ent t q)
               (fun q => if path_eqb (p ++ [n]) q then [] else if path_eqb p q then names t p ++ [n] else names t q) (at_ t)
  end.
Fixpoint mkdirs (t : tree) (p : path) (l : list string) : tree := match l with [] => t | n :: r => mkdirs (mkdir t p n) (p ++ [n]) r end.
Definition del (t : tree) (p : path) (n : string) : tree :=
  Tr (fun q => match strip (p ++ [n]) q with Some _ => None | None => ent t q end)
     (fun q => if path_eqb p q then filter (fun m => negb (String.eqb n m)) (names t p) else names t q) (at_ t).
Definition is_dir (t : tree) (p : path) : bool := match ent t p with Some Dir => true | _ => false end.
Definition go (t : tree) (p : path) : ans V * tree := if is_dir t p then (Ok true, move_to t p) else (Ok false, t).
(** The operations; [fail] is where a Create that fails leaves the cursor. *)
Definition mk (t : tree) (base p : path) (fail : path) : ans V * tree :=
  match ent t (base ++ p) with Some _ => (Ok false, move_to t fail) | None => (Ok true, move_to (mkdirs t base p) (base ++ p)) end.
Inductive sop := SWrite (n : string) (v : V) | SRead (n : string) | SCreateAbsolute (p : path) | SCreateRelative (p : path) | SMoveAbsolute (p : path) | SMoveRelative (p : path)
  | SMoveToChild (i : nat) | SMoveToAncestor (n : nat) | SMoveToRoot | SDelete (n : string) | SGetNumberOfChildren | SGetChildName (i : nat) | SGetName.
Definition sstep (t : tree) (o : sop) : ans V * tree :=
  match o with
  | SWrite n v => if String.eqb n "" then (Ok false, t) else (Ok true, set t (at_ t) n v)
  | SRead n => (Value (match ent t (at_ t ++ [n]) with Some (Val v) => Some v | _ => None end), t)
  | SCreateAbsolute p => mk t [] p []
  | SCreateRelative p => mk t (at_ t) p (at_ t)
  | SMoveAbsolute p => go t p
  | SMoveRelative p => go t (at_ t ++ p)
  | SMoveToChild i => match nth_error (names t (at_ t)) i with Some n => go t (at_ t ++ [n]) | None => (Ok false, t) end
  | SMoveToAncestor n => if (1 <=? n) && (n <=? List.length (at_ t)) then (Ok true, move_to t (firstn (List.length (at_ t) - n) (at_ t))) else (Ok false, t)
  | SMoveToRoot => (Ok true, move_to t [])
  | SDelete n => match ent t (at_ t ++ [n]) with Some _ => (Ok true, del t (at_ t) n) | None => (Ok false, t) end
  | SGetNumberOfChildren => (Number (List.length (names t (at_ t))), t)
  | SGetChildName i => (Name (nth_error (names t (at_ t)) i), t)
  | SGetName => (Name (match rev (at_ t) with [] => None | n :: _ => Some n end), t)
  end.
Fixpoint srun (t : tree) (l : list sop) : list (ans V) * tree :=
  match l with [] => ([], t) | o :: r => let '(a, t) := sstep t o in let '(al, t) := srun t r in (a :: al, t) end.
(** The call that asks for the operation. *)
Definition call (o : sop) : op V :=
  match o with
  | SWrite n v => Write n v | SRead n => Read n | SCreateAbsolute p => CreateAbsolute (join p) | SCreateRelative p => CreateRelative (join p)
  | SMoveAbsolute p => MoveAbsolute (join p) | SMoveRelative p => MoveRelative (join p) | SMoveToChild i => MoveToChild i | SMoveToAncestor n => MoveToAncestor n
  | SMoveToRoot => MoveToRoot | SDelete n => Delete n | SGetNumberOfChildren => GetNumberOfChildren | SGetChildName i => GetChildName i | SGetName => GetName
  end.
(** The names used, which must have different hashes, and paths that are lists of good names. *)
Definition used (o : sop) : list string :=
  match o with SWrite n _ | SRead n | SDelete n => [n] | SCreateAbsolute p | SCreateRelative p | SMoveAbsolute p | SMoveRelative p => p | _ => [] end.
Definition good_paths (o : sop) : Prop :=
  match o with SCreateAbsolute p | SCreateRelative p | SMoveAbsolute p | SMoveRelative p => p <> [] /\ Forall good_name p | _ => True end.
Definition distinct_hashes (H : string -> Z) (l : list string) : Prop := forall a b, In a l -> In b l -> H a = H b -> a = b.
(** A Create does not go through a value. *)
Definition no_value_on (t : tree) (base p : path) : Prop := forall a b v, p = a ++ b -> a <> [] -> b <> [] -> ent t (base ++ a) <> Some (Val v).
Definition clear_way (t : tree) (o : sop) : Prop :=
  match o with SCreateAbsolute p => no_value_on t [] p | SCreateRelative p => no_value_on t (at_ t) p | _ => True end.
Fixpoint all_clear (t : tree) (l : list sop) : Prop := match l with [] => True | o :: r => clear_way t o /\ all_clear (snd (sstep t o)) r end.
End Spec.
Arguments tree V : clear implicits. Arguments sop V : clear implicits. Arguments entry V : clear implicits.
