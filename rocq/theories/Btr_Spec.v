(** What the binary tree promises: a map from identifiers to values, whose entries have positions in the order of the keys. *)
From Verif Require Import Base Btr_Model.

(** The entries of the map, in the order of insertion. *)
Definition lookup {V} (m : list (ident * V)) (id : ident) : option V :=
  match find (fun p : ident * V => if list_eq_dec Z.eq_dec (fst p) id then true else false) m with Some p => Some (snd p) | None => None end.
Definition without {V} (m : list (ident * V)) (id : ident) : list (ident * V) :=
  filter (fun p : ident * V => if list_eq_dec Z.eq_dec (fst p) id then false else true) m.
(** The position of an identifier: how many entries have a smaller key. *)
Definition rank {V} (H : ident -> Z) (m : list (ident * V)) (id : ident) : Z := len (filter (fun p => H (fst p) <? H id) m).

Definition next {V} (m : list (ident * V)) (o : op V) : list (ident * V) :=
  match o with
  | Insert id v memory _ => match lookup m id with Some _ => m | None => if memory then (id, v) :: m else m end
  | Get id x _ _ => match lookup m id with Some _ => m | None => (id, x) :: m end
  | Remove id => without m id
  | Reset => []
  | _ => m
  end.
Definition answers {V} (H : ident -> Z) (m : list (ident * V)) (o : op V) (r : out V) : Prop :=
  match o with
  | Insert id _ memory _ => r = Done (match lookup m id with Some _ => false | None => memory end) (rank H m id)
  | Remove id => r = Done (match lookup m id with Some _ => true | None => false end) 0
  | Search id => r = Done (match lookup m id with Some _ => true | None => false end) (rank H m id)
  | At pos => exists id v, In (id, v) m /\ rank H m id = Z.min pos (len m - 1) /\ r = Value v
  | Get id x _ _ => r = Value (match lookup m id with Some v => v | None => x end)
  | Reset => r = Nothing
  | Size => r = Done true (len m)
  end.
(** A position is only asked for if there is an entry. *)
Definition allowed {V} (m : list (ident * V)) (o : op V) : Prop := match o with At pos => m <> [] /\ 0 <= pos | _ => True end.
Fixpoint all_allowed {V} (m : list (ident * V)) (l : list (op V)) : Prop := match l with [] => True | o :: l => allowed m o /\ all_allowed (next m o) l end.
Fixpoint all_answers {V} (H : ident -> Z) (m : list (ident * V)) (l : list (op V)) (rs : list (out V)) : Prop :=
  match l, rs with [], [] => True | o :: l, r :: rs => answers H m o r /\ all_answers H (next m o) l rs | _, _ => False end.

Definition ids_of {V} (o : op V) : list ident := match o with Insert id _ _ _ | Remove id | Search id | Get id _ _ _ => [id] | _ => [] end.
Definition no_collision {V} (H : ident -> Z) (l : list (op V)) : Prop := forall a b, In a (flat_map ids_of l) -> In b (flat_map ids_of l) -> H a = H b -> a = b.
(** The heap has memory, or refuses it already for the first of the two lists. *)
Definition fed {V} (o : op V) : Prop := match o with Insert _ _ a b => a = true -> b = true | Get _ _ a b => a = true /\ b = true | _ => True end.
