(** What a finite map must answer, read off the history of calls (most recent first). *)
From Verif Require Import Base Map_Model.

Definition key_eqb (a b : key) : bool := if list_eq_dec Z.eq_dec a b then true else false.

(** The value of key [k] after history [h]: that of the oldest insertion after the last removal or reset
    (an insertion of a present key is refused and changes nothing). *)
Fixpoint val_of {V} (h : list (mop V)) (k : key) : option V :=
  match h with
  | [] => None
  | MInsert k' v :: r => if key_eqb k k' then match val_of r k with Some w => Some w | None => Some v end else val_of r k
  | MRemove k' :: r => if key_eqb k k' then None else val_of r k
  | MReset :: _ => None
  | MSearch _ :: r | MSize :: r => val_of r k
  end.
Definition present {V} (h : list (mop V)) (k : key) : bool := match val_of h k with Some _ => true | None => false end.
(** The number of keys present *)
Fixpoint count_of {V} (h : list (mop V)) : Z :=
  match h with
  | [] => 0
  | MInsert k _ :: r => if present r k then count_of r else count_of r + 1
  | MRemove k :: r => if present r k then count_of r - 1 else count_of r
  | MReset :: _ => 0
  | MSearch _ :: r | MSize :: r => count_of r
  end.
Definition answer {V} (h : list (mop V)) (o : mop V) : mans V :=
  match o with
  | MInsert k v => match val_of h k with Some w => AInsert false w | None => AInsert true v end
  | MRemove k => ARemove (present h k)
  | MSearch k => ASearch (val_of h k)
  | MReset => AReset
  | MSize => ASize (count_of h)
  end.
Fixpoint answers {V} (h : list (mop V)) (ops : list (mop V)) : list (mans V) :=
  match ops with [] => [] | o :: r => answer h o :: answers (o :: h) r end.

Definition op_key {V} (o : mop V) : list key :=
  match o with MInsert k _ | MRemove k | MSearch k => [k] | _ => [] end.
Definition op_keys {V} (ops : list (mop V)) : list key := flat_map op_key ops.
(** No two different keys used in the history have the same 64-bit hash. *)
Definition no_collision {V} (H : key -> Z) (ops : list (mop V)) : Prop :=
  forall a b, In a (op_keys ops) -> In b (op_keys ops) -> H a = H b -> a = b.
Definition hash64 (H : key -> Z) : Prop := forall k, 0 <= H k < 2 ^ 64.
