(** What a static list should be: a sequence of values, with room for [cap] of them before it has to grow. *)
From Verif Require Import Base StaticList_Model.

Inductive op :=
| OAdd (v : list Z) (a : alloc) | OInsert (pos : Z) (v : list Z) (a : alloc) | OAddNull (a : alloc)
| ORemove (pos : Z) | OExtract (pos : Z) | OPeek (pos : Z) | OSet (pos : Z) (v : list Z) | OClean | OSize | OCapacity.
Inductive res := RBool (b : bool) | RVal (b : bool) (v : list Z) | RNum (n : Z) | RUnit.

(** Largest number of elements: whole granules of g elements of e bytes that fit in 2^32 - 1 bytes. *)
Definition max_elements (e g : Z) : Z := g * ((2 ^ 32 - 1) / (g * e)).

(** The client passes values of the element size and uint32 positions. *)
Definition good_op (e : Z) (o : op) : Prop :=
  match o with
  | OAdd v _ => Z.of_nat (length v) = e
  | OInsert p v _ | OSet p v => Z.of_nat (length v) = e /\ 0 <= p < 2 ^ 32
  | ORemove p | OExtract p | OPeek p => 0 <= p < 2 ^ 32
  | _ => True
  end.

(** Room for one more: there is spare capacity, or a further granule fits and memory is granted. *)
Definition grow (e g : Z) (l : list (list Z)) (cap : Z) (a : alloc) : option Z :=
  if Z.of_nat (length l) <? cap then Some cap
  else if (cap + g <=? max_elements e g) && (match a with Some _ => true | None => false end) then Some (cap + g)
  else None.

Definition insert_at {A} (n : nat) (v : A) (l : list A) : list A := firstn n l ++ v :: skipn n l.
Definition remove_at {A} (n : nat) (l : list A) : list A := firstn n l ++ skipn (S n) l.
Definition set_at {A} (n : nat) (v : A) (l : list A) : list A := firstn n l ++ v :: skipn (S n) l.

Definition seq_step (e g : Z) (l : list (list Z)) (cap : Z) (o : op) : list (list Z) * Z * res :=
  match o with
  | OAdd v a => match grow e g l cap a with Some c => (l ++ [v], c, RBool true) | None => (l, cap, RBool false) end
  | OInsert p v a =>
      if p <=? Z.of_nat (length l)
      then match grow e g l cap a with Some c => (insert_at (Z.to_nat p) v l, c, RBool true) | None => (l, cap, RBool false) end
      else (l, cap, RBool false)
  | OAddNull _ => (l, cap, RBool false)
  | ORemove p => if p <? Z.of_nat (length l) then (remove_at (Z.to_nat p) l, cap, RBool true) else (l, cap, RBool false)
  | OExtract p => if p <? Z.of_nat (length l) then (remove_at (Z.to_nat p) l, cap, RVal true (nth (Z.to_nat p) l []))
                  else (l, cap, RVal false [])
  | OPeek p => if p <? Z.of_nat (length l) then (l, cap, RVal true (nth (Z.to_nat p) l [])) else (l, cap, RVal false [])
  | OSet p v => if p <? Z.of_nat (length l) then (set_at (Z.to_nat p) v l, cap, RBool true) else (l, cap, RBool false)
  | OClean => ([], cap, RUnit)
  | OSize => (l, cap, RNum (Z.of_nat (length l)))
  | OCapacity => (l, cap, RNum cap)
  end.

Definition code_step (s : slist) (o : op) : option (slist * res) :=
  match o with
  | OAdd v a => match sl_add s (Some v) a with Some (b, s') => Some (s', RBool b) | None => None end
  | OAddNull a => match sl_add s None a with Some (b, s') => Some (s', RBool b) | None => None end
  | OInsert p v a => match sl_insert s p (Some v) a with Some (b, s') => Some (s', RBool b) | None => None end
  | ORemove p => match sl_remove s p with Some (b, s') => Some (s', RBool b) | None => None end
  | OExtract p => match sl_extract s p with Some (b, s', v) => Some (s', RVal b v) | None => None end
  | OPeek p => match sl_peek s p with Some (b, v) => Some (s, RVal b v) | None => None end
  | OSet p v => match sl_set s p v with Some (b, s') => Some (s', RBool b) | None => None end
  | OClean => Some (sl_clean s, RUnit)
  | OSize => Some (s, RNum (sl_size s))
  | OCapacity => Some (s, RNum (sl_cap s))
  end.

Fixpoint code_run (s : slist) (ops : list op) : option (list res) :=
  match ops with
  | [] => Some []
  | o :: r => match code_step s o with
              | None => None
              | Some (s', x) => match code_run s' r with None => None | Some xs => Some (x :: xs) end
              end
  end.
Fixpoint seq_run (e g : Z) (l : list (list Z)) (cap : Z) (ops : list op) : list res :=
  match ops with
  | [] => []
  | o :: r => let '(l', c, x) := seq_step e g l cap o in x :: seq_run e g l' c r
  end.
