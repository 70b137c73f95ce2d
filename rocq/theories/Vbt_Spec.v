(** What it means that a value meets its attributes. *)
From Verif Require Import Vbt_Model.
From Coq Require Import List Arith ZArith Lia Bool.
Import ListNotations.
Open Scope Z_scope.

(** The order of a dictionary *)
Inductive before : text -> text -> Prop :=
| B_end y b : before [] (y :: b)
| B_less x y a b : x < y -> before (x :: a) (y :: b)
| B_same x a b : before a b -> before (x :: a) (x :: b).
(** An integer is written with c characters *)
Definition written (z c : Z) : Prop :=
  exists d, 1 <= d /\ Z.abs z < 10 ^ d /\ (d = 1 \/ 10 ^ (d - 1) <= Z.abs z) /\ c = (if z <? 0 then 1 else 0) + d.

Definition number_meets (a : limits) (z : Z) : Prop :=
  (forall m, max_n a = Some m -> z <= m) /\ (forall m, min_n a = Some m -> m <= z) /\ (forall l, values_n a = Some l -> In z l).
Definition size_meets (a : limits) (c : Z) : Prop :=
  (forall s, min_size a = Some s -> s <= c) /\ (forall s, max_size a = Some s -> c <= s).
Definition text_meets (a : limits) (t : text) : Prop :=
  (forall m, max_t a = Some m -> ~ before m t) /\ (forall m, min_t a = Some m -> ~ before t m) /\ (forall l, values_t a = Some l -> In t l).
(** One element *)
Definition meets (k : kind) (a : limits) (e : elem) : Prop :=
  match k, e with
  | Int _ _, Num z => number_meets a z /\ forall c, written z c -> size_meets a c
  | Chr, Num z => number_meets a z /\ size_meets a 1
  | Str, Ptr (Some t) => text_meets a t /\ size_meets a (Z.of_nat (length t))
  | _, _ => True
  end.
(** The elements of a value, row after row *)
Definition elements (v : value) : list elem :=
  match dims v with
  | 0%nat => firstn 1 (block v)
  | 1%nat => firstn (n0 v) (block v)
  | 2%nat => if static v then firstn (n0 v * n1 v) (block v) else concat (map (firstn (n0 v)) (firstn (n1 v) (rows v)))
  | _ => []
  end.
Definition of_kind (k : kind) (e : elem) : Prop :=
  match k, e with Int _ _, Num z => Z.abs z < 2 ^ 64 | Chr, Num _ => True | Str, Ptr (Some _) => True | _, _ => False end.
(** The memory holds all the elements, they are of the type, and no string is NULL; the sizes are those of the program, not zero *)
Definition complete (v : value) : Prop :=
  Forall (of_kind (kd v)) (elements v) /\
  match dims v with
  | 0%nat => n0 v = 1%nat /\ (1 <= length (block v))%nat
  | 1%nat => (n0 v <= length (block v))%nat
  | 2%nat => if static v then (n0 v * n1 v <= length (block v))%nat else (length (rows v) = n1 v)%nat /\ Forall (fun r => length r = n0 v) (rows v)
  | _ => False
  end.
(** The sizes in the attributes are unsigned *)
Definition proper (a : limits) : Prop := forall s, max_size a = Some s -> 0 <= s.
