(** What the database of the threads promises: a collection [live] of registered threads, in no particular order. *)
From Coq Require Import String Permutation.
From Verif Require Import Base Tdb_Model.

(** [answer live c r live']: with the threads [live] registered, the call [c] may return [r] and leave [live'] registered. *)
Inductive answer (live : list info) : call -> result -> list info -> Prop :=
| added i m live' : Permutation live' (i :: live) -> answer live (New i m) (RBool true) live'
  (* refused: no memory, or one thread less than a multiple of 64 registered *)
| refused i m : m = false \/ (Z.of_nat (List.length live) + 1) mod 64 = 0 -> answer live (New i m) (RBool false) live
| removed t i live' : tid i = t -> Permutation live (i :: live') -> answer live (Remove t) (RInfo (Some i)) live'
| not_removed t : (forall i, In i live -> tid i <> t) -> answer live (Remove t) (RInfo None) live
| got t i : In i live -> tid i = t -> answer live (Get t) (RInfo (Some i)) live
| not_got t : (forall i, In i live -> tid i <> t) -> answer live (Get t) (RInfo None) live
| counted : answer live Number (RNum (Z.of_nat (List.length live))) live
| indexed n i : n < Z.of_nat (List.length live) -> In i live -> answer live (Id n) (RNum (tid i)) live
| out_of_range n : Z.of_nat (List.length live) <= n -> answer live (Id n) (RNum 0) live
| info_indexed n i : n < Z.of_nat (List.length live) -> In i live -> answer live (InfoAt n) (RInfo (Some i)) live
| no_info n : Z.of_nat (List.length live) <= n -> (forall i, In i live -> tid i <> 0) -> answer live (InfoAt n) (RInfo None) live
| named s i : In i live -> name i = s -> answer live (Find s) (RNum (tid i)) live
| not_named s : (forall i, In i live -> name i <> s) -> answer live (Find s) (RNum 0) live.

Inductive answers : list info -> list call -> list result -> list info -> Prop :=
| no_call live : answers live [] [] live
| one_call live c r live1 cs rs live2 : answer live c r live1 -> answers live1 cs rs live2 -> answers live (c :: cs) (r :: rs) live2.

(** A call that the users of the database may make: an identifier other than 0, an index that is a uint32 and not the largest one. *)
Definition sane (c : call) : Prop :=
  match c with
  | New i _ => tid i <> 0
  | Id n | InfoAt n => 0 <= n < 2 ^ 32 - 1
  | _ => True
  end.
(** Memory may only be missing while NumberOfThreads is 0. *)
Definition memory_kept (cs : list call) : Prop :=
  forall a i b rs d, cs = a ++ New i false :: b -> run start a = Some (rs, d) -> number d = 0.
