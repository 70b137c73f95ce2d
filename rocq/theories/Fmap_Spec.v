(** What the user of the fast scheduler expects of its pool of threads. *)
From Verif Require Import Base Fmap_Model.
Open Scope nat_scope.

(** [own] gives the pool thread of each configured thread of a state: each has its own, which executes its work, and no other pool thread
    executes anything.  [tab]: what each thread of the pool executes in that state. *)
Definition works (tab : list (option (list nat))) (ths : state) (own : list nat) : Prop :=
  NoDup own /\
  length own = length ths /\
  (forall j t p, nth_error ths j = Some t -> nth_error own j = Some p -> nth_error tab p = Some (Some (work t))) /\
  (forall p w, nth_error tab p = Some (Some w) -> In p own).
(** Each configured thread runs on its CPUs.  [ms]: the masks of the threads of the pool. *)
Definition pinned (ms : list (option Z)) (ths : state) (own : list nat) : Prop :=
  forall j t p, nth_error ths j = Some t -> nth_error own j = Some p -> nth_error ms p = Some (Some (mask t)).

(** How many threads of a state have this mask. *)
Definition how_many (c : Z) (s : state) : nat := count_occ Z.eq_dec (map mask s) c.
(** The states but the last need more and more threads of each mask. *)
Definition growing (app : list state) : Prop :=
  forall i j s u c, i <= j -> S j < length app -> nth_error app i = Some s -> nth_error app j = Some u -> how_many c s <= how_many c u.
(** No thread is configured for all the 64 CPUs. *)
Definition no_all (app : list state) : Prop := forall s t, In s app -> In t s -> mask t <> all_cpus.
(** A pool of threads with these masks has one thread for each configured thread of each state. *)
Definition enough (ms : list Z) (app : list state) : Prop := forall s c, In s app -> how_many c s <= count_occ Z.eq_dec ms c.
