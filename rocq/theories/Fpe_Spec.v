(** What a user of the polling event relies on, over the events of a history. *)
From Verif Require Import Fpe_Model.
From Coq Require Import List ZArith Bool Arith.
Import ListNotations.
Open Scope Z_scope.

(** The event is open after a history: it was opened, and not closed since *)
Definition opens (e : event) : bool := match e with Post | Create false => true | _ => false end.
Definition closes (e : event) : bool := match e with Reset | Create true => true | _ => false end.
Definition is_open (h : list event) : Prop := exists a e b, h = a ++ e :: b /\ opens e = true /\ forall x, In x b -> closes x = false.
(** The time that passes in a history *)
Definition elapsed (h : list event) : Z := fold_right (fun e n => match e with Elapse k => k + n | _ => n end) 0 h.
(** The thread enters no other wait *)
Definition no_begin (t : nat) (h : list event) : Prop := forall ticks inf, ~ In (Begin t ticks inf) h.
