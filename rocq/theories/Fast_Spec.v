(** What the user of the fast scheduler expects of a change of state, in terms of the log of what the client and the threads do. *)
From Verif Require Import Base Fast_Model.
Open Scope nat_scope.

(** The state prepared last; the state that was started last. *)
Fixpoint prepared (l : list ev) : option nat :=
  match l with [] => None | ERet (OPrepare st) :: _ => Some st | _ :: l => prepared l end.
Fixpoint in_force (l : list ev) : option nat :=
  match l with [] => None | ESwitch :: l => prepared l | _ :: l => in_force l end.
(** A PrepareNextState has returned since the last start. *)
Fixpoint prepared_since (l : list ev) : bool :=
  match l with [] => false | ERet (OPrepare _) :: _ => true | ECall OStart :: _ => false | _ :: l => prepared_since l end.
(** There was no start yet, or a stop has returned since. *)
Fixpoint stopped (l : list ev) : bool :=
  match l with [] => true | ERet OStop :: _ => true | ECall OStart :: _ => false | _ :: l => stopped l end.
(** The last start has returned and no stop has been called since. *)
Fixpoint running (l : list ev) : bool :=
  match l with [] => false | ECall OStop :: _ => false | ECall OStart :: _ => false | ERet OStart :: _ => true | _ :: l => running l end.

(** The cycle in which a thread is: its state and what it has executed of it, first executable first. *)
Fixpoint current (p : nat) (l : list ev) : option (nat * list (exec * outcome)) :=
  match l with
  | [] => None
  | EBegin q st :: l => if q =? p then Some (st, []) else current p l
  | ERun q e o :: l => if q =? p then match current p l with Some (st, r) => Some (st, r ++ [(e, o)]) | None => None end else current p l
  | EEnd q :: l => if q =? p then None else current p l
  | _ :: l => current p l
  end.
(** These executables were executed in order from the first on, and none failed. *)
Definition in_order (w : list exec) (r : list (exec * outcome)) : Prop :=
  (exists rest, w = map fst r ++ rest) /\ Forall (fun x => snd x = Ran) r.
(** The whole list was executed in order, or up to the first that failed. *)
Definition complete (w : list exec) (r : list (exec * outcome)) : Prop :=
  (map fst r = w /\ Forall (fun x => snd x = Ran) r) \/
  (exists r' e rest, r = r' ++ [(e, Failed)] /\ w = map fst r ++ rest /\ Forall (fun x => snd x = Ran) r').

(** The thread is in a cycle; in one that began before the last change of the index. *)
Definition busy (p : nat) (l : list ev) : bool := match current p l with Some _ => true | None => false end.
Fixpoint overdue (p : nat) (l : list ev) : bool :=
  match l with [] => false | ESwitch :: l => busy p l | EEnd q :: l => if q =? p then false else overdue p l | _ :: l => overdue p l end.

(** Each state uses different threads of the pool (C52 proves it of the thread map). *)
Definition planned (n : nat) (plan : nat -> list (nat * list exec)) : Prop :=
  forall st, NoDup (map fst (plan st)) /\ forall p, In p (map fst (plan st)) -> p < n.

(** The client is patient: it starts a state only after it has prepared it and stopped the current one, when each thread has come to rest
    (before its first start, in eventSem.Wait, asleep in unusedThreadsSem.Wait or in WaitForAll) or is executing a cycle. *)
Definition settled_pc (t : tpc) : bool :=
  match t with TOff | TEv | TEvS | TUnS | TCwS | TCycle _ _ _ | TFin => true | _ => false end.
Definition settled (n : nat) (s : sys) : bool := forallb (fun p => settled_pc (thr s p)) (seq 0 n).
Definition patient (n : nat) (s : sys) (a : action) : bool :=
  match a with ACall OStart => prepared_since (log s) && stopped (log s) && settled n s | _ => true end.
Definition pstep (n : nat) (superfast : bool) (plan : nat -> list (nat * list exec)) (s : sys) (a : action) : option sys :=
  if patient n s a then step n superfast plan s a else None.
(** The client makes the calls in the documented order but does not look at the threads. *)
Definition ordered (s : sys) (a : action) : bool := match a with ACall OStart => prepared_since (log s) && stopped (log s) | _ => true end.
Definition ostep (n : nat) (superfast : bool) (plan : nat -> list (nat * list exec)) (s : sys) (a : action) : option sys :=
  if ordered s a then step n superfast plan s a else None.
