(** Source/Core/Scheduler/L1Portability/Environment/Linux/EventSem.cpp, a created and not closed semaphore used by any number of
    threads.  pthread_mutex_* and pthread_cond_* do what POSIX says: a mutex has at most one owner, pthread_cond_wait releases the
    mutex and sleeps atomically and takes the mutex again when woken, pthread_cond_broadcast wakes all sleepers.  Every pthread call
    and every access to the stop flag is one action.  The pthread calls do not fail, apart from the timeouts. *)
From Verif Require Import Base Conc.

Inductive result := ROk | RTimeout.
(** Where a thread is inside an operation of the semaphore. *)
Inductive espc :=
| PostLock | PostStore | PostUnlock | PostBroadcast          (* 287-290 *)
| ResetLock | ResetUnlock | ResetStore                       (* 302-305 *)
| WaitLock (timed : bool)                                    (* 195, 251 *)
| WaitCheck (timed : bool)                                   (* 201, 253 *)
| WaitSleep (timed : bool)                                   (* 202, 254: asleep on the condition variable *)
| WaitWoken (r : result)                                     (* woken, has to take the mutex again *)
| WaitUnlock (r : result)                                    (* 208, 263 *)
| EsDone (r : result).

(** The next action of thread t: the owner of the mutex, the stop flag, the next point, and whether all sleepers are woken.
    None: the thread is blocked. *)
Definition es_step (t : nat) (owner : option nat) (stop : bool) (p : espc) : option (option nat * bool * espc * bool) :=
  let lock q := match owner with None => Some (Some t, stop, q, false) | Some _ => None end in
  match p with
  | PostLock => lock PostStore
  | PostStore => Some (owner, false, PostUnlock, false)
  | PostUnlock => Some (None, stop, PostBroadcast, false)
  | PostBroadcast => Some (owner, stop, EsDone ROk, true)
  | ResetLock => lock ResetUnlock
  | ResetUnlock => Some (None, stop, ResetStore, false)
  | ResetStore => Some (owner, true, EsDone ROk, false)
  | WaitLock timed => lock (WaitCheck timed)
  | WaitCheck timed => if stop then Some (None, stop, WaitSleep timed, false) else Some (owner, stop, WaitUnlock ROk, false)
  | WaitSleep _ => None
  | WaitWoken r => lock (WaitUnlock r)
  | WaitUnlock r => Some (None, stop, EsDone r, false)
  | EsDone _ => None
  end.
(** pthread_cond_broadcast, for one thread. *)
Definition wake (p : espc) : espc := match p with WaitSleep _ => WaitWoken ROk | p => p end.

(** * The semaphore alone *)
Inductive op := OPost | OReset | OWait (timed : bool).
Inductive ev := ECall (o : op) | ERet (o : op) (r : result).
Definition entry (o : op) : espc := match o with OPost => PostLock | OReset => ResetLock | OWait timed => WaitLock timed end.
Record sys := Sys { owner : option nat; stop : bool; pcs : nat -> option (op * espc); log : list (nat * ev) (* latest first *) }.
(** 84-93, 134-158: after Create. *)
Definition init : sys := Sys None true (fun _ => None) [].
Inductive action :=
| ACall (t : nat) (o : op)
| AStep (t : nat)
| ATimeout (t : nat)      (* pthread_cond_timedwait of thread t times out *)
| ASpurious (t : nat)     (* the condition variable wakes thread t spuriously, which POSIX allows *)
| ALockTimeout (t : nat). (* 251: pthread_mutex_timedlock of thread t times out because another thread owns the mutex *)

Definition wake_all (f : nat -> option (op * espc)) : nat -> option (op * espc) :=
  fun u => match f u with Some (o, p) => Some (o, wake p) | None => None end.
(** [spurious], [locktimeout]: whether the last two kinds of actions occur. *)
Definition step (spurious locktimeout : bool) (s : sys) (a : action) : option sys :=
  match a with
  | ACall t o => match pcs s t with None => Some (Sys (owner s) (stop s) (upd (pcs s) t (Some (o, entry o))) ((t, ECall o) :: log s)) | Some _ => None end
  | AStep t =>
    match pcs s t with
    | None => None
    | Some (o, EsDone r) => Some (Sys (owner s) (stop s) (upd (pcs s) t None) ((t, ERet o r) :: log s))
    | Some (o, p) =>
      match es_step t (owner s) (stop s) p with
      | None => None
      | Some (ow, st, q, bc) => Some (Sys ow st (upd (if bc then wake_all (pcs s) else pcs s) t (Some (o, q))) (log s))
      end
    end
  | ATimeout t =>         (* 254-257 *)
    match pcs s t with
    | Some (o, WaitSleep true) => Some (Sys (owner s) (stop s) (upd (pcs s) t (Some (o, WaitWoken RTimeout))) (log s))
    | _ => None
    end
  | ASpurious t =>
    if spurious then
      match pcs s t with
      | Some (o, WaitSleep timed) => Some (Sys (owner s) (stop s) (upd (pcs s) t (Some (o, WaitWoken ROk))) (log s))
      | _ => None
      end
    else None
  | ALockTimeout t =>     (* 251-263: err is still NoError, and the mutex is unlocked by a thread that does not own it *)
    if locktimeout then
      match pcs s t, owner s with
      | Some (o, WaitLock true), Some _ => Some (Sys (owner s) (stop s) (upd (pcs s) t (Some (o, WaitUnlock ROk))) (log s))
      | _, _ => None
      end
    else None
  end.
