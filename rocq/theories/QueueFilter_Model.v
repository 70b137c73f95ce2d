(** Source/Core/Scheduler/L4Messages/QueueingMessageFilter.cpp used by any number of threads: producers in ConsumeMessage and
    consumers in GetMessage.  The event semaphore is EventSem_Model, the mutex is FastPollingMutexSem (a thread that finds it taken
    tries again: no action).  Messages are identified by numbers.  One action is one access to the mutex, the queue or the semaphore.
    Not modelled: failures of Insert, Post and Reset, and timeouts of the semaphore's internal mutex (see C37). *)
From Verif Require Import Base Conc EventSem_Model.

(** How GetMessage ends: no error with the message, timeout, or fatalError. *)
Inductive gres := GOk (m : option nat) | GTimeout | GFatal.
Inductive ev :=
| ECallPut (m : nat) | EPut (m : nat) | ERetPut      (* call of ConsumeMessage, message in the queue, return *)
| ECallGet (timed : bool) | EGot (m : nat) | ERetGet (r : gres).  (* call of GetMessage, message out of the queue, return *)
Inductive pc :=
| Idle
| PLock (m : nat)        (* 58 *)
| PInsert (m : nat)      (* 60 *)
| PSize                  (* 63-64 *)
| PPost (e : espc)       (* 65 *)
| PUnlock                (* 68 *)
| PRet                   (* 70 *)
| GLock (timed : bool)   (* 75 *)
| GSize (timed : bool)   (* 79 *)
| GReset (timed : bool) (e : espc) (* 81 *)
| GUnlock1 (timed : bool) (* 84 *)
| GWait (e : espc)       (* 88 *)
| GLock2                 (* 91 *)
| GGet                   (* 97-99 *)
| GDelete (m : nat)      (* 102-104 *)
| GUnlock2 (r : gres)    (* 110 *)
| GRet (r : gres).       (* 112 *)

(** The shared state.  qowner: who has taken mutexSemQ (the code's flag is qowner <> None); owner, stop: the semaphore. *)
Record shared := Sh { qowner : option nat; queue : list nat; owner : option nat; stop : bool }.

(** ReferenceContainer::Delete: the first occurrence. *)
Fixpoint delete (m : nat) (q : list nat) : option (list nat) :=
  match q with
  | [] => None
  | x :: r => if Nat.eqb x m then Some r else match delete m r with None => None | Some r => Some (x :: r) end
  end.

(** The next action of thread t: shared state, next point, whether the semaphore wakes the sleepers, event. *)
Definition lstep (t : nat) (h : shared) (p : pc) : option (shared * pc * bool * list ev) :=
  let lock q := match qowner h with None => Some (Sh (Some t) (queue h) (owner h) (stop h), q, false, []) | Some _ => None end in
  let unlock q := Some (Sh None (queue h) (owner h) (stop h), q, false, []) in
  let sem e (wrap : espc -> pc) :=
    match es_step t (owner h) (stop h) e with
    | None => None
    | Some (ow, st, e, bc) => Some (Sh (qowner h) (queue h) ow st, wrap e, bc, [])
    end in
  let go q := Some (h, q, false, []) in
  match p with
  | Idle => None
  | PLock m => lock (PInsert m)
  | PInsert m => Some (Sh (qowner h) (queue h ++ [m]) (owner h) (stop h), PSize, false, [EPut m])
  | PSize => go (if Nat.eqb (length (queue h)) 1 then PPost PostLock else PUnlock)
  | PPost (EsDone _) => go PUnlock
  | PPost e => sem e PPost
  | PUnlock => unlock PRet
  | PRet => Some (h, Idle, false, [ERetPut])
  | GLock timed => lock (GSize timed)
  | GSize timed => go (if Nat.eqb (length (queue h)) 0 then GReset timed ResetLock else GGet)
  | GReset timed (EsDone _) => go (GUnlock1 timed)
  | GReset timed e => sem e (GReset timed)
  | GUnlock1 timed => unlock (GWait (WaitLock timed))
  | GWait (EsDone ROk) => go GLock2
  | GWait (EsDone RTimeout) => go (GRet GTimeout)
  | GWait e => sem e GWait
  | GLock2 => lock GGet
  | GGet => go (match queue h with [] => GUnlock2 GFatal | m :: _ => GDelete m end)
  | GDelete m =>
    match delete m (queue h) with
    | None => go (GUnlock2 (GOk None))
    | Some q => Some (Sh (qowner h) q (owner h) (stop h), GUnlock2 (GOk (Some m)), false, [EGot m])
    end
  | GUnlock2 r => unlock (GRet r)
  | GRet r => Some (h, Idle, false, [ERetGet r])
  end.

Record sys := Sys { sh : shared; pcs : nat -> pc; log : list (nat * ev) (* latest first *) }.
(** 43-50 *)
Definition init : sys := Sys (Sh None [] None true) (fun _ => Idle) [].
Inductive action := ACallPut (t m : nat) | ACallGet (t : nat) (timed : bool) | AStep (t : nat) | ATimeout (t : nat) | ASpurious (t : nat).
Definition wakeq (p : pc) : pc := match p with GWait e => GWait (wake e) | p => p end.
(** [spurious]: whether the condition variable may wake sleepers spuriously. *)
Definition step (spurious : bool) (s : sys) (a : action) : option sys :=
  match a with
  | ACallPut t m => match pcs s t with Idle => Some (Sys (sh s) (upd (pcs s) t (PLock m)) ((t, ECallPut m) :: log s)) | _ => None end
  | ACallGet t timed => match pcs s t with Idle => Some (Sys (sh s) (upd (pcs s) t (GLock timed)) ((t, ECallGet timed) :: log s)) | _ => None end
  | AStep t =>
    match lstep t (sh s) (pcs s t) with
    | None => None
    | Some (h, p, bc, es) => Some (Sys h (upd (if bc then fun u => wakeq (pcs s u) else pcs s) t p) (map (pair t) es ++ log s))
    end
  | ATimeout t =>
    match pcs s t with
    | GWait (WaitSleep true) => Some (Sys (sh s) (upd (pcs s) t (GWait (WaitWoken RTimeout))) (log s))
    | _ => None
    end
  | ASpurious t =>
    if spurious then
      match pcs s t with
      | GWait (WaitSleep _) => Some (Sys (sh s) (upd (pcs s) t (GWait (WaitWoken ROk))) (log s))
      | _ => None
      end
    else None
  end.
