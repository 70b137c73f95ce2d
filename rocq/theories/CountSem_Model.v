(** Source/Core/Scheduler/L1Portability/CountingSem.cpp used by any number of threads.  The event semaphore is EventSem_Model
    (EventSem::Post, Wait, Reset), the mutex is FastPollingMutexSem (a thread that finds it taken tries again: no action).
    One action is one access to the mutex or the semaphore; the accesses to the counter between lock and unlock are one action.
    Not modelled: failures of Post and Reset, timeouts of the semaphore's internal mutex (see C37). *)
From Verif Require Import Base Conc EventSem_Model.

Inductive op := OAll (timed : bool) | OReset | OForceReset | OForcePass.
(** EArrive, EForce, EClear: the counter is incremented, set to the number of actors, set to zero. *)
Inductive ev := ECall (o : op) | EArrive | EForce | EClear | ERet (o : op) (ok : bool).
Inductive pc :=
| Idle
| WLock (timed : bool) | WBody (timed : bool) | WUnlock (timed cond : bool) | WPost (timed : bool) (e : espc) | WWait (timed : bool) (e : espc) | WRet (timed ok : bool)  (* 63, 64-68, 69, 72, 75, 78 *)
| RLock | RBody | RReset (e : espc) | RUnlock (ok : bool) | RRet (ok : bool)                   (* 83, 84-85, 86, 88, 90 *)
| FLock | FBody | FUnlock | FReset (e : espc) | FRet                                           (* 95, 96, 97, 99 *)
| PLock | PBody | PUnlock | PPost (e : espc) | PRet.                                           (* 103, 104, 105, 107 *)

(** qowner: who has taken sem; owner, stop: the event semaphore. *)
Record shared := Sh { qowner : option nat; counter : Z; owner : option nat; stop : bool }.
Definition setc (h : shared) (c : Z) : shared := Sh (qowner h) c (owner h) (stop h).

Definition lstep (N : Z) (t : nat) (h : shared) (p : pc) : option (shared * pc * bool * list ev) :=
  let lock q := match qowner h with None => Some (Sh (Some t) (counter h) (owner h) (stop h), q, false, []) | Some _ => None end in
  let unlock q := Some (Sh None (counter h) (owner h) (stop h), q, false, []) in
  let sem e (wrap : espc -> pc) :=
    match es_step t (owner h) (stop h) e with
    | None => None
    | Some (ow, st, e, bc) => Some (Sh (qowner h) (counter h) ow st, wrap e, bc, [])
    end in
  let go q := Some (h, q, false, []) in
  match p with
  | Idle => None
  | WLock b => lock (WBody b)
  | WBody b =>
    let c := uwrap 32 (counter h + 1) in
    Some (setc h (if c >? N then N else c), WUnlock b (c =? N), false, [EArrive])
  | WUnlock b cond => unlock (if cond then WPost b PostLock else WWait b (WaitLock b))
  | WPost b (EsDone _) => go (WRet b true)
  | WPost b e => sem e (WPost b)
  | WWait b (EsDone r) => go (WRet b (match r with ROk => true | RTimeout => false end))
  | WWait b e => sem e (WWait b)
  | WRet b ok => Some (h, Idle, false, [ERet (OAll b) ok])
  | RLock => lock RBody
  | RBody => if counter h >=? N then Some (setc h 0, RReset ResetLock, false, [EClear]) else go (RUnlock false)
  | RReset (EsDone _) => go (RUnlock true)
  | RReset e => sem e RReset
  | RUnlock ok => unlock (RRet ok)
  | RRet ok => Some (h, Idle, false, [ERet OReset ok])
  | FLock => lock FBody
  | FBody => Some (setc h 0, FUnlock, false, [EClear])
  | FUnlock => unlock (FReset ResetLock)
  | FReset (EsDone _) => go FRet
  | FReset e => sem e FReset
  | FRet => Some (h, Idle, false, [ERet OForceReset true])
  | PLock => lock PBody
  | PBody => Some (setc h N, PUnlock, false, [EForce])
  | PUnlock => unlock (PPost PostLock)
  | PPost (EsDone _) => go PRet
  | PPost e => sem e PPost
  | PRet => Some (h, Idle, false, [ERet OForcePass true])
  end.

Record sys := Sys { sh : shared; pcs : nat -> pc; log : list (nat * ev) (* latest first *) }.
(** 43-46, 51-57 *)
Definition init : sys := Sys (Sh None 0 None true) (fun _ => Idle) [].
Definition entry (o : op) : pc := match o with OAll b => WLock b | OReset => RLock | OForceReset => FLock | OForcePass => PLock end.
Inductive action := ACall (t : nat) (o : op) | AStep (t : nat) | ATimeout (t : nat) | ASpurious (t : nat).
Definition wakeq (p : pc) : pc := match p with WWait b e => WWait b (wake e) | p => p end.
(** [spurious]: whether the condition variable may wake sleepers spuriously. *)
Definition step (N : Z) (spurious : bool) (s : sys) (a : action) : option sys :=
  match a with
  | ACall t o => match pcs s t with Idle => Some (Sys (sh s) (upd (pcs s) t (entry o)) ((t, ECall o) :: log s)) | _ => None end
  | AStep t =>
    match lstep N t (sh s) (pcs s t) with
    | None => None
    | Some (h, p, bc, es) => Some (Sys h (upd (if bc then fun u => wakeq (pcs s u) else pcs s) t p) (map (pair t) es ++ log s))
    end
  | ATimeout t =>
    match pcs s t with
    | WWait b (WaitSleep true) => Some (Sys (sh s) (upd (pcs s) t (WWait b (WaitWoken RTimeout))) (log s))
    | _ => None
    end
  | ASpurious t =>
    if spurious then
      match pcs s t with
      | WWait b (WaitSleep _) => Some (Sys (sh s) (upd (pcs s) t (WWait b (WaitWoken ROk))) (log s))
      | _ => None
      end
    else None
  end.
