(** The state changes of the fast scheduler: Source/Core/Scheduler/L5GAMs/FastScheduler.cpp with CountingSem.cpp
    (Source/Core/Scheduler/L1Portability), the state changes of RealTimeApplication.cpp and the inner loop of EmbeddedThread.cpp.
    One client calls PrepareNextState, StopCurrentStateExecution and StartNextStateExecution one after the other; the threads of the pool run
    concurrently.  One action is one access to what is shared.
    Simplified: an event semaphore is its flag and the set of its sleepers (the full code is EventSem_Model; its mutex makes the test of the
    flag and the falling asleep one action; pthread_cond_wait does not return unless woken); the state to prepare exists and the objects of
    the application accept the change (C43 models the search of the state); the pool is the one of the last PrepareNextState before the first
    start; the threads are not stopped (destructor and Purge); the times of the cycles and the error message are not modelled; the number of
    executables of a record is read once by Execute. *)
From Verif Require Import Base Conc.
Open Scope nat_scope.

Definition exec := nat.
(** GAMSchedulerI.cpp 406-438: executed (or not enabled), or failed *)
Inductive outcome := Ran | Failed.

(** A thread of the pool in FastScheduler::Execute. *)
Inductive tpc :=
| TOff                           (* not yet started *)
| TEv | TEvS                     (* 395: eventSem.Wait; asleep in it *)
| TCnt                           (* 397, CountingSem.cpp 56-63: counts itself *)
| TPost | TBc                    (* CountingSem.cpp 65: EventSem::Post: the flag, the broadcast *)
| TCw | TCwS                     (* CountingSem.cpp 68: EventSem::Wait; asleep in it *)
| TIdx                           (* 400: GetIndex *)
| TNum (b : bool)                (* 403: reads numberOfExecutables of record b *)
| TPtr (b : bool) (k : nat)      (* 404: reads executables of record b *)
| TCycle (st i k : nat)          (* GAMSchedulerI.cpp 406-413: executable i of k of the array of state st *)
| TFin                           (* ExecuteSingleCycle returns; EmbeddedThread.cpp 85-88 *)
| TUn | TUnS                     (* 428: unusedThreadsSem.Wait; asleep in it *)
| TBad.

(** RTThreadParam: the array of executables (None: not initialised; Some None: NULL) and its number (None: not initialised). *)
Record rec := Rec { r_ptr : option (option nat); r_num : option nat }.

Inductive op := OPrepare (st : nat) | OStart | OStop.
Inductive ev :=
| ECall (o : op) | ERet (o : op)
| ESwitch                                     (* the index changes *)
| EBegin (p st : nat)                         (* pool thread p calls ExecuteSingleCycle with the array of state st *)
| ERun (p : nat) (e : exec) (o : outcome)
| EEnd (p : nat)                              (* it returns *)
| EBad (p : nat).                             (* p uses a record that is not initialised, a NULL array or a cell outside of an array *)

Inductive cpc :=
| CIdle
| CRp (st j : nat) | CRn (st j : nat)                        (* 362-364: reset of record j *)
| CSp (st : nat) (l : list (nat * list exec)) | CSn (st : nat) (l : list (nat * list exec))   (* 372-374 *)
| CStop                          (* 207: eventSem.Reset *)
| CIndex                         (* RealTimeApplication.cpp 509 *)
| CBoot (i : nat)                (* 174-181: multiThreadService->Start, thread i *)
| CCount                         (* 183-187: countingSem.Reset *)
| CUnP | CUnB | CUnR             (* 189-192: unusedThreadsSem.Post, Reset *)
| CEvP | CEvB                    (* 193: eventSem.Post *)
| CRet (o : op).

Record sys := Sys {
  index : bool;                  (* RealTimeApplication: index; false is 0 *)
  booted : bool;                 (* initialised *)
  tab : bool -> nat -> rec;      (* rtThreadInfo *)
  evf : bool;                    (* eventSem is posted *)
  cnt : nat;                     (* countingSem: counter *)
  cntf : bool;                   (* countingSem is posted *)
  unf : bool;                    (* unusedThreadsSem is posted *)
  thr : nat -> tpc;
  ctl : cpc;
  log : list ev }.               (* latest first *)

Definition updb {A} (f : bool -> A) (b : bool) (x : A) : bool -> A := fun c => if Bool.eqb c b then x else f c.

Section Fast.
(** The size of the pool; NoWait; for each state the pool threads in use with their executables (C52). *)
Variable n : nat.
Variable superfast : bool.
Variable plan : nat -> list (nat * list exec).
Fixpoint lookup (p : nat) (l : list (nat * list exec)) : list exec :=
  match l with [] => [] | (q, w) :: l => if q =? p then w else lookup p l end.
(** The array of the pool thread in that state. *)
Definition work (st p : nat) : list exec := lookup p (plan st).

(** RealTimeApplication.cpp 78: the index is 1 *)
Definition init : sys := Sys true false (fun _ _ => Rec None None) false 0 false false (fun _ => TOff) CIdle [].

Definition set_thr (s : sys) (p : nat) (x : tpc) : sys :=
  Sys (index s) (booted s) (tab s) (evf s) (cnt s) (cntf s) (unf s) (upd (thr s) p x) (ctl s) (log s).
Definition set_ctl (s : sys) (c : cpc) : sys :=
  Sys (index s) (booted s) (tab s) (evf s) (cnt s) (cntf s) (unf s) (thr s) c (log s).
Definition add (s : sys) (e : ev) : sys :=
  Sys (index s) (booted s) (tab s) (evf s) (cnt s) (cntf s) (unf s) (thr s) (ctl s) (e :: log s).
Definition set_rec (s : sys) (b : bool) (p : nat) (r : rec) : sys :=
  Sys (index s) (booted s) (updb (tab s) b (upd (tab s b) p r)) (evf s) (cnt s) (cntf s) (unf s) (thr s) (ctl s) (log s).
Definition set_ev (s : sys) (f : bool) : sys :=
  Sys (index s) (booted s) (tab s) f (cnt s) (cntf s) (unf s) (thr s) (ctl s) (log s).
Definition set_un (s : sys) (f : bool) : sys :=
  Sys (index s) (booted s) (tab s) (evf s) (cnt s) (cntf s) f (thr s) (ctl s) (log s).
Definition set_cnt (s : sys) (c : nat) (f : bool) : sys :=
  Sys (index s) (booted s) (tab s) (evf s) c f (unf s) (thr s) (ctl s) (log s).
Definition set_thrs (s : sys) (f : nat -> tpc) : sys :=
  Sys (index s) (booted s) (tab s) (evf s) (cnt s) (cntf s) (unf s) f (ctl s) (log s).
Definition wake_ev (t : tpc) : tpc := match t with TEvS => if superfast then TIdx else TCnt | _ => t end.
Definition wake_cnt (t : tpc) : tpc := match t with TCwS => TIdx | _ => t end.
Definition wake_un (t : tpc) : tpc := match t with TUnS => TEv | _ => t end.

(** One action of pool thread p. *)
Definition tstep (s : sys) (p : nat) (o : outcome) : option sys :=
  let go x := Some (set_thr s p x) in
  let bad := Some (add (set_thr s p TBad) (EBad p)) in
  match thr s p with
  | TOff | TEvS | TCwS | TUnS | TBad => None
  | TEv => go (if evf s then (if superfast then TIdx else TCnt) else TEvS)
  | TCnt => (* CountingSem.cpp 57-61 *)
    let c := S (cnt s) in
    Some (set_cnt (set_thr s p (if c =? n then TPost else TCw)) (if n <? c then n else c) (cntf s))
  | TPost => Some (set_cnt (set_thr s p TBc) (cnt s) true)
  | TBc => Some (set_thr (set_thrs s (fun q => wake_cnt (thr s q))) p TIdx)
  | TCw => go (if cntf s then TIdx else TCwS)
  | TIdx => go (TNum (index s))
  | TNum b => match r_num (tab s b p) with
              | None => bad
              | Some 0 => go TUn
              | Some k => go (TPtr b k)
              end
  | TPtr b k => match r_ptr (tab s b p) with
                | Some (Some st) => Some (add (set_thr s p (TCycle st 0 k)) (EBegin p st))
                | _ => bad
                end
  | TCycle st i k =>
    if i <? k then
      match nth_error (work st p) i with
      | None => bad
      | Some e => Some (add (set_thr s p (match o with Ran => TCycle st (S i) k | Failed => TFin end)) (ERun p e o))
      end
    else go TFin
  | TFin => Some (add (set_thr s p TEv) (EEnd p))
  | TUn => go (if unf s then TEv else TUnS)
  end.

(** One action of the client. *)
Definition cstep (s : sys) : option sys :=
  let go c := Some (set_ctl s c) in
  let nb := negb (index s) in
  match ctl s with
  | CIdle => None
  | CRp st j => if j <? n then Some (set_ctl (set_rec s nb j (Rec (Some None) (r_num (tab s nb j)))) (CRn st j)) else go (CSp st (plan st))
  | CRn st j => Some (set_ctl (set_rec s nb j (Rec (r_ptr (tab s nb j)) (Some 0))) (CRp st (S j)))
  | CSp st [] => go (CRet (OPrepare st))
  | CSp st ((p, w) :: l) => Some (set_ctl (set_rec s nb p (Rec (Some (Some st)) (r_num (tab s nb p)))) (CSn st ((p, w) :: l)))
  | CSn st [] => None
  | CSn st ((p, w) :: l) => Some (set_ctl (set_rec s nb p (Rec (r_ptr (tab s nb p)) (Some (length w)))) (CSp st l))
  | CStop => Some (set_ctl (set_ev s false) (CRet OStop))
  | CIndex => Some (add (Sys nb (booted s) (tab s) (evf s) (cnt s) (cntf s) (unf s) (thr s) (if booted s then CCount else CBoot 0) (log s)) ESwitch)
  | CBoot i => if i <? n then Some (set_ctl (set_thr s i TEv) (CBoot (S i)))
               else Some (Sys (index s) true (tab s) (evf s) (cnt s) (cntf s) (unf s) (thr s) CCount (log s))
  | CCount => (* CountingSem.cpp 77-87 *)
    Some (set_ctl (if superfast then s else if n <=? cnt s then set_cnt s 0 false else s) CUnP)
  | CUnP => Some (set_ctl (set_un s true) CUnB)
  | CUnB => Some (set_ctl (set_thrs s (fun q => wake_un (thr s q))) CUnR)
  | CUnR => Some (set_ctl (set_un s false) CEvP)
  | CEvP => Some (set_ctl (set_ev s true) CEvB)
  | CEvB => Some (set_ctl (set_thrs s (fun q => wake_ev (thr s q))) (CRet OStart))
  | CRet o => Some (set_ctl (add s (ERet o)) CIdle)
  end.
Definition entry (o : op) : cpc := match o with OPrepare st => CRp st 0 | OStart => CIndex | OStop => CStop end.

Inductive action := ACall (o : op) | AClient | AThread (p : nat) (o : outcome).
Definition step (s : sys) (a : action) : option sys :=
  match a with
  | ACall o => match ctl s with CIdle => Some (set_ctl (add s (ECall o)) (entry o)) | _ => None end
  | AClient => cstep s
  | AThread p o => if p <? n then tstep s p o else None
  end.
End Fast.
