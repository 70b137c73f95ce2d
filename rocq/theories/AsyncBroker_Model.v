(** Source/Core/Scheduler/L5GAMs/MemoryMapAsyncOutputBroker.cpp: one real-time thread calls Execute (208-243) and Flush
    (245-260), one service thread calls BufferLoop (263-332) again and again.  One action is one access to shared memory; a
    sample has K memory cells (the bytes of all signals), copied one by one, so that a torn sample is possible in the model.
    fastSem is a FastPollingMutexSem: FastLock is possible when it is free (a thread that finds it taken tries again), and
    FastUnLock frees it whoever calls it.  The event semaphore is a flag: Post sets it, Reset clears it, Wait passes when it is
    set (the properties C37 proves of EventSem) or spuriously (which EventSem allows, see C37).
    ignoreBufferOverrun is false (its initial value, 61).
    Not modelled: UnlinkDataSource and the destructor; failures of the semaphores and of Copy. *)
From Verif Require Import Base Conc.
Open Scope nat_scope.

(** EPut: Execute has stored a sample and marked it (227); ERet: Execute returns; ELoop: BufferLoop reads the write index (269);
    ESync: Synchronise is called, with this content of the memory of the data source (293); EDone: the buffer is freed (296);
    EFlush, EFlushed: Flush is called, returns. *)
Inductive event := EPut (x : list Z) | ERet (ok : bool) | ELoop | ESync (x : list Z) | EDone | EFlush | EFlushed.

Inductive ppc :=
| PIdle
| PCheck | PCopy (n : nat) | PSet (ret : bool) | PLock | PInc (ret : bool) | PWrap (ret : bool) | PPost | PPosted | PUnlock (ret : bool)  (* 213, 224, 227, 230, 232, 233, 237, 238, 240 *)
| FLock | FClr | FPost | FPosted | FUnlock | FSpin.                                                                                  (* 248, 250, 251, 252, 254, 255 *)
Inductive cpc :=
| CLock1 | CRead | CUnl1 (stop : nat) | CLoop (stop : nat)                                             (* 267, 269, 271, 280 *)
| CCopy (stop c : nat) | CSync (stop : nat) | CClear (stop : nat) (ret : bool) | CNext (stop : nat) (ret : bool)  (* 287, 293, 296, 298 *)
| CFlush | CWait | CLock2 | CTest | CClrP | CUnl2.                                                     (* 308, 311, 318, 319, 325, 327 *)

(** mem, tc: the buffers and their toConsume; w, r: writeIdx, readSynchIdx; lk: fastSem is taken; ev: the event is posted;
    dsm: the memory of the data source; cur: the memory of the GAM while Execute runs. *)
Record st := St { mem : nat -> nat -> Z; tc : nat -> bool; w : nat; r : nat; lk : bool; ev : bool; posted : bool; flushed : bool;
                  dsm : nat -> Z; cur : nat -> Z; pp : ppc; cp : cpc; log : list event (* latest first *) }.

Definition set_pp (s : st) (p : ppc) := St (mem s) (tc s) (w s) (r s) (lk s) (ev s) (posted s) (flushed s) (dsm s) (cur s) p (cp s) (log s).
Definition set_cp (s : st) (c : cpc) := St (mem s) (tc s) (w s) (r s) (lk s) (ev s) (posted s) (flushed s) (dsm s) (cur s) (pp s) c (log s).
Definition set_lk (s : st) (b : bool) := St (mem s) (tc s) (w s) (r s) b (ev s) (posted s) (flushed s) (dsm s) (cur s) (pp s) (cp s) (log s).
Definition set_ev (s : st) (b : bool) := St (mem s) (tc s) (w s) (r s) (lk s) b (posted s) (flushed s) (dsm s) (cur s) (pp s) (cp s) (log s).
Definition set_posted (s : st) (b : bool) := St (mem s) (tc s) (w s) (r s) (lk s) (ev s) b (flushed s) (dsm s) (cur s) (pp s) (cp s) (log s).
Definition set_flushed (s : st) (b : bool) := St (mem s) (tc s) (w s) (r s) (lk s) (ev s) (posted s) b (dsm s) (cur s) (pp s) (cp s) (log s).
Definition set_w (s : st) (n : nat) := St (mem s) (tc s) n (r s) (lk s) (ev s) (posted s) (flushed s) (dsm s) (cur s) (pp s) (cp s) (log s).
Definition set_r (s : st) (n : nat) := St (mem s) (tc s) (w s) n (lk s) (ev s) (posted s) (flushed s) (dsm s) (cur s) (pp s) (cp s) (log s).
Definition set_tc (s : st) (i : nat) (b : bool) := St (mem s) (upd (tc s) i b) (w s) (r s) (lk s) (ev s) (posted s) (flushed s) (dsm s) (cur s) (pp s) (cp s) (log s).
Definition set_mem (s : st) (i c : nat) (v : Z) := St (upd (mem s) i (upd (mem s i) c v)) (tc s) (w s) (r s) (lk s) (ev s) (posted s) (flushed s) (dsm s) (cur s) (pp s) (cp s) (log s).
Definition set_dsm (s : st) (c : nat) (v : Z) := St (mem s) (tc s) (w s) (r s) (lk s) (ev s) (posted s) (flushed s) (upd (dsm s) c v) (cur s) (pp s) (cp s) (log s).
Definition set_cur (s : st) (d : nat -> Z) := St (mem s) (tc s) (w s) (r s) (lk s) (ev s) (posted s) (flushed s) (dsm s) d (pp s) (cp s) (log s).
Definition say (s : st) (e : event) := St (mem s) (tc s) (w s) (r s) (lk s) (ev s) (posted s) (flushed s) (dsm s) (cur s) (pp s) (cp s) (e :: log s).

Section Model.
Variables (N K : nat).

Definition cells (f : nat -> Z) : list Z := map f (seq 0 K).

(** 45-62, 168-192: all buffers empty, writeIdx = 0, readSynchIdx = numberOfBuffers - 1. *)
Definition init : st := St (fun _ _ => 0%Z) (fun _ => false) 0 (N - 1) false false false false (fun _ => 0%Z) (fun _ => 0%Z) PIdle CLock1 [].

Definition take (s : st) : option st := if lk s then None else Some (set_lk s true).

(** Execute and Flush. *)
Definition pstep (s : st) : option st :=
  match pp s with
  | PIdle => None
  | PCheck => Some (set_pp s (if tc s (w s) then PSet false else PCopy 0))
  | PCopy n => if n <? K then Some (set_pp (set_mem s (w s) n (cur s n)) (PCopy (n + 1))) else Some (set_pp s (PSet true))
  | PSet ret =>
    let s1 := set_tc s (w s) true in
    Some (if ret then set_pp (say s1 (EPut (cells (cur s)))) PLock else set_pp s1 (PInc false))
  | PLock => match take s with Some s => Some (set_pp s (PInc true)) | None => None end
  | PInc ret => Some (set_pp (set_w s (w s + 1)) (PWrap ret))
  | PWrap ret => Some (set_pp (if w s =? N then set_w s 0 else s) (if ret then PPost else PUnlock false))
  | PPost => Some (set_pp (set_ev s true) PPosted)
  | PPosted => Some (set_pp (set_posted s true) (PUnlock true))
  | PUnlock ret => Some (set_pp (say (set_lk s false) (ERet ret)) PIdle)
  | FLock => match take s with Some s => Some (set_pp s FClr) | None => None end
  | FClr => Some (set_pp (set_flushed s false) FPost)
  | FPost => Some (set_pp (set_ev s true) FPosted)
  | FPosted => Some (set_pp (set_posted s true) FUnlock)
  | FUnlock => Some (set_pp (set_lk s false) FSpin)
  | FSpin => if flushed s then Some (set_pp (say s EFlushed) PIdle) else None
  end.

(** BufferLoop; [b] is what Synchronise returns.  When it fails BufferLoop returns (307) and is called again. *)
Definition cstep (b : bool) (s : st) : option st :=
  match cp s with
  | CLock1 => match take s with Some s => Some (set_cp s CRead) | None => None end
  | CRead => Some (set_cp (say s ELoop) (CUnl1 (w s)))
  | CUnl1 stop =>
    let s1 := set_lk s false in
    Some (if N =? 1 then set_cp (set_r s1 0) (CLoop 1) else set_cp s1 (CLoop stop))  (* 274-277 *)
  | CLoop stop =>
    Some (if r s =? stop then set_cp s CFlush else if tc s (r s) then set_cp s (CCopy stop 0) else set_cp s (CNext stop true))
  | CCopy stop c => if c <? K then Some (set_cp (set_dsm s c (mem s (r s) c)) (CCopy stop (c + 1))) else Some (set_cp s (CSync stop))
  | CSync stop => Some (set_cp (say s (ESync (cells (dsm s)))) (CClear stop b))
  | CClear stop ret => Some (set_cp (say (set_tc s (r s) false) EDone) (CNext stop ret))
  | CNext stop ret =>
    let r1 := r s + 1 in
    Some (set_cp (set_r s (if (1 <? N) && (r1 =? N) then 0 else r1)) (if ret then CLoop stop else CLock1))
  | CFlush => Some (set_cp (set_flushed s true) CWait)
  | CWait => if ev s then Some (set_cp s CLock2) else None
  | CLock2 => match take s with Some s => Some (set_cp s CTest) | None => None end
  | CTest => Some (set_cp (if posted s then s else set_ev s false) CClrP)
  | CClrP => Some (set_cp (set_posted s false) CUnl2)
  | CUnl2 => Some (set_cp (set_lk s false) CLock1)
  end.

(** AExec d: Execute is called, with the sample d in the memory of the GAM; AFlush: Flush is called; AP, AC: one action of the
    real-time thread, of the service thread (with the result of Synchronise); ASpur: Wait returns spuriously. *)
Inductive action := AExec (d : nat -> Z) | AFlush | AP | AC (b : bool) | ASpur.
Definition step (s : st) (a : action) : option st :=
  match a with
  | AExec d => match pp s with PIdle => Some (set_pp (set_cur s d) PCheck) | _ => None end
  | AFlush => match pp s with PIdle => Some (set_pp (say s EFlush) FLock) | _ => None end
  | AP => pstep s
  | AC b => cstep b s
  | ASpur => match cp s with CWait => Some (set_cp s CLock2) | _ => None end
  end.
End Model.
