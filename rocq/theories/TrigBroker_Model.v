(** Source/Core/Scheduler/L5GAMs/MemoryMapAsyncTriggerOutputBroker.cpp: one real-time thread calls Execute (289-354), one service
    thread calls BufferLoop (357-435) again and again.  One action is one access to shared memory; a sample has K memory cells (the
    bytes of all signals), copied one by one; cell T is the trigger signal.  fastSem, the event semaphore and spurious wake-ups are as
    in AsyncBroker_Model.
    Not modelled: FlushAllTriggers, UnlinkDataSource and the destructor; failures of the semaphores and of Copy; bufferLoopExecuting
    (only FlushAllTriggers reads it). *)
From Verif Require Import Base Conc.
Open Scope nat_scope.

(** EPut: Execute has stored a sample and set the trigger marks (before the lock, 338); ERet: Execute returns; ESync: Synchronise is
    called, with this content of the memory of the data source (396); EPass: BufferLoop goes to the next buffer (401-406). *)
Inductive event := EPut (x : list Z) | ERet (ok : bool) | ESync (x : list Z) | EPass.

Inductive ppc :=
| PIdle
| PCheck | PCopy (n : nat) | PTrig (ret : bool)                               (* 293, 303, 307 *)
| PPre (ret : bool) (j : nat) | PElse (ret : bool) | PCnt (ret : bool)        (* 312-323 and 326, 330-334, 336-338 *)
| PLock | PInc (ret : bool) | PWrap (ret : bool) | PPosted | PPost | PUnlock (ret : bool).  (* 341, 343, 344, 348, 349, 351 *)
Inductive cpc :=
| CLock1 | CRead | CUnl1 (stop : nat) | CLoop (stop : nat)                                             (* 362, 365, 367, 383 *)
| CCopy (stop c : nat) | CSync (stop : nat) | CClear (stop : nat) (ret : bool) | CNext (stop : nat) (ret : bool)  (* 390, 396, 399, 401 *)
| CWait | CLock2 | CTest | CClrP | CUnl2.                                                              (* 414, 421, 422, 428, 430 *)

(** mem, tg: the buffers and their triggered; w, r: writeIdx, readSynchIdx; lk: fastSem is taken; ev: the event is posted;
    dsm: the memory of the data source; cur: the memory of the GAM while Execute runs; was: wasTriggered;
    cnt: postTriggerBuffersCounter; npre: numberOfPreBuffersWritten. *)
Record st := St { mem : nat -> nat -> Z; tg : nat -> bool; w : nat; r : nat; lk : bool; ev : bool; posted : bool;
                  dsm : nat -> Z; cur : nat -> Z; was : bool; cnt : nat; npre : nat; pp : ppc; cp : cpc; log : list event (* latest first *) }.

Definition set_pp (s : st) (p : ppc) := St (mem s) (tg s) (w s) (r s) (lk s) (ev s) (posted s) (dsm s) (cur s) (was s) (cnt s) (npre s) p (cp s) (log s).
Definition set_cp (s : st) (c : cpc) := St (mem s) (tg s) (w s) (r s) (lk s) (ev s) (posted s) (dsm s) (cur s) (was s) (cnt s) (npre s) (pp s) c (log s).
Definition set_lk (s : st) (b : bool) := St (mem s) (tg s) (w s) (r s) b (ev s) (posted s) (dsm s) (cur s) (was s) (cnt s) (npre s) (pp s) (cp s) (log s).
Definition set_ev (s : st) (b : bool) := St (mem s) (tg s) (w s) (r s) (lk s) b (posted s) (dsm s) (cur s) (was s) (cnt s) (npre s) (pp s) (cp s) (log s).
Definition set_posted (s : st) (b : bool) := St (mem s) (tg s) (w s) (r s) (lk s) (ev s) b (dsm s) (cur s) (was s) (cnt s) (npre s) (pp s) (cp s) (log s).
Definition set_was (s : st) (b : bool) := St (mem s) (tg s) (w s) (r s) (lk s) (ev s) (posted s) (dsm s) (cur s) b (cnt s) (npre s) (pp s) (cp s) (log s).
Definition set_w (s : st) (n : nat) := St (mem s) (tg s) n (r s) (lk s) (ev s) (posted s) (dsm s) (cur s) (was s) (cnt s) (npre s) (pp s) (cp s) (log s).
Definition set_r (s : st) (n : nat) := St (mem s) (tg s) (w s) n (lk s) (ev s) (posted s) (dsm s) (cur s) (was s) (cnt s) (npre s) (pp s) (cp s) (log s).
Definition set_cnt (s : st) (n : nat) := St (mem s) (tg s) (w s) (r s) (lk s) (ev s) (posted s) (dsm s) (cur s) (was s) n (npre s) (pp s) (cp s) (log s).
Definition set_npre (s : st) (n : nat) := St (mem s) (tg s) (w s) (r s) (lk s) (ev s) (posted s) (dsm s) (cur s) (was s) (cnt s) n (pp s) (cp s) (log s).
Definition set_tg (s : st) (i : nat) (b : bool) := St (mem s) (upd (tg s) i b) (w s) (r s) (lk s) (ev s) (posted s) (dsm s) (cur s) (was s) (cnt s) (npre s) (pp s) (cp s) (log s).
Definition set_mem (s : st) (i c : nat) (v : Z) := St (upd (mem s) i (upd (mem s i) c v)) (tg s) (w s) (r s) (lk s) (ev s) (posted s) (dsm s) (cur s) (was s) (cnt s) (npre s) (pp s) (cp s) (log s).
Definition set_dsm (s : st) (c : nat) (v : Z) := St (mem s) (tg s) (w s) (r s) (lk s) (ev s) (posted s) (upd (dsm s) c v) (cur s) (was s) (cnt s) (npre s) (pp s) (cp s) (log s).
Definition set_cur (s : st) (d : nat -> Z) := St (mem s) (tg s) (w s) (r s) (lk s) (ev s) (posted s) (dsm s) d (was s) (cnt s) (npre s) (pp s) (cp s) (log s).
Definition say (s : st) (e : event) := St (mem s) (tg s) (w s) (r s) (lk s) (ev s) (posted s) (dsm s) (cur s) (was s) (cnt s) (npre s) (pp s) (cp s) (e :: log s).

Section Model.
(** Buffers, cells, the trigger cell, preTriggerBuffers, postTriggerBuffers. *)
Variables (N K T pre post : nat).

Definition cells (f : nat -> Z) : list Z := map f (seq 0 K).

(** 48-66, 204-218 and 253-258: all buffers empty and not triggered. *)
Definition init : st :=
  St (fun _ _ => 0%Z) (fun _ => false) 0 (if pre =? 0 then N - 1 else N - pre) false false false (fun _ => 0%Z) (fun _ => 0%Z) false 0 0 PIdle CLock1 [].

Definition take (s : st) : option st := if lk s then None else Some (set_lk s true).

(** Execute. *)
Definition pstep (s : st) : option st :=
  match pp s with
  | PIdle => None
  | PCheck => Some (set_pp s (if tg s (w s) then PTrig false else PCopy 0))
  | PCopy n => if n <? K then Some (set_pp (set_mem s (w s) n (cur s n)) (PCopy (n + 1))) else Some (set_pp s (PTrig true))
  | PTrig ret =>
    let b := (0 <? mem s (w s) T)%Z in
    let s1 := set_tg s (w s) b in
    Some (if b then if was s then set_pp (set_cnt s1 post) (PCnt ret) else set_pp (set_was s1 true) (PPre ret 0) else set_pp s1 (PElse ret))
  | PPre ret j =>
    if j <? pre
    then let i := if w s <? j + 1 then N + w s - (j + 1) else w s - (j + 1) in
         Some (set_pp (if j <? npre s then set_tg s i true else s) (PPre ret (j + 1)))
    else Some (set_pp (set_cnt s post) (PCnt ret))
  | PElse ret =>
    let s1 := if 0 <? cnt s then set_cnt (set_tg s (w s) true) (cnt s - 1) else s in
    Some (set_pp (set_was s1 false) (PCnt ret))
  | PCnt ret =>
    let s1 := if npre s <? pre then set_npre s (npre s + 1) else s in
    Some (if ret then set_pp (say s1 (EPut (cells (cur s)))) PLock else set_pp s1 (PInc false))
  | PLock => match take s with Some s => Some (set_pp s (PInc true)) | None => None end
  | PInc ret => Some (set_pp (set_w s (w s + 1)) (PWrap ret))
  | PWrap ret => Some (set_pp (if w s =? N then set_w s 0 else s) (if ret then PPosted else PUnlock false))
  | PPosted => Some (set_pp (set_posted s true) PPost)
  | PPost => Some (set_pp (set_ev s true) (PUnlock true))
  | PUnlock ret => Some (set_pp (say (set_lk s false) (ERet ret)) PIdle)
  end.

(** BufferLoop; [b] is what Synchronise returns.  When it fails BufferLoop returns (412) and is called again. *)
Definition cstep (b : bool) (s : st) : option st :=
  match cp s with
  | CLock1 => match take s with Some s => Some (set_cp s CRead) | None => None end
  | CRead => Some (set_cp s (CUnl1 (if w s <? pre then N + w s - pre else if w s - pre =? N then 0 else w s - pre)))  (* 365-377 *)
  | CUnl1 stop =>
    let s1 := set_lk s false in
    Some (if N =? 1 then set_cp (set_r s1 0) (CLoop 1) else set_cp s1 (CLoop stop))  (* 378-381 *)
  | CLoop stop =>
    Some (if r s =? stop then set_cp s CWait else if tg s (r s) then set_cp s (CCopy stop 0) else set_cp s (CNext stop true))
  | CCopy stop c => if c <? K then Some (set_cp (set_dsm s c (mem s (r s) c)) (CCopy stop (c + 1))) else Some (set_cp s (CSync stop))
  | CSync stop => Some (set_cp (say s (ESync (cells (dsm s)))) (CClear stop b))
  | CClear stop ret => Some (set_cp (set_tg s (r s) false) (CNext stop ret))
  | CNext stop ret =>
    let r1 := r s + 1 in
    Some (set_cp (say (set_r s (if (1 <? N) && (r1 =? N) then 0 else r1)) EPass) (if ret then CLoop stop else CLock1))
  | CWait => if ev s then Some (set_cp s CLock2) else None
  | CLock2 => match take s with Some s => Some (set_cp s CTest) | None => None end
  | CTest => Some (set_cp (if posted s then s else set_ev s false) CClrP)
  | CClrP => Some (set_cp (set_posted s false) CUnl2)
  | CUnl2 => Some (set_cp (set_lk s false) CLock1)
  end.

(** AExec d: Execute is called, with the sample d in the memory of the GAM; AP, AC: one action of the real-time thread, of the service
    thread (with the result of Synchronise); ASpur: Wait returns spuriously. *)
Inductive action := AExec (d : nat -> Z) | AP | AC (b : bool) | ASpur.
Definition step (s : st) (a : action) : option st :=
  match a with
  | AExec d => match pp s with PIdle => Some (set_pp (set_cur s d) PCheck) | _ => None end
  | AP => pstep s
  | AC b => cstep b s
  | ASpur => match cp s with CWait => Some (set_cp s CLock2) | _ => None end
  end.
End Model.
