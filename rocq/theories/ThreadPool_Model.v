(** Source/Core/Scheduler/L3Services: MultiClientService.cpp (AddThread 87-111, RemoveThread 113-127, Start 145-166; MoreThanEnoughThreads,
    MultiClientService.h 202-204) and MultiClientEmbeddedThread.cpp (ThreadLoop 53-125).
    Any number of threads; each access to the pool (a ReferenceContainer: Size, Get, Insert and Delete lock it, the sequence of them does
    not) is one step. Simplifications: the model begins when Start has returned; nobody asks the service to stop; the callback is the
    schedule: it decides when a client arrives and when a thread has done; Insert does not fail. *)
From Verif Require Import Base Conc.
Open Scope nat_scope.

Inductive pc :=
| Off                     (* no such thread *)
| Run                     (* ThreadLoop 64-87 and 95-101: in the callback *)
| AddChk                  (* AddThread, before line 89 *)
| AddStart                (* AddThread 91-103, before thread->Start *)
| AddIns (n : nat)        (* AddThread 105-107: thread [n] is started, not yet in the pool *)
| LeaveChk                (* ThreadLoop 119 *)
| RemSize (i : nat)       (* RemoveThread 117: Size() *)
| RemGet (i : nat)        (* RemoveThread 118-119: Get(i) *)
| RemDel                  (* RemoveThread 121: Delete(thread) *)
| Dead                    (* the thread is over *)
| Crash.                  (* RemoveThread 119 called GetThreadId through an invalid reference *)
Record st := St { pool : list nat; pcs : nat -> pc; nxt : nat }.
(** MinNumberOfThreads, MaxNumberOfThreads *)
Record cfg := Cf { cmin : nat; cmax : nat }.

Inductive act :=
| Client (t : nat)           (* the callback returns with no error from the wait stage: ThreadLoop 88-90 *)
| Done (t : nat)             (* the service is over: ThreadLoop 107-119 *)
| Next (t : nat) (ok : bool).  (* thread t makes its next access; [ok]: thread->Start succeeds *)

Definition set (s : st) (t : nat) (p : pc) : st := St (pool s) (upd (pcs s) t p) (nxt s).
Fixpoint remove1 (t : nat) (l : list nat) : list nat := match l with [] => [] | x :: r => if x =? t then r else x :: remove1 t r end.
Definition step (c : cfg) (s : st) (a : act) : option st :=
  match a with
  | Client t => match pcs s t with Run => Some (set s t AddChk) | _ => None end
  | Done t => match pcs s t with Run => Some (set s t LeaveChk) | _ => None end
  | Next t ok =>
    match pcs s t with
    | AddChk => Some (set s t (if cmax c <=? length (pool s) then Run else AddStart))           (* 89 *)
    | AddStart => if ok then Some (St (pool s) (upd (upd (pcs s) (nxt s) Run) t (AddIns (nxt s))) (S (nxt s)))   (* 102 *)
                  else Some (set s t Run)
    | AddIns n => Some (St (pool s ++ [n]) (upd (pcs s) t Run) (nxt s))                         (* 106 *)
    | LeaveChk => Some (set s t (if cmin c <? length (pool s) then RemSize 0 else Run))         (* h 203; else ThreadLoop 63 again *)
    | RemSize i => Some (set s t (if i <? length (pool s) then RemGet i else Dead))             (* 117, 125 *)
    | RemGet i => match nth_error (pool s) i with
                  | None => Some (set s t Crash)
                  | Some u => Some (set s t (if u =? t then RemDel else RemSize (S i)))         (* 119, 123 *)
                  end
    | RemDel => Some (St (remove1 t (pool s)) (upd (pcs s) t Dead) (nxt s))                     (* 121 *)
    | Off | Run | Dead | Crash => None
    end
  end.
(** Start 149-164 has started threads 0 .. min-1. *)
Definition init (c : cfg) : st := St (seq 0 (cmin c)) (fun t => if t <? cmin c then Run else Off) (cmin c).
