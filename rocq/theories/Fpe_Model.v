(** Model of the polling event: Source/Core/BareMetal/L1Portability/FastPollingEventSem.cpp (P), for any number of threads and every interleaving.

    Each read or write of the flag and each read of the clock is one step of one thread. Sleeping is no step: time passes between any two steps. The flag is 0 or 1 and
    is not shared with other code. FastResetWait (P 98-102) is a Reset and then a FastWait. The clock does not wrap: ticks are unbounded integers. *)
From Coq Require Import List ZArith Lia Bool Arith.
Import ListNotations.
Open Scope Z_scope.

(** What a thread does: nothing; at the test of the flag (P 75); at the test of the clock (P 77); returned, true for NoError *)
Inductive pc := Idle | AtFlag (stop : Z) (infinite : bool) | AtClock (stop : Z) | Returned (ok : bool).
(** The flag (FastPollingEventSem.h), the counter of ticks, and the threads *)
Record state := State { flag : Z; clock : Z; thread : nat -> pc }.
(** P 43-46 *)
Definition start (c : Z) : state := State 0 c (fun _ => Idle).
(** P 53-102: the steps; Elapse is time that passes *)
Inductive event :=
| Create (wait : bool) | Post | Reset | Elapse (ticks : Z)
| Begin (t : nat) (ticks : Z) (infinite : bool) | Check (t : nat) | Clock (t : nat).
(** The thread moves to another place *)
Definition set (s : state) (t : nat) (p : pc) : state := State (flag s) (clock s) (fun u => if Nat.eqb u t then p else thread s u).
(** One step; None: the thread is elsewhere *)
Definition step (s : state) (e : event) : option state :=
  match e with
  (* P 53-60 *)
  | Create wait => Some (State (if wait then 0 else 1) (clock s) (thread s))
  (* P 90-92: TestAndSet leaves 1 *)
  | Post => Some (State 1 (clock s) (thread s))
  (* P 94-96 *)
  | Reset => Some (State 0 (clock s) (thread s))
  | Elapse n => if n <? 0 then None else Some (State (flag s) (clock s + n) (thread s))
  (* P 62-66: FastWait is entered and the end of the wait is computed *)
  | Begin t ticks inf => match thread s t with
                         | Idle | Returned _ => Some (set s t (AtFlag (ticks + clock s) inf))
                         | _ => None end
  (* P 75-76 *)
  | Check t => match thread s t with
               | AtFlag stop inf => Some (set s t (if flag s =? 0 then (if inf then AtFlag stop inf else AtClock stop) else Returned true))
               | _ => None end
  (* P 77-81 *)
  | Clock t => match thread s t with
               | AtClock stop => Some (set s t (if clock s >? stop then Returned false else AtFlag stop false))
               | _ => None end
  end.
(** An interleaving *)
Fixpoint run (s : state) (l : list event) : option state :=
  match l with [] => Some s | e :: l => match step s e with Some s => run s l | None => None end end.
