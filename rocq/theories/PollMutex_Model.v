(** Source/Core/BareMetal/L1Portability/FastPollingMutexSem.cpp used by any number of threads (thread identifiers are
    natural numbers).  One action is one access to the shared flag or clock, or a call or return of the API.
    Memory is sequentially consistent (the flag is volatile and TestAndSet atomic). *)
From Verif Require Import Base Conc.

(** What a thread does to the API: [stop] is ticksStop, None when the timeout is TTInfiniteWait. *)
Inductive ev :=
| ECallLock (stop : option Z) | ERetLock (ok : bool)   (* FastLock; ok: NoError, otherwise Timeout *)
| ECallTry | ERetTry (ok : bool)                       (* FastTryLock *)
| ECallUnlock | ERetUnlock.                            (* FastUnLock *)

Inductive pc :=
| Idle
| LockTas (stop : option Z)   (* 81: about to TestAndSet *)
| LockClock (stop : Z)        (* 83: about to read the counter *)
| LockRet (ok : bool)
| TryTas                      (* 99 *)
| TryRet (ok : bool)
| UnlockStore                 (* 103 *)
| UnlockRet.

Record sys := Sys { flag : Z; pcs : nat -> pc; log : list (nat * ev) (* latest first *) }.

(** 46-49 *)
Definition init : sys := Sys 0 (fun _ => Idle) [].

Inductive action :=
| ACall (t : nat) (e : ev)    (* thread t calls *)
| AStep (t : nat) (clock : Z) (* thread t executes its next access; clock: the counter, if it is read *).

(** AtomicA.h 111-126: the old value is returned and 1 is stored. *)
Definition test_and_set (f : Z) : bool * Z := (f =? 0, 1).

(** A client that unlocks only what it locked: thread t has returned from a successful lock and not called unlock since. *)
Fixpoint holds (l : list (nat * ev)) (t : nat) : bool :=
  match l with
  | [] => false
  | (u, e) :: r =>
    if Nat.eqb u t then
      match e with
      | ERetLock true | ERetTry true => true
      | ECallUnlock => false
      | _ => holds r t
      end
    else holds r t
  end.

Definition step (s : sys) (a : action) : option sys :=
  match a with
  | ACall t e =>
    match pcs s t with
    | Idle =>
      match e with
      | ECallLock stop => Some (Sys (flag s) (upd (pcs s) t (LockTas stop)) ((t, e) :: log s))
      | ECallTry => Some (Sys (flag s) (upd (pcs s) t TryTas) ((t, e) :: log s))
      | ECallUnlock => if holds (log s) t then Some (Sys (flag s) (upd (pcs s) t UnlockStore) ((t, e) :: log s)) else None
      | _ => None
      end
    | _ => None
    end
  | AStep t clock =>
    match pcs s t with
    | Idle => None
    | LockTas stop =>      (* 81-94; Sleep::Sec has no effect on the state *)
      let (ok, f) := test_and_set (flag s) in
      Some (Sys f (upd (pcs s) t (if ok then LockRet true else match stop with None => LockTas None | Some k => LockClock k end)) (log s))
    | LockClock stop =>    (* 83-88 *)
      Some (Sys (flag s) (upd (pcs s) t (if clock >? stop then LockRet false else LockTas (Some stop))) (log s))
    | LockRet ok => Some (Sys (flag s) (upd (pcs s) t Idle) ((t, ERetLock ok) :: log s))
    | TryTas => let (ok, f) := test_and_set (flag s) in Some (Sys f (upd (pcs s) t (TryRet ok)) (log s))
    | TryRet ok => Some (Sys (flag s) (upd (pcs s) t Idle) ((t, ERetTry ok) :: log s))
    | UnlockStore => Some (Sys 0 (upd (pcs s) t UnlockRet) (log s))
    | UnlockRet => Some (Sys (flag s) (upd (pcs s) t Idle) ((t, ERetUnlock) :: log s))
    end
  end.
