(** The real time scheduler: Source/Core/BareMetal/L5GAMs/GAMSchedulerI.cpp, Source/Core/Scheduler/L5GAMs/GAMScheduler.cpp and the state
    changes of Source/Core/BareMetal/L5GAMs/RealTimeApplication.cpp, with the thread loop of EmbeddedThread.cpp and the Start and Stop of
    MultiThreadService.cpp and EmbeddedThreadI.cpp (Source/Core/Scheduler/L3Services).
    One client calls PrepareNextState, StopCurrentStateExecution and StartNextStateExecution one after the other.
    One action is one access to what is shared between the client and the service threads.
    Simplified: the event semaphore is its flag and the set of its sleepers (the full code is EventSem_Model; its mutex makes the test of the
    flag and the falling asleep one action); thread creation succeeds; the services have the infinite timeout that GAMScheduler leaves
    unchanged; GetSchedulableStates is the array; the times written to the timing data source are not modelled; the message sent when a
    cycle fails is not modelled. *)
From Coq Require Import String.
From Verif Require Import Base Conc.
Open Scope nat_scope.

(** * The table of a thread: GAMSchedulerI::ConfigureScheduler 141-200 *)
Definition exec := nat.
(** A GAM of the thread: its input brokers, itself, its output brokers.  A broker is None if the reference is not an executable.
    [ok_in], [ok_out]: whether GetInputBrokers and GetOutputBrokers succeed.  [signals]: whether the timing signals exist. *)
Record gam := Gam { g_in : list (option exec); g_self : exec; g_out : list (option exec); ok_in : bool; ok_out : bool; sig_read : bool; sig_exec : bool; sig_write : bool }.
(** 148-169: numberOfExecutables; None: ret is false *)
Fixpoint count (n : nat) (gs : list gam) : option nat :=
  match gs with
  | [] => Some n
  | g :: gs => if ok_in g then if ok_out g then count (n + length (g_in g) + length (g_out g)) gs else None else None
  end.
(** The array: a cell not yet written is None.  A result None: outside of the array. *)
Definition arr := list (option exec).
Fixpoint put (a : arr) (i : nat) (e : exec) : option arr :=
  match a, i with
  | [], _ => None
  | _ :: a, O => Some (Some e :: a)
  | x :: a, S i => match put a i e with None => None | Some a => Some (x :: a) end
  end.
(** Result of the insertions: Undef (outside of the array), false, or the array and the index. *)
Inductive ires := IUndef | IFalse | IOk (a : arr) (c : nat).
(** 264-278, 348-358 *)
Fixpoint insert_brokers (l : list (option exec)) (a : arr) (c : nat) : ires :=
  match l with
  | [] => IOk a c
  | None :: _ => IFalse
  | Some e :: l => match put a c e with None => IUndef | Some a => insert_brokers l a (S c) end
  end.
(** 235-281 *)
Definition insert_inputs (g : gam) (a : arr) (c : nat) : ires :=
  if sig_read g then if ok_in g then insert_brokers (g_in g) a c else IFalse else IFalse.
(** 283-315, 189-192 *)
Definition insert_gam (g : gam) (a : arr) (c : nat) : ires :=
  if sig_exec g then match put a c (g_self g) with None => IUndef | Some a => IOk a (S c) end else IFalse.
(** 317-360 *)
Definition insert_outputs (g : gam) (a : arr) (c : nat) : ires :=
  if sig_write g then if ok_out g then insert_brokers (g_out g) a c else IFalse else IFalse.
(** 179-199 *)
Fixpoint fill (gs : list gam) (a : arr) (c : nat) : ires :=
  match gs with
  | [] => IOk a c
  | g :: gs =>
    match insert_inputs g a c with
    | IOk a c => match insert_gam g a c with
                 | IOk a c => match insert_outputs g a c with IOk a c => fill gs a c | r => r end
                 | r => r
                 end
    | r => r
    end
  end.
(** 146-200: the executables of the thread *)
Definition table (gs : list gam) : ires :=
  match count (length gs) gs with
  | None => IFalse
  | Some n => fill gs (repeat None n) 0
  end.

(** * Execution *)
(** What the loop of ExecuteSingleCycle does with an executable: executes it, skips it because it is not enabled, executes it and it fails. *)
Inductive outcome := Ran | Skipped | Failed.
Inductive cmd := CmdStart | CmdKeep | CmdStop.
(** A service thread. *)
Inductive tpc :=
| TDead
| TBoot                                        (* EmbeddedThread.cpp 55-60 *)
| TKeep                                        (* 61 *)
| TOuter                                       (* 67 *)
| TWait                                        (* 74, GAMScheduler.cpp 226-227: the semaphore *)
| TSleep                                       (* asleep in EventSem::Wait *)
| TInner                                       (* 80-84 *)
| TMain                                        (* 85, GAMScheduler.cpp 224-231: reads the index and the record of the thread *)
| TCycle (b : bool) (g : nat) (rest : list exec) (* GAMSchedulerI.cpp 406-438 *)
| TEnd (b : bool) (g : nat)                    (* GAMScheduler.cpp 243-253: accesses the record of the thread *)
| TTerm.                                       (* 98 *)
Record thr := Thr { cm : cmd; pc : tpc }.
(** rtThreadInfo[b]; the number identifies the allocation. *)
Inductive info := INull | IFreed | ITab (g : nat) (l : list (list exec)).

Inductive op := OPrepare (name : string) | OStart | OStop.
Inductive ev :=
| ECall (o : op) | ERet (o : op) (ok : bool)
| ESwitch                                                      (* the index changes *)
| ERun (b : bool) (i : nat) (e : exec) (o : outcome)           (* thread i of service b *)
| EBad.   (* a thread accesses a record that does not exist, was freed or belongs to another table; or it outlives its thread object *)
(** After the threads of a service have stopped: PrepareNextState goes on, StopCurrentStateExecution returns. *)
Inductive kont := KPrep (n : nat) | KStop.
Inductive cpc :=
| CIdle
| CApp (name : string)                 (* RealTimeApplication.cpp 468-494 *)
| CFind (name : string)                (* GAMSchedulerI.cpp 370-391 *)
| CReset (name : string) (n : nat)     (* GAMScheduler.cpp 169-170 *)
| COld (name : string) (n : nat)       (* 177 *)
| CSet (o : op) (k : kont) (second : bool) (i : nat)   (* MultiThreadService.cpp 315-319, 328-333: thread i *)
| CWaitDead (o : op) (k : kont) (second : bool) (i : nat) (* EmbeddedThreadI.cpp 226-230 *)
| CNew (name : string) (n : nat)       (* GAMScheduler.cpp 179-187 *)
| CInfo (name : string) (n : nat)      (* 193-203 *)
| CStartThr (name : string) (n i : nat) (* 204: MultiThreadService.cpp 294-303 *)
| CIndex                               (* RealTimeApplication.cpp 509 *)
| CCur                                 (* GAMScheduler.cpp 131-137 *)
| CPost | CBroadcast                   (* 138 *)
| CStop                                (* 157-160 *)
| CRet (o : op) (ok : bool).

Record sys := Sys {
  index : bool;                (* RealTimeApplication: index; false is 0 *)
  sched : bool -> option nat;  (* scheduledStates: the number of the state *)
  next_id : nat;               (* nextStateIdentifier *)
  cur : nat;                   (* the signal CurrentState *)
  valid : bool;                (* realTimeApplicationT is valid *)
  posted : bool;               (* eventSem has been posted and not reset *)
  svc : bool -> option (list thr); (* multiThreadService *)
  tab : bool -> info;          (* rtThreadInfo *)
  gen : nat;                   (* number of allocations of tables *)
  ctl : cpc;
  log : list ev }.             (* latest first *)

Definition updb {A} (f : bool -> A) (b : bool) (x : A) : bool -> A := fun c => if Bool.eqb c b then x else f c.
Fixpoint set_nth {A} (l : list A) (i : nat) (x : A) : list A :=
  match l, i with [], _ => [] | _ :: l, O => x :: l | y :: l, S i => y :: set_nth l i x end.

Section Sched.
(** The states of the application in order: name, executables of each thread. *)
Variable states : list (string * list (list exec)).
Definition threads_of (n : nat) : list (list exec) := match nth_error states n with Some (_, l) => l | None => [] end.
(** GAMSchedulerI.cpp 380-388: the first state of that name *)
Fixpoint find_state (l : list (string * list (list exec))) (name : string) (i : nat) : option nat :=
  match l with [] => None | (m, _) :: l => if String.eqb name m then Some i else find_state l name (S i) end.

(** RealTimeApplication.cpp 64: the index is 1 *)
Definition init : sys := Sys true (fun _ => None) 0 0 false false (fun _ => None) (fun _ => INull) 0 CIdle [].
Definition set_ctl (s : sys) (c : cpc) : sys :=
  Sys (index s) (sched s) (next_id s) (cur s) (valid s) (posted s) (svc s) (tab s) (gen s) c (log s).
Definition add (s : sys) (e : ev) : sys :=
  Sys (index s) (sched s) (next_id s) (cur s) (valid s) (posted s) (svc s) (tab s) (gen s) (ctl s) (e :: log s).
Definition set_svc (s : sys) (b : bool) (x : option (list thr)) : sys :=
  Sys (index s) (sched s) (next_id s) (cur s) (valid s) (posted s) (updb (svc s) b x) (tab s) (gen s) (ctl s) (log s).
Definition wake (t : thr) : thr := match pc t with TSleep => Thr (cm t) TInner | _ => t end.
Definition is_keep (c : cmd) : bool := match c with CmdKeep => true | _ => false end.
Definition is_dead (p : tpc) : bool := match p with TDead => true | _ => false end.

(** One action of a thread: the new command and point, and what is logged. *)
Definition tstep (s : sys) (b : bool) (i : nat) (t : thr) (o : outcome) : option (thr * list ev) :=
  let go p := Some (Thr (cm t) p, []) in
  match pc t with
  | TDead | TSleep => None
  | TBoot => go (match cm t with CmdStart => TKeep | _ => TOuter end)
  | TKeep => Some (Thr CmdKeep TOuter, [])
  | TOuter => go (if is_keep (cm t) then TWait else TDead)
  | TWait => go (if posted s then TInner else TSleep)
  | TInner => go (if is_keep (cm t) then TMain else TTerm)
  | TMain =>
    match tab s (index s) with
    | INull => go TInner
    | IFreed => Some (Thr (cm t) TDead, [EBad])
    | ITab g l => match nth_error l i with
                  | None => Some (Thr (cm t) TDead, [EBad])
                  | Some es => go (TCycle (index s) g es)
                  end
    end
  | TCycle x g [] => go (TEnd x g)
  | TCycle x g (e :: rest) => Some (Thr (cm t) (match o with Failed => TEnd x g | _ => TCycle x g rest end), [ERun b i e o])
  | TEnd x g =>
    match tab s x with
    | ITab g' _ => if g =? g' then go TInner else Some (Thr (cm t) TDead, [EBad])
    | _ => Some (Thr (cm t) TDead, [EBad])
    end
  | TTerm => go TOuter
  end.

(** The service whose threads the client is stopping. *)
Definition target (s : sys) (k : kont) : bool := match k with KPrep _ => negb (index s) | KStop => index s end.
(** One action of the client.  [ok]: whether the state and the data sources accept the change (RealTimeApplication.cpp 475-494). *)
Definition cstep (s : sys) (ok : bool) : option sys :=
  let go c := Some (set_ctl s c) in
  let nb := negb (index s) in
  match ctl s with
  | CIdle => None
  | CApp name => go (if ok then CFind name else CRet (OPrepare name) false)
  | CFind name =>
    match find_state states name 0 with
    | None => Some (Sys (index s) (sched s) (length states) (cur s) (valid s) (posted s) (svc s) (tab s) (gen s) (CRet (OPrepare name) false) (log s))
    | Some n => Some (Sys (index s) (updb (sched s) nb (Some n)) n (cur s) (valid s) (posted s) (svc s) (tab s) (gen s) (CReset name n) (log s))
    end
  | CReset name n => Some (Sys (index s) (sched s) (next_id s) (cur s) true false (svc s) (tab s) (gen s) (COld name n) (log s))
  | COld name n => go (match svc s nb with Some _ => CSet (OPrepare name) (KPrep n) false 0 | None => CNew name n end)
  | CSet o k second i =>
    let b := target s k in
    match svc s b with
    | None => None
    | Some ts =>
      match nth_error ts i with
      | None =>   (* the end of the loop; 344: after the second loop the threads are released *)
        if second then
          let s := if forallb (fun t => is_dead (pc t)) ts then s else add s EBad in
          Some (set_ctl (set_svc s b (Some [])) (match k, o with KPrep n, OPrepare name => CNew name n | _, _ => CRet o true end))
        else go (CSet o k true 0)
      | Some t =>
        if is_dead (pc t) then go (CSet o k second (S i))
        else Some (set_ctl (set_svc s b (Some (set_nth ts i (Thr CmdStop (pc t))))) (CWaitDead o k second i))
      end
    end
  | CWaitDead o k second i =>
    match svc s (target s k) with
    | None => None
    | Some ts =>
      match nth_error ts i with
      | None => None
      | Some t =>
        if is_dead (pc t) then go (CSet o k second (S i))
        else match cm t with CmdStop => None | _ => go (CSet o k second (S i)) end   (* Stopping: sleeps and looks again *)
      end
    end
  | CNew name n =>
    let s := set_svc s nb (Some (repeat (Thr CmdStop TDead) (length (threads_of n)))) in
    Some (Sys (index s) (sched s) (next_id s) (cur s) (valid s) (posted s) (svc s)
              (updb (tab s) nb (match tab s nb with INull => INull | _ => IFreed end)) (gen s) (CInfo name n) (log s))
  | CInfo name n =>
    Some (Sys (index s) (sched s) (next_id s) (cur s) (valid s) (posted s) (svc s)
              (updb (tab s) nb (ITab (gen s) (threads_of n))) (S (gen s)) (CStartThr name n 0) (log s))
  | CStartThr name n i =>
    match svc s nb with
    | None => None
    | Some ts =>
      if i <? length ts then Some (set_ctl (set_svc s nb (Some (set_nth ts i (Thr CmdStart TBoot)))) (CStartThr name n (S i)))
      else go (CRet (OPrepare name) true)
    end
  | CIndex => Some (add (Sys nb (sched s) (next_id s) (cur s) (valid s) (posted s) (svc s) (tab s) (gen s) CCur (log s)) ESwitch)
  | CCur =>
    match sched s (index s) with
    | Some _ => if valid s then Some (Sys (index s) (sched s) (next_id s) (next_id s) (valid s) (posted s) (svc s) (tab s) (gen s) CPost (log s))
                else go (CRet OStart false)
    | None => go (CRet OStart false)
    end
  | CPost => Some (Sys (index s) (sched s) (next_id s) (cur s) (valid s) true (svc s) (tab s) (gen s) CBroadcast (log s))
  | CBroadcast =>
    Some (Sys (index s) (sched s) (next_id s) (cur s) (valid s) (posted s)
              (fun b => match svc s b with None => None | Some ts => Some (map wake ts) end) (tab s) (gen s) (CRet OStart true) (log s))
  | CStop =>
    if valid s then go (match svc s (index s) with None => CRet OStop true | Some _ => CSet OStop KStop false 0 end)
    else go (CRet OStop false)
  | CRet o ok => Some (set_ctl (add s (ERet o ok)) CIdle)
  end.
Definition entry (o : op) : cpc := match o with OPrepare name => CApp name | OStart => CIndex | OStop => CStop end.

Inductive action :=
| ACall (o : op)
| AClient (ok : bool)
| AThread (b : bool) (i : nat) (o : outcome)
| ASpurious (b : bool) (i : nat).   (* pthread_cond_wait wakes the thread although nobody has posted, as POSIX allows *)
(** [spurious]: whether the last kind of action occurs. *)
Definition step (spurious : bool) (s : sys) (a : action) : option sys :=
  match a with
  | ACall o => match ctl s with CIdle => Some (set_ctl (add s (ECall o)) (entry o)) | _ => None end
  | AClient ok => cstep s ok
  | AThread b i o =>
    match svc s b with
    | None => None
    | Some ts =>
      match nth_error ts i with
      | None => None
      | Some t => match tstep s b i t o with
                  | None => None
                  | Some (t, es) =>
                    let s := set_svc s b (Some (set_nth ts i t)) in
                    Some (Sys (index s) (sched s) (next_id s) (cur s) (valid s) (posted s) (svc s) (tab s) (gen s) (ctl s) (es ++ log s))
                  end
      end
    end
  | ASpurious b i =>
    if spurious then
      match svc s b with
      | None => None
      | Some ts => match nth_error ts i with
                   | Some (Thr c TSleep) => Some (set_svc s b (Some (set_nth ts i (Thr c TInner))))
                   | _ => None
                   end
      end
    else None
  end.
End Sched.
