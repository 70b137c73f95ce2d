(** The distribution of the configured threads over the pool of the fast scheduler: Source/Core/Scheduler/L5GAMs/FastScheduler.cpp,
    ComputeMaxNThreads, CreateThreadMap, SetupThreadMap and CustomPrepareNextState.
    Simplified: the numbers of threads and states are below 2^32 (uint32 counters do not wrap); memory allocation, the creation of the
    semaphore and CreateThreads succeed; the pool threads are off, so SetCPUMaskThreadPool stores the mask; the priority class, the
    addresses of the cycle time signals and the messages to the log are not modelled; PrepareNextState is called once before the first start. *)
From Verif Require Import Base.
Open Scope nat_scope.

(** A configured thread (GAMSchedulerI.h ScheduledThread): its CPU mask, a uint64, and its executables. *)
Record thread := Thread { mask : Z; work : list nat }.
Definition state := list thread.
Definition masks_of (s : state) : list Z := map mask s.

(** 48: ALL_CPUS, used as mark of a free cell *)
Definition all_cpus : Z := 18446744073709551615%Z.

(** 221-234: the mask belongs to an earlier state or to an earlier thread of this state *)
Definition seen (cpu : Z) (before : list (list Z)) (done : list Z) : bool :=
  existsb (existsb (Z.eqb cpu)) before || existsb (Z.eqb cpu) done.
(** 240-246: nEqualCpus *)
Fixpoint equal_cpus (cpu : Z) (row : list Z) : nat :=
  match row with [] => 0 | c :: row => (if Z.eqb c cpu then 1 else 0) + equal_cpus cpu row end.
(** 239-250: maxNcpus over this state and the later ones *)
Fixpoint max_cpus (cpu : Z) (rows : list (list Z)) (m : nat) : nat :=
  match rows with [] => m | r :: rows => max_cpus cpu rows (if m <? equal_cpus cpu r then equal_cpus cpu r else m) end.
(** 218-253: the threads of one state *)
Fixpoint row_threads (before : list (list Z)) (done todo : list Z) (from : list (list Z)) : nat :=
  match todo with
  | [] => 0
  | cpu :: todo => (if seen cpu before done then 0 else max_cpus cpu from 0) + row_threads before (done ++ [cpu]) todo from
  end.
(** 214-256: maxNThreads *)
Fixpoint max_threads (before rows : list (list Z)) : nat :=
  match rows with
  | [] => 0
  | row :: rows' => row_threads before [] row rows + max_threads (before ++ [row]) rows'
  end.

Definition cell (row : list Z) (h : nat) : Z := nth h row all_cpus.
Fixpoint set_nth {A} (l : list A) (i : nat) (x : A) : list A :=
  match l, i with [], _ => [] | _ :: l, O => x :: l | y :: l, S i => y :: set_nth l i x end.

(** 272-282: the loop over the rows of the earlier states: found, allInvalids *)
Fixpoint look (prev : list (list Z)) (h : nat) (cpu : Z) (inv : bool) : bool * bool :=
  match prev with
  | [] => (false, inv)
  | r :: prev => if Z.eqb (cell r h) cpu then (true, Z.eqb (cell r h) all_cpus) else look prev h cpu (Z.eqb (cell r h) all_cpus)
  end.
Definition is_nil {A} (l : list A) : bool := match l with [] => true | _ => false end.
(** 269-289: the loop over the cells of the row of the state, from cell h on: the cell found, or firstInvalid *)
Fixpoint scan (prev : list (list Z)) (cur : list Z) (h : nat) (cpu : Z) (first : option nat) : option nat * option nat :=
  match cur with
  | [] => (None, first)
  | x :: cur =>
    if Z.eqb x all_cpus then
      let '(found, inv) := look prev h cpu false in
      if found then (Some h, first)
      else scan prev cur (S h) cpu
             (if inv || is_nil prev then match first with None => Some h | Some _ => first end else first)
    else scan prev cur (S h) cpu first
  end.
(** 262-298: CreateThreadMap: the row, the masks of the pool threads and the pool thread; None: the cell 0xFFFFFFFF is written *)
Definition create_map (prev : list (list Z)) (cur : list Z) (ms : list (option Z)) (cpu : Z) : option (list Z * list (option Z) * nat) :=
  match scan prev cur 0 cpu None with
  | (Some h, _) => Some (set_nth cur h cpu, ms, h)
  | (None, Some h) => Some (set_nth cur h cpu, set_nth ms h (Some cpu), h)
  | (None, None) => None
  end.
(** 320-327: one state: cpuMap[i], the masks, cpuThreadMap[i] *)
Fixpoint map_row (prev : list (list Z)) (cur : list Z) (ms : list (option Z)) (todo : list Z) : option (list Z * list (option Z) * list nat) :=
  match todo with
  | [] => Some (cur, ms, [])
  | cpu :: todo =>
    match create_map prev cur ms cpu with
    | None => None
    | Some (cur, ms, h) =>
      match map_row prev cur ms todo with None => None | Some (cur, ms, l) => Some (cur, ms, h :: l) end
    end
  end.
(** 319-328: all the states *)
Fixpoint map_rows (n : nat) (prev rows : list (list Z)) (ms : list (option Z)) : option (list (option Z) * list (list nat)) :=
  match rows with
  | [] => Some (ms, [])
  | row :: rows =>
    match map_row prev (repeat all_cpus n) ms row with
    | None => None
    | Some (cur, ms, l) =>
      match map_rows n (prev ++ [cur]) rows ms with None => None | Some (ms, ls) => Some (ms, l :: ls) end
    end
  end.
(** 300-341: SetupThreadMap: the mask set for each pool thread (None: the one of the service), the pool threads of each state *)
Record pool := Pool { pmask : list (option Z); pmap : list (list nat) }.
Definition setup (app : list state) : option pool :=
  let rows := map masks_of app in
  let n := max_threads [] rows in
  match map_rows n [] rows (repeat None n) with None => None | Some (ms, l) => Some (Pool ms l) end.

(** 372-380: the records of the pool threads for the next state; None: outside of the array *)
Fixpoint assign (tab : list (option (list nat))) (l : list nat) (ths : state) : option (list (option (list nat))) :=
  match ths, l with
  | [], _ => Some tab
  | _ :: _, [] => None
  | t :: ths, h :: l => if h <? length tab then assign (set_nth tab h (Some (work t))) l ths else None
  end.
(** 362-380: CustomPrepareNextState for state i: what each pool thread executes (None: it waits) *)
Definition prepare (app : list state) (p : pool) (i : nat) : option (list (option (list nat))) :=
  match nth_error app i, nth_error (pmap p) i with
  | Some ths, Some l => assign (repeat None (length (pmask p))) l ths
  | _, _ => None
  end.
