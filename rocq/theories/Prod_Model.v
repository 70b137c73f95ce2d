(** Model of the part of the configuration builder that decides who runs where
    and who writes what: the threads of the states, the functions (GAMs) they
    run, the producers of the signals of the data sources.
    Source: Source/Core/BareMetal/L5GAMs/RealTimeApplicationConfigurationBuilder.cpp
    (ConfigureAfterInitialisation 86-131, ConfigureBeforeInitialisation 133-178,
    ResolveStates 1493-1638, AddStateToGAM 1640-1715, AddStateToFunction
    1717-1786, ResolveStatesFromConfiguration 1814-1919,
    ResolveConsumersAndProducers 2088-2186, VerifyConsumersAndProducers 2193-2293,
    BuildProducersRanges 2295-2363, CheckProducersRanges 2365-2376,
    FindFunctionNumber 3160-3163, SearchGAMs 3687-3810, GetNumberOfSyncSignals
    3812-3838) and RealTimeThread.cpp (ConfigureArchitecture 66-155, GetGAMs).

    Not modelled: the consumers (nothing is verified about them), the signals
    the builder adds to the timing data source (AddTimingSignals,
    AddThreadCycleTime: they have no producers, and a signal of that data source
    that is already there with another type is refused), structured types, and
    what happens before (GAMs without signals and nested GAMs are refused). *)
From Coq Require Import ZArith List Bool String.
From Verif Require Import Base Broker_Model SigMem_Model.
Import ListNotations.
Open Scope string_scope. Open Scope nat_scope. Open Scope list_scope.

(** A signal of a function; [g_sync]: Frequency is given and not negative (3826-3830). *)
Record sig := Sig { g_sig : fsignal; g_sync : bool }.

(** A GAM: its name below Functions (with the names of the containers it is
    in, separated by dots), its input and its output signals. *)
Record fn := Fn { f_name : string; f_in : list sig; f_out : list sig }.

(** A thread: the names given as Functions; each is a GAM or a container. *)
Record thread := Thread { t_name : string; t_functions : list string }.

(** A state: the number of objects in it before the container Threads, and
    the threads. *)
Record state := State { s_name : string; s_before : nat; s_threads : list thread }.

(** The application.  The functions and the data sources are in the order in
    which the search in the tree finds them; [x_timing] is the one data source
    of class TimingDataSource; [x_children] is the number of objects in the
    application; the flags are CheckSameGamInMoreThreads and
    CheckMultipleProducersWrites. *)
Record rtapp := RtApp
  { x_default : string; x_ds : list dsource; x_timing : string; x_functions : list fn;
    x_states : list state; x_children : nat; x_same : bool; x_multi : bool }.

(** What SigMem_Model sees of the application. *)
Definition gam_of (f : fn) : gam := Gam (map g_sig (f_in f)) (map g_sig (f_out f)).
Definition app_of (a : rtapp) : app := App (x_default a) (x_ds a) (map gam_of (x_functions a)).

(** functionsIndexesCache: ConfigurationDatabase::Write replaces the value of a
    name that is there. *)
Definition cache := list (string * nat).
Fixpoint cache_put (n : string) (i : nat) (c : cache) : cache :=
  match c with
  | [] => [(n, i)]
  | (m, k) :: c' => if String.eqb m n then (n, i) :: c' else (m, k) :: cache_put n i c'
  end.
Fixpoint cache_from (i : nat) (names : list string) (c : cache) : cache :=
  match names with
  | [] => c
  | n :: names' => cache_from (S i) names' (cache_put n i c)
  end.
Definition names_of (a : rtapp) : list string := map f_name (x_functions a).

(** The GAMs in the container [p]. *)
Definition inner (names : list string) (p : string) : list string :=
  filter (String.prefix (p ++ ".")) names.
(** ConfigureArchitecture 93-123: the GAM [p] and the GAMs in [p].  A container
    without GAMs is taken as an error; the code runs nothing for it. *)
Definition expand (names : list string) (p : string) : list string :=
  filter (fun n => String.eqb p n || String.prefix (p ++ ".") n) names.

(** GetNumberOfSyncSignals 3812-3838, for both directions.  The counter is not
    wrapped. *)
Definition syncs (f : fn) : nat :=
  List.length (filter g_sync (f_in f)) + List.length (filter g_sync (f_out f)).

(** The nodes States of the functions: state, threads. *)
Definition sts := list (list (string * list string)).
Fixpoint set_nth {A} (l : list A) (i : nat) (v : A) : list A :=
  match l, i with
  | [], _ => []
  | _ :: l', O => v :: l'
  | x :: l', S i' => x :: set_nth l' i' v
  end.

(** 1578-1622 (and 1664-1711): the same GAM in another thread of the state. *)
Definition add_state (same : bool) (st t : string) (l : list (string * list string)) :
  option (list (string * list string)) :=
  match assoc st l with
  | None => Some (l ++ [(st, [t])])
  | Some ts =>
      if same then
        match ts with
        | [t'] => if String.eqb t' t then Some l else None
        | _ => None
        end
      else Some (set_assoc st (ts ++ [t]) l)
  end.

(** 1556-1623 for one GAM: the nodes and the counter of synchronising signals. *)
Definition one_gam (fs : list fn) (c : cache) (same : bool) (st t : string) (x : sts * nat) (n : string) :
  option (sts * nat) :=
  match assoc n c with
  | None => None
  | Some i =>
      match nth_error fs i, nth_error (fst x) i with
      | Some f, Some l =>
          match add_state same st t l with
          | Some l' => Some (set_nth (fst x) i l', snd x + syncs f)
          | None => None
          end
      | _, _ => None
      end
  end.
Fixpoint gams (fs : list fn) (c : cache) (same : bool) (st t : string) (x : sts * nat) (ns : list string) :
  option (sts * nat) :=
  match ns with
  | [] => Some x
  | n :: ns' => match one_gam fs c same st t x n with Some x' => gams fs c same st t x' ns' | None => None end
  end.

(** ConfigureArchitecture, for all the Functions of the thread. *)
Fixpoint thread_gams (names ps : list string) : option (list string) :=
  match ps with
  | [] => Some []
  | p :: ps' =>
      match expand names p, thread_gams names ps' with
      | [], _ => None
      | l, Some r => Some (l ++ r)
      | _, None => None
      end
  end.

(** ResolveStates, 1527-1631: one thread. *)
Definition thread_after (a : rtapp) (c : cache) (st : string) (N : sts) (T : thread) : option sts :=
  match thread_gams (names_of a) (t_functions T) with
  | None => None
  | Some ns =>
      match gams (x_functions a) c (x_same a) st (t_name T) (N, 0) ns with
      | Some (N', n) => if n <=? 1 then Some N' else None
      | None => None
      end
  end.
Fixpoint fold_opt {A B} (f : A -> B -> option A) (l : list B) (x : A) : option A :=
  match l with
  | [] => Some x
  | b :: l' => match f x b with Some x' => fold_opt f l' x' | None => None end
  end.
(** 1507-1637: one state.  The container Threads is looked for among as many
    objects of the state as there are in the application (1518). *)
Definition state_after (a : rtapp) (c : cache) (N : sts) (s : state) : option sts :=
  if s_before s <? x_children a then fold_opt (thread_after a c (s_name s)) (s_threads s) N else None.
Definition no_states (a : rtapp) : sts := map (fun _ => []) (x_functions a).
Definition states_after (a : rtapp) : option sts :=
  fold_opt (state_after a (cache_from 0 (names_of a) [])) (x_states a) (no_states a).

(** AddStateToFunction 1717-1786 for one of the Functions.  SearchGAMs finds
    the GAMs in the container and writes their names, from the container on,
    and their numbers in the container to functionsIndexesCache (3741); the
    last argument of AddStateToGAM is not given for them (1780), so it is true. *)
Definition rest (p n : string) : string :=
  substring (S (String.length p)) (String.length n - S (String.length p)) n.
Definition one_function (a : rtapp) (st t : string) (x : cache * (sts * nat)) (p : string) :
  option (cache * (sts * nat)) :=
  match inner (names_of a) p with
  | [] =>
      if existsb (String.eqb p) (names_of a) then
        match one_gam (x_functions a) (fst x) (x_same a) st t (snd x) p with
        | Some y => Some (fst x, y)
        | None => None
        end
      else None
  | l =>
      let c := cache_from 0 (map (rest p) l) (fst x) in
      match gams (x_functions a) c true st t (snd x) l with
      | Some y => Some (c, y)
      | None => None
      end
  end.

(** ResolveStatesFromConfiguration 1851-1909. *)
Definition thread_before (a : rtapp) (st : string) (x : cache * sts) (T : thread) : option (cache * sts) :=
  match fold_opt (one_function a st (t_name T)) (t_functions T) (fst x, (snd x, 0)) with
  | Some (c, (N', n)) => if n <=? 1 then Some (c, N') else None
  | None => None
  end.
Definition state_before (a : rtapp) (x : cache * sts) (s : state) : option (cache * sts) :=
  fold_opt (thread_before a (s_name s)) (s_threads s) x.
Definition states_before (a : rtapp) : option sts :=
  match fold_opt (state_before a) (x_states a) (cache_from 0 (names_of a) [], no_states a) with
  | Some (_, N) => Some N
  | None => None
  end.

(** The arrays GAMProducers and SignalProducers of a data source's signal in a
    state: the number of the function and of its output signal. *)
Definition place := (string * string * string)%type.
Definition same_place (p q : place) : bool :=
  let '(d, k, s) := p in let '(d', k', s') := q in
  String.eqb d d' && String.eqb k k' && String.eqb s s'.
Definition table := list (place * list (nat * nat)).
(** ResolveConsumersAndProducers 2107-2175 for one state. *)
Fixpoint add_producer (p : place) (w : nat * nat) (t : table) : table :=
  match t with
  | [] => [(p, [w])]
  | (q, l) :: t' => if same_place q p then (q, l ++ [w]) :: t' else (q, l) :: add_producer p w t'
  end.

(** 957-966: the data source of a signal. *)
Definition ds_of (a : rtapp) (s : fsignal) : string :=
  match q_ds s with Some n => n | None => x_default a end.

(** 2088-2186 for one output signal, in all the states of its function. *)
Definition signal_producer (a : rtapp) (i : nat) (states : list string) (t : table) (j : nat) (s : sig) : table :=
  fold_left (fun t st => add_producer (ds_of a (g_sig s), q_key (g_sig s), st) (i, j) t) states t.
(** The loops of ResolveDataSources 919-1055 that lead there. *)
Fixpoint outputs (a : rtapp) (i : nat) (states : list string) (j : nat) (l : list sig) (t : table) : table :=
  match l with
  | [] => t
  | s :: l' => outputs a i states (S j) l' (signal_producer a i states t j s)
  end.
Fixpoint producers (a : rtapp) (i : nat) (fs : list fn) (N : sts) (t : table) : table :=
  match fs, N with
  | f :: fs', l :: N' => producers a (1 + i) fs' N' (outputs a i (map fst l) 0 (f_out f) t)
  | _, _ => t
  end.

(** 2311-2356: the ranges of all the producers, one after the other; Ranges is
    a matrix with two columns.  None: one of them has no Ranges. *)
Fixpoint all_ranges (fs : list fn) (l : list (nat * nat)) : option (list (Z * Z)) :=
  match l with
  | [] => Some []
  | (i, j) :: l' =>
      match nth_error fs i with
      | None => None
      | Some f =>
          match nth_error (f_out f) j with
          | None => None
          | Some s =>
              match q_ranges (g_sig s), all_ranges fs l' with
              | Some rs, Some r => Some (rs ++ r)
              | _, _ => None
              end
          end
      end
  end.
(** BuildProducersRanges and CheckProducersRanges. *)
Definition producers_ranges (fs : list fn) (l : list (nat * nat)) : bool :=
  match all_ranges fs l with Some rs => check_ranges rs | None => false end.

(** 2249-2284 for one signal in one state; a place is in the table when it has
    a producer. *)
Definition verify_place (a : rtapp) (x : place * list (nat * nat)) : bool :=
  let '(d, _, _) := fst x in
  if String.eqb d (x_timing a) then false
  else if x_multi a then
    if 1 <? List.length (snd x) then producers_ranges (x_functions a) (snd x) else true
  else true.

(** 86-131 and 133-178 *)
Definition configure (a : rtapp) (states : option sts) : bool :=
  match states with
  | None => false
  | Some N =>
      match build (app_of a) with
      | None => false
      | Some _ => forallb (verify_place a) (producers a 0 (x_functions a) N [])
      end
  end.
Definition configure_after (a : rtapp) : bool := configure a (states_after a).
Definition configure_before (a : rtapp) : bool := configure a (states_before a).
