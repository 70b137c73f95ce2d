(** Who runs where and who writes what, without the builder. *)
From Coq Require Import ZArith List Bool String.
From Verif Require Import Base SigMem_Model Prod_Model.
Import ListNotations.
Open Scope string_scope. Open Scope nat_scope. Open Scope list_scope.

(** The GAM called [n] is [p] or is in the container [p]. *)
Definition within (p n : string) : Prop := n = p \/ exists r, n = (p ++ "." ++ r)%string.

(** In the state [s] the thread [T] runs the function number [i]. *)
Definition runs (a : rtapp) (s : state) (T : thread) (i : nat) : Prop :=
  In s (x_states a) /\ In T (s_threads s) /\
  exists p f, In p (t_functions T) /\ nth_error (x_functions a) i = Some f /\ within p (f_name f).

(** The output signal number [j] of the function number [i]. *)
Definition output (a : rtapp) (i j : nat) (s : fsignal) : Prop :=
  exists f x, nth_error (x_functions a) i = Some f /\ nth_error (f_out f) j = Some x /\ g_sig x = s.

(** The data source of a signal and its name there. *)
Definition source (a : rtapp) (s : fsignal) : string :=
  match q_ds s with Some n => n | None => x_default a end.
Definition name_there (s : fsignal) : string :=
  match q_alias s with Some n => if String.eqb n "" then q_name s else n | None => q_name s end.
Definition same_signal (a : rtapp) (s1 s2 : fsignal) : Prop :=
  source a s1 = source a s2 /\ name_there s1 = name_there s2.

(** The element number [e] of the data source's signal belongs to the signal of
    the function: all of them do, unless Ranges is given. *)
Definition element (s : fsignal) (e : Z) : Prop :=
  match q_ranges s with
  | None => True
  | Some rs => exists r, In r rs /\ (fst r <= e <= snd r)%Z
  end.

(** A synchronising signal of a function: a direction and a number. *)
Definition sync_signal (a : rtapp) (i : nat) (out : bool) (j : nat) : Prop :=
  exists f x, nth_error (x_functions a) i = Some f /\
              nth_error (if out then f_out f else f_in f) j = Some x /\ g_sync x = true.

(** Names are names: no two functions, no two states and no two threads of a
    state have the same one. *)
Definition distinct_names (a : rtapp) : Prop :=
  NoDup (map f_name (x_functions a)) /\ NoDup (map s_name (x_states a)) /\
  Forall (fun s => NoDup (map t_name (s_threads s))) (x_states a).

(** How many synchronising signals a thread waits for in a cycle: a function
    that is listed twice runs twice. *)
Definition belongs (p n : string) : bool := String.eqb p n || String.prefix (p ++ ".") n.
Definition waits (f : fn) : nat := List.length (filter g_sync (f_in f ++ f_out f)).
Definition cycle_waits (a : rtapp) (T : thread) : nat :=
  list_sum (flat_map (fun p => map waits (filter (fun f => belongs p (f_name f)) (x_functions a))) (t_functions T)).

(** No element is twice in the ranges. *)
Definition no_common (rs1 rs2 : list (Z * Z)) : Prop :=
  forall r1 r2 e, In r1 rs1 -> In r2 rs2 -> ~ ((fst r1 <= e <= snd r1)%Z /\ (fst r2 <= e <= snd r2)%Z).
Fixpoint no_repeats (rs : list (Z * Z)) : Prop :=
  match rs with
  | [] => True
  | r :: rs' => no_common [r] rs' /\ no_repeats rs'
  end.

(** The ranges are given as first and last element. *)
Definition ascending (a : rtapp) : Prop :=
  forall i j s rs, output a i j s -> q_ranges s = Some rs -> Forall (fun r => (fst r <= snd r)%Z) rs.

(** The rules of an application. *)
Record rules (a : rtapp) : Prop := Rules
  { (** the memory of its signals can be built *)
    r_memory : build (app_of a) <> None;
    (** the threads run functions that exist *)
    r_exist : forall s T p, In s (x_states a) -> In T (s_threads s) -> In p (t_functions T) ->
                exists f, In f (x_functions a) /\ within p (f_name f);
    (** in a state a function runs in one thread *)
    r_one_thread : x_same a = true ->
                   forall s T1 T2 i, runs a s T1 i -> runs a s T2 i -> T1 = T2;
    (** a thread waits for one signal at most *)
    r_one_wait : forall s T, In s (x_states a) -> In T (s_threads s) -> cycle_waits a T <= 1;
    (** the times are not written by functions *)
    r_times : forall s T i j x, runs a s T i -> output a i j x -> source a x <> x_timing a;
    (** in a state the writers of a signal have parts of it that do not meet *)
    r_writers : x_multi a = true ->
                forall s T1 i1 j1 x1 T2 i2 j2 x2,
                  runs a s T1 i1 -> output a i1 j1 x1 -> runs a s T2 i2 -> output a i2 j2 x2 ->
                  same_signal a x1 x2 -> (i1, j1) <> (i2, j2) ->
                  match q_ranges x1, q_ranges x2 with
                  | Some rs1, Some rs2 => no_common rs1 rs2 /\ no_repeats rs1 /\ no_repeats rs2
                  | _, _ => False
                  end }.

(** The container Threads is among the first objects of the state. *)
Definition threads_near (a : rtapp) : Prop := forall s, In s (x_states a) -> s_before s < x_children a.
(** Every function a thread lists is a GAM. *)
Definition no_groups (a : rtapp) : Prop :=
  forall s T p n, In s (x_states a) -> In T (s_threads s) -> In p (t_functions T) ->
    In n (map f_name (x_functions a)) -> within p n -> n = p.
