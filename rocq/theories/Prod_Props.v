(** C51: what a successful configuration means for the threads and the writers. *)
From Coq Require Import ZArith List Bool String Lia PeanoNat.
From Verif Require Import Base Broker_Model SigMem_Model Prod_Model Prod_Spec Prod_Proofs Prod_Before.
Import ListNotations.
Open Scope string_scope. Open Scope nat_scope. Open Scope list_scope.

(** An application is configured only if the rules hold. *)
Theorem C51_rules :
  forall a, distinct_names a -> configure_after a = true -> rules a.
Proof. intros a D H. apply (accepted_rules a D H). Qed.
Print Assumptions C51_rules.

(** With both checks on, in every state every element of a signal has one
    writer: one output signal of one function in one thread. *)
Theorem C51_one_writer :
  forall a, distinct_names a -> x_same a = true -> x_multi a = true -> configure_after a = true ->
    forall s T1 i1 j1 x1 T2 i2 j2 x2 e,
      runs a s T1 i1 -> output a i1 j1 x1 -> element x1 e ->
      runs a s T2 i2 -> output a i2 j2 x2 -> element x2 e ->
      same_signal a x1 x2 ->
      T1 = T2 /\ i1 = i2 /\ j1 = j2.
Proof.
  intros a D SM MU H s T1 i1 j1 x1 T2 i2 j2 x2 e R1 O1 E1 R2 O2 E2 SS.
  destruct (accepted_rules a D H) as [R _].
  destruct (Nat.eq_dec i1 i2) as [EI|NI]; [destruct (Nat.eq_dec j1 j2) as [EJ|NJ]|].
  - subst. split; [exact (r_one_thread _ R SM _ _ _ _ R1 R2)|auto].
  - exfalso. assert (NE : (i1, j1) <> (i2, j2)) by congruence.
    pose proof (r_writers _ R MU _ _ _ _ _ _ _ _ _ R1 O1 R2 O2 SS NE) as C. unfold element in E1, E2.
    destruct (q_ranges x1) as [rs1|]; [|contradiction]. destruct (q_ranges x2) as [rs2|]; [|contradiction].
    destruct C as [C _]. destruct E1 as (r1 & I1 & B1). destruct E2 as (r2 & I2 & B2). exact (C r1 r2 e I1 I2 (conj B1 B2)).
  - exfalso. assert (NE : (i1, j1) <> (i2, j2)) by congruence.
    pose proof (r_writers _ R MU _ _ _ _ _ _ _ _ _ R1 O1 R2 O2 SS NE) as C. unfold element in E1, E2.
    destruct (q_ranges x1) as [rs1|]; [|contradiction]. destruct (q_ranges x2) as [rs2|]; [|contradiction].
    destruct C as [C _]. destruct E1 as (r1 & I1 & B1). destruct E2 as (r2 & I2 & B2). exact (C r1 r2 e I1 I2 (conj B1 B2)).
Qed.
Print Assumptions C51_one_writer.

(** A thread waits for one synchronising signal at most. *)
Theorem C51_one_wait :
  forall a, distinct_names a -> configure_after a = true ->
    forall s T i1 o1 j1 i2 o2 j2,
      runs a s T i1 -> sync_signal a i1 o1 j1 -> runs a s T i2 -> sync_signal a i2 o2 j2 ->
      i1 = i2 /\ o1 = o2 /\ j1 = j2.
Proof.
  intros a D H s T i1 o1 j1 i2 o2 j2 R1 S1 R2 S2. destruct (accepted_rules a D H) as [R _].
  apply (one_wait a s T); auto; [apply D|]. destruct R1 as (I & J & _). exact (r_one_wait _ R _ _ I J).
Qed.
Print Assumptions C51_one_wait.

(** An application that keeps the rules is configured, if the containers of the
    threads are found. *)
Theorem C51_accepts_partial :
  forall a, distinct_names a -> ascending a -> threads_near a -> rules a -> configure_after a = true.
Proof. intros a D A N R. exact (rules_accepted a D A R N). Qed.
Print Assumptions C51_accepts_partial.

(** Without containers of GAMs it does not matter whether the application is
    configured before or after its objects are made. *)
Theorem C51_before_partial :
  forall a, distinct_names a -> no_groups a -> threads_near a -> configure_before a = configure_after a.
Proof. exact before_after. Qed.
Print Assumptions C51_before_partial.

(** * Cases *)

Definition u32 (n : Z) : props := Props (Some "uint32") (Some 1%Z) (Some n) None.
Definition whole (name : string) (n : Z) : sig := Sig (FSignal (Some "DDB") name None (u32 n) None None) false.
Definition part (name : string) (n lo hi : Z) : sig := Sig (FSignal None name (Some "V") (u32 n) None (Some [(lo, hi)])) false.
Definition tick : sig := Sig (FSignal (Some "Timer") "Counter" None (u32 1) None None) true.

(** Two states; in the first one two threads write the two halves of V, in the
    second one a container of GAMs runs. *)
Definition ex : rtapp :=
  RtApp "DDB"
    [DSource "DDB" false []; DSource "Timer" true [("Counter", u32 1)]; DSource "Timings" false []] "Timings"
    [Fn "Clock" [tick] [whole "Time" 1];
     Fn "Left" [whole "Time" 1] [part "L" 8 0 3];
     Fn "Safe.Right" [whole "Time" 1] [part "R" 8 4 7];
     Fn "Safe.Watch" [part "All" 8 0 7] [whole "Alarm" 1]]
    [State "Run" 0 [Thread "T1" ["Clock"; "Left"]; Thread "T2" ["Safe.Right"]];
     State "Stop" 0 [Thread "T1" ["Clock"; "Safe"]]]
    4 true true.

Lemma ex_runs i : runs ex (State "Run" 0 [Thread "T1" ["Clock"; "Left"]; Thread "T2" ["Safe.Right"]])
                       (Thread "T1" ["Clock"; "Left"]) i <-> i = 0 \/ i = 1.
Proof.
  split.
  - intros (_ & _ & p & f & Ip & Hf & W).
    destruct i as [|[|[|[|i]]]]; auto; [| |destruct i; discriminate]; injection Hf as <-; exfalso.
    + destruct Ip as [<-|[<-|[]]]; destruct W as [W|(r & W)]; discriminate.
    + destruct Ip as [<-|[<-|[]]]; destruct W as [W|(r & W)]; discriminate.
  - intros [->| ->]; split; [now left|split; [now left|]| now left|split; [now left|]].
    + exists "Clock", (Fn "Clock" [tick] [whole "Time" 1]). cbn. split; [auto|]. split; [reflexivity|now left].
    + exists "Left", (Fn "Left" [whole "Time" 1] [part "L" 8 0 3]). cbn. split; [auto|]. split; [reflexivity|now left].
Qed.

Lemma ex_names : distinct_names ex.
Proof.
  unfold distinct_names. split; [|split].
  - cbn. repeat constructor; cbn; intuition discriminate.
  - cbn. repeat constructor; cbn; intuition discriminate.
  - cbn. repeat constructor; cbn; intuition discriminate.
Qed.
Example C51_case : distinct_names ex /\ configure_after ex = true /\ configure_before ex = true /\
  (** one element more and the halves meet *)
  configure_after
    (RtApp (x_default ex) (x_ds ex) (x_timing ex)
       [Fn "Clock" [tick] [whole "Time" 1]; Fn "Left" [whole "Time" 1] [part "L" 8 0 4];
        Fn "Safe.Right" [whole "Time" 1] [part "R" 8 4 7]; Fn "Safe.Watch" [part "All" 8 0 7] [whole "Alarm" 1]]
       (x_states ex) 4 true true) = false /\
  (** a second thread with the clock *)
  configure_after
    (RtApp (x_default ex) (x_ds ex) (x_timing ex) (x_functions ex)
       [State "Run" 0 [Thread "T1" ["Clock"; "Left"]; Thread "T2" ["Clock"; "Safe.Right"]]] 4 true true) = false /\
  (** the same twice in the thread: it would wait twice in a cycle *)
  configure_after
    (RtApp (x_default ex) (x_ds ex) (x_timing ex) (x_functions ex)
       [State "Run" 0 [Thread "T1" ["Clock"; "Left"; "Clock"]]] 4 true true) = false.
Proof. split; [exact ex_names|]. vm_compute. repeat split; reflexivity. Qed.

Example C51_accepts_case : ascending ex /\ threads_near ex /\ rules ex.
Proof.
  split; [|split].
  - intros i j s rs (f & x & Hf & Hx & <-) Hr.
    destruct i as [|[|[|[|i]]]]; cbn in Hf; [injection Hf as <-..|destruct i; discriminate];
      destruct j as [|[|j]]; try discriminate; injection Hx as <-; try discriminate; injection Hr as <-; repeat constructor; cbn; lia.
  - intros s [<-|[<-|[]]]; cbn; lia.
  - apply C51_rules; [exact ex_names|vm_compute; reflexivity].
Qed.

(** No groups: every thread lists GAMs. *)
Definition ex_flat : rtapp :=
  RtApp (x_default ex) (x_ds ex) (x_timing ex) (x_functions ex)
    [State "Run" 0 [Thread "T1" ["Clock"; "Left"]; Thread "T2" ["Safe.Right"]]] 4 true true.
Example C51_before_case : distinct_names ex_flat /\ no_groups ex_flat /\ threads_near ex_flat /\ configure_before ex_flat = true.
Proof.
  split; [|split; [|split; [|vm_compute; reflexivity]]].
  - unfold distinct_names. cbn. split; [|split]; repeat constructor; cbn; intuition discriminate.
  - intros s T p n Is IT Ip In' W. destruct Is as [<-|[]]. destruct W as [W|(r & ->)]; [exact W|]. exfalso.
    cbn in IT. destruct IT as [<-|[<-|[]]]; cbn in Ip.
    + destruct Ip as [<-|[<-|[]]]; cbn in In'; destruct In' as [H|[H|[H|[H|[]]]]]; discriminate.
    + destruct Ip as [<-|[]]; cbn in In'; destruct In' as [H|[H|[H|[H|[]]]]]; discriminate.
  - intros s [<-|[]]; cbn; lia.
Qed.

(** * What the full property would say, and does not hold *)

(** The container Threads is looked for among the first objects of a state only,
    as many as there are in the application: an application that keeps the
    rules is refused. *)
Theorem C51_threads_far_refuted :
  exists a, distinct_names a /\ ascending a /\ rules a /\ configure_before a = true /\ configure_after a = false.
Proof.
  exists (RtApp (x_default ex_flat) (x_ds ex_flat) (x_timing ex_flat) (x_functions ex_flat)
            (map (fun s => State (s_name s) 4 (s_threads s)) (x_states ex_flat)) 4 true true).
  destruct C51_accepts_case as [A _].
  assert (D : distinct_names (RtApp (x_default ex_flat) (x_ds ex_flat) (x_timing ex_flat) (x_functions ex_flat)
            (map (fun s => State (s_name s) 4 (s_threads s)) (x_states ex_flat)) 4 true true)).
  { unfold distinct_names. cbn. split; [|split]; repeat constructor; cbn; intuition discriminate. }
  split; [exact D|]. split; [exact A|]. split; [|split; vm_compute; reflexivity].
  pose (b := RtApp (x_default ex_flat) (x_ds ex_flat) (x_timing ex_flat) (x_functions ex_flat)
            (map (fun s => State (s_name s) 4 (s_threads s)) (x_states ex_flat)) 5 true true).
  assert (R : rules b) by (apply C51_rules; [exact D|vm_compute; reflexivity]).
  destruct R as [R1 R2 R3 R4 R5 R6]. constructor.
  - exact R1.
  - exact R2.
  - exact R3.
  - exact R4.
  - exact R5.
  - exact R6.
Qed.
Print Assumptions C51_threads_far_refuted.

(** Configured before the objects are made, a container of GAMs makes the
    builder take a function of the container for a function outside that has
    the name that the first has in the container: two functions that write all
    of the same signal in the same state are accepted. *)
Definition ex_clash : rtapp :=
  RtApp "DDB" [DSource "DDB" false []; DSource "Timings" false []] "Timings"
    [Fn "G.A" [] [whole "X" 1]; Fn "A" [] [whole "X" 1]]
    [State "Run" 0 [Thread "T" ["G"; "A"]]] 4 true true.
Theorem C51_before_writers_refuted :
  exists a s T1 i1 j1 x1 T2 i2 j2 x2 e,
    distinct_names a /\ x_same a = true /\ x_multi a = true /\ configure_before a = true /\
    runs a s T1 i1 /\ output a i1 j1 x1 /\ element x1 e /\
    runs a s T2 i2 /\ output a i2 j2 x2 /\ element x2 e /\ same_signal a x1 x2 /\ i1 <> i2 /\
    configure_after a = false.
Proof.
  exists ex_clash, (State "Run" 0 [Thread "T" ["G"; "A"]]), (Thread "T" ["G"; "A"]), 0, 0, (g_sig (whole "X" 1)),
    (Thread "T" ["G"; "A"]), 1, 0, (g_sig (whole "X" 1)), 0%Z.
  split; [unfold distinct_names; cbn; split; [|split]; repeat constructor; cbn; intuition discriminate|].
  split; [reflexivity|]. split; [reflexivity|]. split; [vm_compute; reflexivity|].
  split.
  { split; [now left|]. split; [now left|]. exists "G", (Fn "G.A" [] [whole "X" 1]). cbn. split; [auto|]. split; [reflexivity|].
    right. exists "A". reflexivity. }
  split; [exists (Fn "G.A" [] [whole "X" 1]), (whole "X" 1); auto|]. split; [exact I|].
  split.
  { split; [now left|]. split; [now left|]. exists "A", (Fn "A" [] [whole "X" 1]). cbn. split; [auto|]. split; [reflexivity|now left]. }
  split; [exists (Fn "A" [] [whole "X" 1]), (whole "X" 1); auto|]. split; [exact I|].
  split; [split; reflexivity|]. split; [discriminate|]. vm_compute. reflexivity.
Qed.
Print Assumptions C51_before_writers_refuted.

(** CheckSameGamInMoreThreads = 0 is not applied to containers of GAMs when the
    application is configured before its objects are made. *)
Theorem C51_before_flag_refuted :
  exists a, distinct_names a /\ threads_near a /\ x_same a = false /\ configure_after a = true /\ configure_before a = false.
Proof.
  exists (RtApp "DDB" [DSource "DDB" false []; DSource "Timings" false []] "Timings"
    [Fn "G.A" [] [whole "X" 1]] [State "Run" 0 [Thread "T" ["G"]; Thread "U" ["G"]]] 4 false true).
  split; [unfold distinct_names; cbn; split; [|split]; repeat constructor; cbn; intuition discriminate|].
  split; [intros s [<-|[]]; cbn; lia|]. split; [reflexivity|]. split; vm_compute; reflexivity.
Qed.
Print Assumptions C51_before_flag_refuted.
