(** C52: the fast scheduler gives each configured thread a thread of its pool, on the configured CPUs. *)
From Coq Require Import Lia.
From Verif Require Import Base Fmap_Model Fmap_Spec Fmap_Proofs Fmap_Proofs2 Fmap_Proofs3.
Open Scope nat_scope.

(** Whatever the states, if the pool is set up then in every state each configured thread is executed by a pool thread of its own and the
    other pool threads execute nothing. *)
Theorem C52_works_partial : forall app p, no_all app -> setup app = Some p ->
  forall i ths, nth_error app i = Some ths -> exists tab own, prepare app p i = Some tab /\ length tab = length (pmask p)
    /\ nth_error (pmap p) i = Some own /\ works tab ths own.
Proof. intros app p NA H. apply (setup_distinct app p NA H). Qed.
Print Assumptions C52_works_partial.

(** If the states but the last need more and more threads of each mask then the pool is set up and in every state each configured thread is
    executed by a pool thread of its own on the CPUs of its mask. *)
Theorem C52_pinned_partial : forall app, no_all app -> growing app -> exists p, setup app = Some p /\
  forall i ths, nth_error app i = Some ths -> exists tab own, prepare app p i = Some tab /\ works tab ths own /\ pinned (pmask p) ths own.
Proof.
  intros app NA G. destruct (setup_growing app NA G) as (p & E & P). exists p. split; [exact E|].
  intros i ths Hi. destruct (proj2 (setup_distinct app p NA E) i ths Hi) as (tab & own & A & _ & B & C).
  exists tab, own. split; [exact A|]. split; [exact C|]. exact (P i ths own Hi B).
Qed.
Print Assumptions C52_pinned_partial.

(** In particular for applications of one or two states, whatever their threads. *)
Theorem C52_two_states : forall app, no_all app -> length app <= 2 -> exists p, setup app = Some p /\
  forall i ths, nth_error app i = Some ths -> exists tab own, prepare app p i = Some tab /\ works tab ths own /\ pinned (pmask p) ths own.
Proof.
  intros app NA L. apply C52_pinned_partial; [exact NA|].
  intros i j s u c Hij Hj Hs Hu. assert (i = j) as -> by lia. assert (s = u) as -> by congruence. lia.
Qed.
Print Assumptions C52_two_states.

(** The pool is as small as it can be: any pool with a thread for each configured thread of each state, with its mask, is as large. *)
Theorem C52_smallest : forall app p ms, no_all app -> setup app = Some p -> enough ms app -> length (pmask p) <= length ms.
Proof.
  intros app p ms NA H En. rewrite (proj1 (setup_distinct app p NA H)). apply threads_le.
  intros c. unfold maxc. apply max_cpus_le; [lia|]. intros r Hr. apply in_map_iff in Hr. destruct Hr as (s & <- & Hs). apply (En s c Hs).
Qed.
Print Assumptions C52_smallest.

(** * The hypotheses are met *)
Definition example : list state :=
  [ [Thread 1 [10]; Thread 2 [11; 12]]; [Thread 2 [20]; Thread 1 [21]; Thread 2 [22; 23]]; [Thread 4 [30]; Thread 1 [31]] ].
Example C52_example : no_all example /\ growing example /\
  match setup example with
  | Some p => pmask p = [Some 1%Z; Some 2%Z; Some 2%Z; Some 4%Z] /\ pmap p = [[0; 1]; [1; 0; 2]; [3; 0]] /\
              prepare example p 1 = Some [Some [21]; Some [20]; Some [22; 23]; None]
  | None => False
  end.
Proof.
  split; [|split].
  - intros s t Hs Ht. cbn in Hs. repeat (destruct Hs as [<-|Hs]; [cbn in Ht; repeat (destruct Ht as [<-|Ht]; [vm_compute; discriminate|]); destruct Ht|]). destruct Hs.
  - intros i j s u c Hij Hj Hs Hu. cbn [length example] in Hj.
    assert (i = 0 /\ j = 0 \/ i = 0 /\ j = 1 \/ i = 1 /\ j = 1) as [[-> ->]|[[-> ->]|[-> ->]]] by lia; cbn in Hs, Hu;
      injection Hs as <-; injection Hu as <-; unfold how_many; cbn [map mask count_occ];
      repeat (match goal with |- context [Z.eq_dec ?a c] => destruct (Z.eq_dec a c) end); lia.
  - vm_compute. auto.
Qed.

(** * Findings *)
(** Three states whose threads have three different masks: a thread of the first state does not run on its CPUs, because a pool thread that
    the state before does not use is taken for a new one. *)
Theorem C52_three_states_refuted : exists app, no_all app /\ exists p, setup app = Some p /\
  exists ths own, nth_error app 0 = Some ths /\ nth_error (pmap p) 0 = Some own /\ ~ pinned (pmask p) ths own.
Proof.
  exists [ [Thread 1 [10]]; [Thread 2 [20]]; [Thread 4 [30]] ]. split.
  - intros s t Hs Ht. cbn in Hs. repeat (destruct Hs as [<-|Hs]; [cbn in Ht; repeat (destruct Ht as [<-|Ht]; [vm_compute; discriminate|]); destruct Ht|]). destruct Hs.
  - eexists. split; [vm_compute; reflexivity|]. eexists. eexists. split; [reflexivity|]. split; [reflexivity|].
    intros H. specialize (H 0 _ 0 eq_refl eq_refl). vm_compute in H. discriminate.
Qed.
Print Assumptions C52_three_states_refuted.

(** Four states of at most three threads: no pool thread is found for the last one, and a cell outside of the map is written. *)
Theorem C52_no_thread_refuted : exists app, no_all app /\ setup app = None.
Proof.
  exists [ [Thread 2 [10]]; [Thread 4 [20]]; [Thread 1 [30]; Thread 2 [31]; Thread 4 [32]]; [Thread 2 [40]; Thread 1 [41]] ]. split.
  - intros s t Hs Ht. cbn in Hs. repeat (destruct Hs as [<-|Hs]; [cbn in Ht; repeat (destruct Ht as [<-|Ht]; [vm_compute; discriminate|]); destruct Ht|]). destruct Hs.
  - vm_compute. reflexivity.
Qed.
Print Assumptions C52_no_thread_refuted.

(** Two threads of a state configured for all the 64 CPUs: only one of them is executed. *)
Theorem C52_all_cpus_refuted : exists app p tab, setup app = Some p /\ prepare app p 0 = Some tab /\
  (forall own ths, nth_error app 0 = Some ths -> ~ works tab ths own) /\ ~ In (Some [10]) tab.
Proof.
  exists [ [Thread all_cpus [10]; Thread all_cpus [11]] ]. eexists. eexists. split; [vm_compute; reflexivity|]. split; [vm_compute; reflexivity|]. split.
  - intros own ths E (_ & L & W & _). cbn in E. injection E as <-. destruct own as [|p [|q own]]; try discriminate.
    specialize (W 0 _ p eq_refl eq_refl). cbn [work] in W. apply nth_error_In in W. cbn in W. intuition congruence.
  - cbn. intuition congruence.
Qed.
Print Assumptions C52_all_cpus_refuted.
