(** C43: the real time scheduler executes the state that was started, and only that. *)
From Coq Require Import String.
From Verif Require Import Base Conc Sched_Model Sched_Spec Sched_Proofs Sched_Proofs2 Sched_Proofs3 Sched_Proofs4.
Open Scope nat_scope.
Open Scope list_scope.

Section Facts.
Variable states : list (string * list (list exec)).
Lemma find_declared_gen name : forall l i n, find_state l name i = Some n ->
  exists k x, n = i + k /\ nth_error l k = Some (name, x) /\ List.find (fun p => String.eqb name (fst p)) l = Some (name, x).
Proof.
  induction l as [|[m x] l IH]; intros i n E; [discriminate|]. cbn in E |- *. destruct (String.eqb name m) eqn:Q.
  - injection E as <-. apply String.eqb_eq in Q. subst m. exists 0, x. split; [lia|auto].
  - destruct (IH _ _ E) as (k & y & -> & A & B). exists (S k), y. split; [lia|auto].
Qed.
Lemma find_declared name n : find_state states name 0 = Some n -> nth_error states n = Some (name, threads_of states n) /\ declared states name = Some (threads_of states n).
Proof.
  intros E. destruct (find_declared_gen _ _ _ _ E) as (k & x & -> & A & B). cbn. unfold threads_of, declared. rewrite A, B. auto.
Qed.
Lemma declared_find name l : declared states name = Some l -> exists n, find_state states name 0 = Some n.
Proof.
  unfold declared. generalize 0. induction states as [|[m x] st IH]; intros i; cbn; [discriminate|]. destruct (String.eqb name m); [eauto|]. apply IH.
Qed.
End Facts.

(** * The order of the executables of a thread *)
(** The table of a thread lists, function by function, its readers, itself and its writers: nothing is left out, repeated or written
    outside of the table.  [good]: the brokers exist and the timing signals exist. *)
Theorem C43_thread_table gs : Forall good gs -> table gs = IOk (map Some (thread_order gs)) (length (thread_order gs)).
Proof. apply table_good. Qed.
Theorem C43_thread_table_inside gs : match table gs with IUndef => False | IFalse => True | IOk a n => a = map Some (thread_order gs) /\ n = length a end.
Proof. apply table_ok. Qed.

(** * Clients that stop the current state and prepare the next one before they start it *)
Section Safety.
Variable states : list (string * list (list exec)).
Notation run := (Conc.exec (step states false) init).

(** Since the last start each thread has executed exactly cycles over the executables of that thread of the state that was started: in
    order, from the first to the last or to the first one that failed. *)
Theorem C43_cycles sch s i : run sch = Some s -> disciplined (log s) -> runs i (log s) <> [] ->
  exists name l es, in_force (log s) = Some name /\ declared states name = Some l /\ nth_error l i = Some es /\ cycles es (runs i (log s)).
Proof.
  intros E D R. destruct (i_runs _ _ (inv_exec _ _ _ E D) i) as [Q|(name & n & es & A & B & C & F)]; [contradiction|].
  exists name, (threads_of states n), es. split; auto. split; [apply find_declared; exact B|auto].
Qed.
(** Nothing is executed while the application is stopped. *)
Theorem C43_silent_when_stopped sch s post pre b i e o : run sch = Some s -> disciplined (log s) -> log s = post ++ ERun b i e o :: pre -> stopped pre = false.
Proof.
  intros E D L. pose proof (i_log _ _ (inv_exec _ _ _ E D)) as W. rewrite L in W. clear - W. induction post as [|x post IH]; cbn in W; [apply W|]. destruct x; try exact (IH W). apply IH, W.
Qed.
(** No thread uses a record that does not exist, has been freed or belongs to another state, and no thread outlives its object. *)
Theorem C43_no_bad_access sch s : run sch = Some s -> disciplined (log s) -> ~ In EBad (log s).
Proof. intros E D. exact (i_bad _ _ (inv_exec _ _ _ E D)). Qed.
(** Between calls the signal CurrentState is the position of the state that was started. *)
Theorem C43_current_state sch s name : run sch = Some s -> disciplined (log s) -> ctl s = CIdle -> in_force (log s) = Some name ->
  exists l, nth_error states (cur s) = Some (name, l) /\ declared states name = Some l.
Proof.
  intros E D C IF. destruct (i_cur _ _ (inv_exec _ _ _ E D)) with (name := name) as (n & g & H1 & H2 & H3 & H4 & H5); auto; [rewrite C; discriminate|].
  rewrite H3 by (rewrite C; discriminate). exists (threads_of states n). apply find_declared. exact H1.
Qed.
(** StartNextStateExecution succeeds; a PrepareNextState that succeeds was for a state that exists. *)
Theorem C43_results sch s a s' o ok : run sch = Some s -> disciplined (log s) -> step states false s a = Some s' -> log s' = ERet o ok :: log s ->
  match o with OStart => ok = true | OPrepare name => ok = true -> declared states name <> None | OStop => True end.
Proof.
  intros E D S L. pose proof (inv_exec _ _ _ E D) as IV. assert (NC : forall x, x :: log s <> log s) by (intros x Z; apply (f_equal (@length _)) in Z; cbn in Z; lia).
  destruct a as [o1|ok1|b i o1|b i]; cbn [step] in S.
  - destruct (ctl s); try discriminate. injection S as <-. discriminate.
  - assert (C : ctl s = CRet o ok).
    { unfold cstep in S. destruct (ctl s) as [|?|?|? ?|? ?|o2 k second i|? ? ? ?|? ?|? ?|? ? ?| | | | | |o2 ok2]; try discriminate S;
        repeat match type of S with context[match ?x with _ => _ end] => destruct x; try discriminate S end; injection S as <-; cbn [log set_ctl add set_svc] in L;
        try (symmetry in L; contradiction (NC _ L)); try discriminate L; congruence. }
    pose proof (i_ctl _ _ IV) as K. unfold Sched_Proofs.ctl_ok in K. rewrite C in K. destruct o; auto. intros ->. destruct K as (n & g & (P & _) & _).
    destruct (find_declared _ _ _ P) as (_ & Q). rewrite Q. discriminate.
  - destruct (svc s b) as [ts|]; [|discriminate]. destruct (nth_error ts i) as [t|]; [|discriminate]. destruct (tstep s b i t o1) as [[t' es]|] eqn:T; [|discriminate]. injection S as <-.
    exfalso. cbn [log set_svc] in L. unfold tstep in T. destruct (pc t) as [| | | | | | | |x g rest|x g|]; try discriminate T;
      repeat match type of T with context[match ?x with _ => _ end] => destruct x end; injection T as _ <-; cbn in L; try (symmetry in L; contradiction (NC _ L)); discriminate L.
  - discriminate.
Qed.

(** * Clients that also stop before they prepare *)
(** Every call can always return: whatever has happened, the threads and the client can go on until it does. *)
Theorem C43_calls_return sch s : run sch = Some s -> strict (log s) ->
  exists sch' s', Forall no_call sch' /\ Conc.exec (step states false) s sch' = Some s' /\ ctl s' = CIdle.
Proof.
  intros E D. destruct (linv_exec _ _ _ E D) as (IV & LV).
  apply (returns states (crank states s) (match ctl s with CWaitDead o k second i => match svc s (target s k) with Some ts => match nth_error ts i with Some t => trank states (pc t) | None => 0 end | None => 0 end | _ => 0 end) s IV LV D (le_n _)).
  intros o k second i ts t Q1 Q2 Q3. rewrite Q1, Q2, Q3. lia.
Qed.
(** ... and it does return under every fair schedule: the client can act, and every action of it brings the call nearer to its end, or it
    waits for a thread that can act and every action of which brings the thread nearer to its end. *)
Theorem C43_calls_progress sch s : run sch = Some s -> strict (log s) -> ctl s <> CIdle ->
  (forall ok, exists s', step states false s (AClient ok) = Some s' /\ crank states s' < crank states s) \/
  (exists i, forall out, exists ts t t' s', step states false s (AThread (index s) i out) = Some s' /\
     svc s (index s) = Some ts /\ nth_error ts i = Some t /\ svc s' (index s) = Some (set_nth ts i t') /\ trank states (pc t') < trank states (pc t)).
Proof.
  intros E D NI. destruct (linv_exec _ _ _ E D) as (IV & LV). destruct (progress states s IV LV NI) as [P|(o & second & i & C & P)].
  - left. intros ok. destruct (P ok) as (s' & S). exists s'. split; auto. exact (crank_step _ _ _ _ S).
  - right. exists i. intros out. destruct (P out) as (ts & t & t' & evs & SV & N & T & LT). exists ts, t, t'. eexists. cbn [step]. rewrite SV, N, T. split; [reflexivity|].
    split; [reflexivity|]. split; [reflexivity|]. split; [|exact LT]. cbn. apply updb_same.
Qed.
(** As long as the state is not stopped each of its threads goes on: within seven of its own steps it executes its next executable. *)
Theorem C43_threads_go_on sch s name l i es out : run sch = Some s -> strict (log s) -> ctl s = CIdle -> stopped (log s) = false ->
  in_force (log s) = Some name -> declared states name = Some l -> nth_error l i = Some es -> es <> [] ->
  exists m s' e, m <= 7 /\ Conc.exec (step states false) s (repeat (AThread (index s) i out) m) = Some s' /\ log s' = ERun (index s) i e out :: log s.
Proof.
  intros E D C SF IF DL NE NES. destruct (linv_exec _ _ _ E D) as (IV & LV). destruct (declared_find _ _ _ DL) as (n & F). destruct (find_declared _ _ _ F) as (_ & Q). rewrite DL in Q. injection Q as ->.
  apply (live_run states name n i es out F NE NES 7 s IV LV D C SF IF). intros ts t SV N.
  destruct (live_step states s name n i es out IV LV C SF IF F NE NES) as (ts1 & t1 & t' & evs & SV1 & N1 & TL & _). rewrite SV in SV1. injection SV1 as <-. rewrite N in N1. injection N1 as <-. lia.
Qed.
End Safety.

(** * What does not hold *)
Definition two := [("A"%string, [[10; 11]; [20]]); ("B"%string, [[30; 31]])].
Definition c (n : nat) : list action := repeat (AClient true) n.
(** A start without a stop: a thread of the old state reads beyond the table of the new one. *)
Theorem C43_start_without_stop_refuted :
  exists sch s, Conc.exec (step two false) init sch = Some s /\ prepared (log s) = None /\ In EBad (log s).
Proof.
  exists ([ACall (OPrepare "A")] ++ c 10 ++ [ACall OStart] ++ c 5 ++ repeat (AThread false 1 Ran) 4 ++ [ACall (OPrepare "B")] ++ c 9 ++ [ACall OStart] ++ c 5 ++ repeat (AThread false 1 Ran) 2).
  eexists. split; [vm_compute; reflexivity|]. split; [vm_compute; reflexivity|]. vm_compute. auto.
Qed.
(** A PrepareNextState made before a thread of the current state has passed the semaphore, followed by StopCurrentStateExecution: the
    thread falls asleep and StopCurrentStateExecution waits for it for ever. *)
Definition stuck (states : list (string * list (list exec))) (s : sys) : Prop := ctl s <> CIdle /\ forall a, no_call a -> step states false s a = None.
Theorem C43_stop_after_prepare_refuted :
  exists sch s, Conc.exec (step two false) init sch = Some s /\ disciplined (log s) /\ stuck two s /\
    filter (fun e => match e with ESwitch => false | _ => true end) (log s) = [ECall OStop; ERet (OPrepare "B") true; ECall (OPrepare "B"); ERet OStart true; ECall OStart; ERet (OPrepare "B") true; ECall (OPrepare "B")].
Proof.
  exists ([ACall (OPrepare "B")] ++ c 9 ++ [ACall OStart] ++ c 5 ++ repeat (AThread false 0 Ran) 3 ++ [ACall (OPrepare "B")] ++ c 9 ++ [AThread false 0 Ran] ++ repeat (AThread true 0 Ran) 4 ++ [ACall OStop] ++ c 2).
  eexists. split; [vm_compute; reflexivity|]. split; [cbn; repeat split; discriminate|]. split; [|vm_compute; reflexivity]. split; [discriminate|].
  intros [o|ok|[] i o|[] i] NC; try contradiction NC; try reflexivity; destruct i as [|i]; try reflexivity; destruct i; reflexivity.
Qed.
(** Two PrepareNextState without a start between them: the second waits for ever for the sleeping threads of the first. *)
Theorem C43_prepare_twice_refuted :
  exists sch s, Conc.exec (step two false) init sch = Some s /\ disciplined (log s) /\ stuck two s /\ log s = [ECall (OPrepare "B"); ERet (OPrepare "B") true; ECall (OPrepare "B")].
Proof.
  exists ([ACall (OPrepare "B")] ++ c 9 ++ repeat (AThread false 0 Ran) 4 ++ [ACall (OPrepare "B")] ++ c 5).
  eexists. split; [vm_compute; reflexivity|]. split; [cbn; repeat split; discriminate|]. split; [|vm_compute; reflexivity]. split; [discriminate|].
  intros [o|ok|[] i o|[] i] NC; try contradiction NC; try reflexivity; destruct i as [|i]; try reflexivity; destruct i; reflexivity.
Qed.
(** A start after a PrepareNextState that failed succeeds, although there is nothing to execute, and CurrentState is not a state. *)
Theorem C43_start_after_failed_prepare_refuted :
  exists sch s, Conc.exec (step two false) init sch = Some s /\ ctl s = CIdle /\ firstn 5 (log s) = [ERet OStart true; ESwitch; ECall OStart; ERet (OPrepare "X") false; ECall (OPrepare "X")] /\ nth_error two (cur s) = None.
Proof.
  exists ([ACall (OPrepare "B")] ++ c 9 ++ [ACall OStart] ++ c 5 ++ repeat (AThread false 0 Ran) 4 ++ [ACall OStop] ++ c 2 ++ repeat (AThread false 0 Ran) 3 ++ c 5 ++
          [ACall (OPrepare "B")] ++ c 9 ++ [ACall OStart] ++ c 5 ++ repeat (AThread true 0 Ran) 4 ++ [ACall OStop] ++ c 2 ++ repeat (AThread true 0 Ran) 3 ++ c 5 ++
          [ACall (OPrepare "X")] ++ c 3 ++ [ACall OStart] ++ c 5).
  eexists. split; [vm_compute; reflexivity|]. repeat split.
Qed.
(** With a spurious wakeup, which POSIX allows, a thread that was prepared executes before the start: the executables of the current state. *)
Theorem C43_spurious_wakeup_refuted :
  exists sch s, Conc.exec (step two true) init sch = Some s /\ disciplined (log s) /\ index s = false /\ In (ERun true 0 10 Ran) (log s).
Proof.
  exists ([ACall (OPrepare "A")] ++ c 10 ++ [ACall OStart] ++ c 5 ++ [ACall (OPrepare "B")] ++ c 9 ++ repeat (AThread true 0 Ran) 4 ++ [ASpurious true 0] ++ repeat (AThread true 0 Ran) 3).
  eexists. split; [vm_compute; reflexivity|]. split; [cbn; repeat split; discriminate|]. split; [reflexivity|]. vm_compute. auto.
Qed.

(** * A case *)
Definition gam_a := Gam [Some 1; Some 2] 3 [Some 4] true true true true true.
Definition gam_b := Gam [] 5 [Some 6] true true true true true.
Example C43_table_case : Forall good [gam_a; gam_b] /\ thread_order [gam_a; gam_b] = [1; 2; 3; 4; 5; 6].
Proof. split; [|reflexivity]. constructor; [|constructor; [|constructor]]; unfold good; cbn; intuition discriminate. Qed.
(** State A runs, one of its cycles fails, it is stopped and B is started. *)
Example C43_case : exists s, Conc.exec (step two false) init
    ([ACall (OPrepare "A")] ++ c 10 ++ [ACall OStart] ++ c 5 ++ repeat (AThread false 0 Ran) 9 ++ repeat (AThread false 1 Ran) 7 ++ repeat (AThread false 0 Ran) 3 ++ [AThread false 0 Failed; AThread false 0 Ran] ++
     [ACall OStop] ++ c 2 ++ repeat (AThread false 0 Ran) 3 ++ c 2 ++ repeat (AThread false 1 Ran) 5 ++ c 6 ++
     [ACall (OPrepare "B")] ++ c 9 ++ [ACall OStart] ++ c 5 ++ repeat (AThread true 0 Ran) 8) = Some s /\
  strict (log s) /\ ctl s = CIdle /\ in_force (log s) = Some "B"%string /\ stopped (log s) = false /\ runs 0 (log s) = [(30, Ran); (31, Ran)] /\ cur s = 1.
Proof. eexists. split; [vm_compute; reflexivity|]. repeat split; discriminate. Qed.

Print Assumptions C43_thread_table.
Print Assumptions C43_thread_table_inside.
Print Assumptions C43_cycles.
Print Assumptions C43_silent_when_stopped.
Print Assumptions C43_no_bad_access.
Print Assumptions C43_current_state.
Print Assumptions C43_results.
Print Assumptions C43_calls_return.
Print Assumptions C43_calls_progress.
Print Assumptions C43_threads_go_on.
Print Assumptions C43_start_without_stop_refuted.
Print Assumptions C43_stop_after_prepare_refuted.
Print Assumptions C43_prepare_twice_refuted.
Print Assumptions C43_start_after_failed_prepare_refuted.
Print Assumptions C43_spurious_wakeup_refuted.
