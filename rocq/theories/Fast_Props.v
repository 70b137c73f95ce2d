(** C53: a change of state in the fast scheduler is clean: no thread begins a cycle of the new state before every thread has finished its
    cycle of the old one, each cycle executes what was prepared, and a started state runs — if the client is patient. *)
From Coq Require Import Lia.
From Verif Require Import Base Conc Fast_Model Fast_Spec Fast_Proofs Fast_Proofs4.
Open Scope nat_scope.

(** A cycle that begins is one of the state that was started last, and no thread is any more in a cycle that began before that start.
    Missing: the client must be patient (the refutations below show what happens otherwise); NoWait is 0. *)
Theorem C53_begin_partial : forall n plan sched s, 0 < n -> planned n plan -> Conc.exec (pstep n false plan) init sched = Some s ->
  forall post p st pre, log s = post ++ EBegin p st :: pre ->
  in_force pre = Some st /\ busy p pre = false /\ forall q, q < n -> overdue q pre = false.
Proof.
  intros n plan sched s N P H post p st pre L. pose proof (i_good _ _ _ (inv_run n plan N P sched s H)) as G. rewrite L in G.
  apply good_split in G. cbn [good] in G. destruct G as (_ & A & B & C). split; [exact A|]. split; [|exact C]. unfold busy. rewrite B. reflexivity.
Qed.
Print Assumptions C53_begin_partial.

(** What a thread executes is the next executable of the list prepared for it in the state of its cycle; the cycle ends after the whole list
    or after the first executable that fails. *)
Theorem C53_cycle_partial : forall n plan sched s, 0 < n -> planned n plan -> Conc.exec (pstep n false plan) init sched = Some s ->
  (forall post p e o pre, log s = post ++ ERun p e o :: pre ->
     exists st r, current p pre = Some (st, r) /\ in_order (work plan st p) r /\ nth_error (work plan st p) (length r) = Some e) /\
  (forall post p pre, log s = post ++ EEnd p :: pre -> exists st r, current p pre = Some (st, r) /\ complete (work plan st p) r).
Proof.
  intros n plan sched s N P H. pose proof (i_good _ _ _ (inv_run n plan N P sched s H)) as G. split.
  - intros post p e o pre L. rewrite L in G. apply good_split in G. apply G.
  - intros post p pre L. rewrite L in G. apply good_split in G. apply G.
Qed.
Print Assumptions C53_cycle_partial.

(** No thread uses a record that is not initialised, a null array or a cell outside of an array. *)
Theorem C53_safe_partial : forall n plan sched s, 0 < n -> planned n plan -> Conc.exec (pstep n false plan) init sched = Some s ->
  forall p, ~ In (EBad p) (log s).
Proof.
  intros n plan sched s N P H p X. pose proof (i_good _ _ _ (inv_run n plan N P sched s H)) as G. apply in_split in X. destruct X as (post & pre & L).
  rewrite L in G. apply good_split in G. apply G.
Qed.
Print Assumptions C53_safe_partial.

(** While a started state is neither stopped nor followed by another, each thread with executables in it can begin a (further) cycle of it
    by actions of the threads alone: nobody waits for ever. *)
Theorem C53_runs_partial : forall n plan sched s, 0 < n -> planned n plan -> Conc.exec (pstep n false plan) init sched = Some s ->
  ctl s = CIdle -> running (log s) = true ->
  forall p st, p < n -> in_force (log s) = Some st -> work plan st p <> [] ->
  exists more s' es, Forall (fun a => exists q, q < n /\ a = AThread q Ran) more /\ Conc.exec (pstep n false plan) s more = Some s' /\
                     log s' = EBegin p st :: es ++ log s.
Proof.
  intros n plan sched s N P H C R p st Hp F W. pose proof (inv_run n plan N P sched s H) as I.
  destruct (started_runs n plan N s p st (conj I (conj C R)) Hp F W) as (more & s' & es & A & B & D). exists more, s', es. auto.
Qed.
Print Assumptions C53_runs_partial.

(** Two threads, two states. *)
Definition plan2 (st : nat) : list (nat * list exec) :=
  match st with 0 => [(0, [10; 11]); (1, [12])] | 1 => [(1, [21]); (0, [20])] | 2 => [(0, [30])] | _ => [] end.
Lemma plan2_ok : planned 2 plan2.
Proof.
  intros st. destruct st as [|[|[|st]]]; cbn; (split; [repeat constructor; cbn; lia|intros p Hp; cbn in Hp; lia]).
Qed.
Definition th (p : nat) (k : nat) : list action := repeat (AThread p Ran) k.
Definition client (k : nat) : list action := repeat AClient k.
(** State 0 starts; both threads come to rest in a cycle or in WaitForAll; state 1 is prepared and started while thread 1 is still in its
    cycle; thread 0 counts itself and waits; thread 1 finishes, counts itself and posts; both begin state 1. *)
Definition change : list action :=
  [ACall (OPrepare 0)] ++ client 11 ++ [ACall OStart] ++ client 11 ++
  th 0 3 ++ th 1 4 ++ [AThread 1 Ran] ++ th 1 3 ++ th 0 3 ++ th 0 2 ++
  [ACall (OPrepare 1)] ++ client 11 ++ th 0 2 ++ [ACall OStop] ++ client 2 ++ th 0 1 ++
  [ACall OStart] ++ client 8 ++ th 0 2.
Definition change_more : list action := th 1 3 ++ th 1 4 ++ th 0 3 ++ th 1 3.
Lemma observe : forall A (x : option sys) (f : sys -> A) v, option_map f x = Some v -> exists s, x = Some s /\ f s = v.
Proof. intros A [s|] f v H; [|discriminate]. injection H as <-. exists s. auto. Qed.
Example C53_change :
  exists s, Conc.exec (pstep 2 false plan2) init (change ++ change_more) = Some s /\
  firstn 5 (log s) = [ERun 1 21 Ran; EBegin 1 1; EBegin 0 1; EEnd 1; ERet OStart].
Proof. apply observe. vm_compute. reflexivity. Qed.

(** The hypotheses of the four theorems hold after that run: state 1 runs and each thread has executables in it. *)
Example C53_case : exists s, Conc.exec (pstep 2 false plan2) init (change ++ change_more) = Some s /\
  (ctl s, running (log s), in_force (log s), work plan2 1 0, work plan2 1 1) = (CIdle, true, Some 1, [20], [21]).
Proof. apply observe. vm_compute. reflexivity. Qed.

(** A client that makes the calls in the documented order (prepare, stop, start) but without patience: StopCurrentStateExecution does not wait
    for the threads.  A thread that has passed WaitForAll and has not yet read the index runs the new state while another is still in its
    cycle of the old one. *)
Definition overlap : list action :=
  [ACall (OPrepare 0)] ++ client 11 ++ [ACall OStart] ++ client 11 ++ th 0 3 ++ th 1 4 ++ th 1 4 ++ th 0 3 ++ th 0 7 ++
  [ACall (OPrepare 1)] ++ client 11 ++ [ACall OStop] ++ client 2 ++ [ACall OStart] ++ client 8 ++ th 0 3.
Theorem C53_overlap_refuted : ~ (forall n plan sched s, 0 < n -> planned n plan -> Conc.exec (ostep n false plan) init sched = Some s ->
  forall post p st pre, log s = post ++ EBegin p st :: pre -> forall q, q < n -> overdue q pre = false).
Proof.
  intros H.
  assert (exists s, Conc.exec (ostep 2 false plan2) init overlap = Some s /\ (hd ESwitch (log s), overdue 1 (tl (log s))) = (EBegin 0 1, true)) as (s & E & F).
  { apply observe. vm_compute. reflexivity. }
  injection F as F1 F2. destruct (log s) as [|e l] eqn:L; [discriminate F1|]. cbn [hd tl] in F1, F2. subst e.
  pose proof (H 2 plan2 overlap s ltac:(lia) plan2_ok E [] 0 1 l L 1 ltac:(lia)) as Z. congruence.
Qed.
Print Assumptions C53_overlap_refuted.

(** A thread without executables that is not yet asleep on unusedThreadsSem when the next state starts misses the Post (it is followed by a
    Reset) and sleeps; the others wait for it in WaitForAll: the started state never begins. *)
Definition stuck : list action :=
  [ACall (OPrepare 2)] ++ client 9 ++ [ACall OStart] ++ client 11 ++ th 0 3 ++ th 1 6 ++ th 0 6 ++
  [ACall (OPrepare 1)] ++ client 11 ++ [ACall OStop] ++ client 2 ++ th 0 1 ++ [ACall OStart] ++ client 8 ++ th 1 1 ++ th 0 2.
Theorem C53_stuck_refuted : ~ (forall n plan sched s, 0 < n -> planned n plan -> Conc.exec (ostep n false plan) init sched = Some s ->
  ctl s = CIdle -> running (log s) = true -> forall p st, p < n -> in_force (log s) = Some st -> work plan st p <> [] ->
  exists q, q < n /\ tstep n false plan s q Ran <> None).
Proof.
  intros H.
  assert (exists s, Conc.exec (ostep 2 false plan2) init stuck = Some s /\
    (ctl s, running (log s), in_force (log s), thr s 0, thr s 1) = (CIdle, true, Some 1, TCwS, TUnS)) as (s & E & F).
  { apply observe. vm_compute. reflexivity. }
  injection F as F1 F2 F3 F4 F5. destruct (H 2 plan2 stuck s ltac:(lia) plan2_ok E F1 F2 0 1 ltac:(lia) F3 ltac:(discriminate)) as (q & Hq & Z).
  apply Z. unfold tstep. assert (q = 0 \/ q = 1) as [-> | ->] by lia; [rewrite F4|rewrite F5]; reflexivity.
Qed.
Print Assumptions C53_stuck_refuted.

(** A thread that has read its number of executables and not yet its array when two further changes are made finds the array of the record
    that is being prepared. *)
Definition torn : list action :=
  [ACall (OPrepare 0)] ++ client 11 ++ [ACall OStart] ++ client 11 ++ th 0 3 ++ th 1 4 ++ th 0 2 ++
  [ACall (OPrepare 1)] ++ client 11 ++ [ACall OStop] ++ client 2 ++ [ACall OStart] ++ client 8 ++ [ACall (OPrepare 2)] ++ client 1 ++ th 0 1.
Theorem C53_torn_refuted : ~ (forall n plan sched s, 0 < n -> planned n plan -> Conc.exec (ostep n false plan) init sched = Some s ->
  forall p, ~ In (EBad p) (log s)).
Proof.
  intros H. assert (exists s, Conc.exec (ostep 2 false plan2) init torn = Some s /\ hd ESwitch (log s) = EBad 0) as (s & E & F).
  { apply observe. vm_compute. reflexivity. }
  apply (H 2 plan2 torn s ltac:(lia) plan2_ok E 0). destruct (log s); [discriminate F|]. left. exact F.
Qed.
Print Assumptions C53_torn_refuted.

(** With NoWait (superfast) the threads do not wait for each other, patient client or not. *)
Definition nowait : list action :=
  [ACall (OPrepare 0)] ++ client 11 ++ [ACall OStart] ++ client 11 ++ th 0 4 ++ th 1 4 ++ th 0 4 ++
  [ACall (OPrepare 1)] ++ client 11 ++ [ACall OStop] ++ client 2 ++ [ACall OStart] ++ client 8 ++ th 0 4.
Theorem C53_nowait_refuted : ~ (forall n plan sched s, 0 < n -> planned n plan -> Conc.exec (pstep n true plan) init sched = Some s ->
  forall post p st pre, log s = post ++ EBegin p st :: pre -> forall q, q < n -> overdue q pre = false).
Proof.
  intros H.
  assert (exists s, Conc.exec (pstep 2 true plan2) init nowait = Some s /\ (hd ESwitch (log s), overdue 1 (tl (log s))) = (EBegin 0 1, true)) as (s & E & F).
  { apply observe. vm_compute. reflexivity. }
  injection F as F1 F2. destruct (log s) as [|e l] eqn:L; [discriminate F1|]. cbn [hd tl] in F1, F2. subst e.
  pose proof (H 2 plan2 nowait s ltac:(lia) plan2_ok E [] 0 1 l L 1 ltac:(lia)) as Z. congruence.
Qed.
Print Assumptions C53_nowait_refuted.
