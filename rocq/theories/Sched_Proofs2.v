(** The invariant of the scheduler is preserved. *)
From Coq Require Import String.
From Verif Require Import Base Conc Sched_Model Sched_Spec Sched_Proofs.
Open Scope nat_scope.

Section Sched.
Variable states : list (string * list (list exec)).
Notation threads_of := (threads_of states).
Notation inv := (inv states).
Notation step := (step states).

(** * Threads *)
Lemma tstep_cur s i t o t' evs g n es : tab s (index s) = ITab g (threads_of n) -> nth_error (threads_of n) i = Some es ->
  thread_ok (index s) g es (runs i (log s)) t -> tstep s (index s) i t o = Some (t', evs) ->
  (evs = [] /\ thread_ok (index s) g es (runs i (log s)) t') \/
  (exists e, evs = [ERun (index s) i e o] /\ thread_ok (index s) g es (runs i (log s) ++ [(e, o)]) t').
Proof.
  intros T N K. unfold tstep, thread_ok in *. destruct (pc t) eqn:P; try discriminate; intros E.
  - left. injection E as <- <-. split; [reflexivity|]. cbn [pc]. destruct (cm t); exact K.
  - left. injection E as <- <-. split; [reflexivity|]. exact K.
  - left. injection E as <- <-. split; [reflexivity|]. cbn [pc]. destruct (is_keep (cm t)); exact K.
  - left. injection E as <- <-. split; [reflexivity|]. cbn [pc]. destruct (posted s); exact K.
  - left. injection E as <- <-. split; [reflexivity|]. cbn [pc]. destruct (is_keep (cm t)); exact K.
  - left. rewrite T, N in E. injection E as <- <-. split; [reflexivity|]. cbn [pc]. split; [reflexivity|]. split; [reflexivity|].
    exists []. split; [exact K|]. right. split; reflexivity.
  - destruct K as (-> & -> & w & W & C). destruct rest as [|e rest]; injection E as <- <-.
    + left. split; [reflexivity|]. cbn [pc]. split; [reflexivity|]. split; [reflexivity|]. destruct C as [->|[-> _]]; exact W.
    + right. exists e. split; [reflexivity|]. cbn [pc]. rewrite walk_snoc, W.
      assert (S : walk es w [(e, o)] = Some (match o with Failed => [] | _ => rest end)).
      { cbn [walk]. destruct C as [->|[-> Q]]; [cbn; rewrite Nat.eqb_refl; reflexivity|]. rewrite <- Q. cbn. rewrite Nat.eqb_refl. reflexivity. }
      rewrite S. destruct o; try (split; [reflexivity|]; split; [reflexivity|]; eexists; split; [reflexivity|]; left; reflexivity).
      split; [reflexivity|]. split; reflexivity.
  - left. destruct K as (-> & -> & W). rewrite T, Nat.eqb_refl in E. injection E as <- <-. split; [reflexivity|exact W].
  - left. injection E as <- <-. split; [reflexivity|exact K].
Qed.
Lemma tstep_next s b i t o t' evs : boot t -> dead t \/ posted s = false -> tstep s b i t o = Some (t', evs) -> evs = [] /\ boot t' /\ posted s = false /\ ~ dead t.
Proof.
  unfold boot, dead, tstep. intros B D. destruct (pc t) eqn:P; try discriminate; try contradiction; intros E; injection E as <- <-;
    (destruct D as [D|D]; [discriminate|]); cbn [pc]; (split; [reflexivity|]; split; [|split; [exact D|discriminate]]).
  - destruct (cm t); exact I.
  - exact I.
  - destruct (is_keep (cm t)); exact I.
  - rewrite D. exact I.
Qed.
Lemma tstep_past s b i t o t' evs : tstep s b i t o = Some (t', evs) ->
  (past t -> past t' /\ cm t' = cm t) /\ (cm t = CmdStop \/ past t -> cm t' = CmdStop \/ past t') /\ ~ dead t.
Proof.
  unfold tstep, past, dead. intros E.
  destruct (pc t) as [| | | | | | | |x g rest|x g|] eqn:P; try discriminate;
    repeat match type of E with context[match ?x with _ => _ end] => let Q := fresh "Q" in destruct x eqn:Q end;
    injection E as <- <-; cbn [pc cm]; (split; [|split; [|discriminate]]);
    try (intros _; split; [exact I|reflexivity]); try (intros []; fail); try contradiction;
    intros [C|C]; try contradiction; try (left; congruence); try (right; exact I).
Qed.

Definition set_thread (s : sys) (b : bool) (ts : list thr) (i : nat) (t : thr) (evs : list ev) : sys :=
  let s := set_svc s b (Some (set_nth ts i t)) in
  Sys (index s) (sched s) (next_id s) (cur s) (valid s) (posted s) (svc s) (tab s) (gen s) (ctl s) (evs ++ log s).
Lemma set_thread_same s b ts i t evs : threads (set_thread s b ts i t evs) b = set_nth ts i t.
Proof. unfold threads, set_thread, set_svc. cbn [svc]. rewrite updb_same. reflexivity. Qed.
Lemma set_thread_other s b c ts i t evs : c <> b -> threads (set_thread s b ts i t evs) c = threads s c.
Proof. intros N. unfold threads, set_thread, set_svc. cbn [svc]. unfold updb. destruct b, c; try contradiction; reflexivity. Qed.
Lemma Forall_nth {A} (P : A -> Prop) l : Forall P l <-> (forall i x, nth_error l i = Some x -> P x).
Proof.
  rewrite Forall_forall. split; intros F.
  - intros i x E. apply F. eapply nth_error_In. exact E.
  - intros x E. apply In_nth_error in E. destruct E as [i E]. eauto.
Qed.
Lemma nth_error_lt {A} (l : list A) i x : nth_error l i = Some x -> i < length l.
Proof. intros E. apply nth_error_Some. congruence. Qed.
Lemma negb_neq b : negb b <> b. Proof. destruct b; discriminate. Qed.
Lemma Forall_set {A} (P : A -> Prop) l i x : Forall P l -> P x -> Forall P (set_nth l i x).
Proof.
  intros F Px. apply Forall_nth. intros j y E. rewrite nth_error_set_nth in E. destruct (j =? i).
  - destruct (i <? length l); [|discriminate]. injection E as <-. exact Px.
  - revert j y E. apply Forall_nth. exact F.
Qed.

(** A step of a thread whose events are neutral or runs, in terms of what is kept. *)
Lemma thread_scan s b ts i t o t' evs : svc s b = Some ts -> nth_error ts i = Some t -> tstep s b i t o = Some (t', evs) ->
  scan_ok s -> scan_ok (set_thread s b ts i t' evs).
Proof.
  intros S N E K. destruct (tstep_past _ _ _ _ _ _ _ E) as (P1 & P2 & P3). unfold scan_ok in *.
  change (ctl (set_thread s b ts i t' evs)) with (ctl s). destruct (ctl s); auto;
  change (target (set_thread s b ts i t' evs) k) with (target s k);
  (destruct (Bool.bool_dec (target s k) b) as [Q|Q]; [rewrite Q, set_thread_same in *|rewrite (set_thread_other s b _ ts i t' evs Q) in *; exact K]);
  (assert (TS : threads s b = ts) by (unfold threads; rewrite S; reflexivity)); rewrite TS in K; cbn zeta in *.
  - destruct K as (K1 & K2). split.
    + intros j x Ej Lj. rewrite nth_error_set_nth in Ej. destruct (j =? i) eqn:J; [|apply (K1 j x Ej Lj)].
      apply Nat.eqb_eq in J. subst j. specialize (K1 i t N Lj). destruct (i <? length ts); [|discriminate]. injection Ej as <-.
      destruct second; [contradiction|apply P1, K1].
    + intros Sd j x Ej. rewrite nth_error_set_nth in Ej. destruct (j =? i) eqn:J; [|apply (K2 Sd j x Ej)].
      destruct (i <? length ts); [|discriminate]. injection Ej as <-. apply P1, (K2 Sd i t N).
  - destruct K as (K1 & K2 & K3). split; [|split].
    + intros j x Ej Lj. rewrite nth_error_set_nth in Ej. destruct (j =? i) eqn:J; [|apply (K1 j x Ej Lj)].
      apply Nat.eqb_eq in J. subst j. specialize (K1 i t N Lj). destruct (i <? length ts); [|discriminate]. injection Ej as <-.
      destruct second; [contradiction|apply P1, K1].
    + intros Sd j x Ej. rewrite nth_error_set_nth in Ej. destruct (j =? i) eqn:J; [|apply (K2 Sd j x Ej)].
      destruct (i <? length ts); [|discriminate]. injection Ej as <-. apply P1, (K2 Sd i t N).
    + intros x Ej. rewrite nth_error_set_nth in Ej. destruct (i0 =? i) eqn:J; [|apply (K3 x Ej)].
      apply Nat.eqb_eq in J. subst i0. destruct (i <? length ts); [|discriminate]. injection Ej as <-.
      destruct (K3 t N) as (A & B). split; [apply P2, A|]. intros Sd. specialize (K2 Sd i t N). destruct (P1 K2) as [_ ->]. apply B, Sd.
Qed.

(** * A thread of the next state *)
Lemma inv_thread_next s ts i t o t' evs : inv s -> svc s (negb (index s)) = Some ts -> nth_error ts i = Some t ->
  tstep s (negb (index s)) i t o = Some (t', evs) -> inv (set_thread s (negb (index s)) ts i t' evs).
Proof.
  intros IV S N E. set (b := negb (index s)) in *.
  assert (TS : threads s b = ts) by (unfold threads; rewrite S; reflexivity).
  assert (TO : threads s (index s) = threads (set_thread s b ts i t' evs) (index s)) by (rewrite set_thread_other; [reflexivity|subst b; destruct (index s); discriminate]).
  pose proof (i_next _ _ IV) as NX. fold b in NX. rewrite TS in NX. pose proof (proj1 (Forall_nth _ _) NX i t N) as [NB ND].
  destruct (tstep_next _ _ _ _ _ _ _ NB ND E) as (-> & B' & PF & AL).
  assert (NL : length (threads (set_thread s b ts i t' []) b) = length (threads s b)) by (rewrite set_thread_same, set_nth_length, TS; reflexivity).
  assert (ND2 : ~ Forall dead (threads s b)) by (rewrite TS; intros F; apply AL; exact (proj1 (Forall_nth _ _) F i t N)).
  assert (NX' : forall name, next_ok states s name -> next_ok states (set_thread s b ts i t' []) name).
  { intros name (n & g & P1 & V & T & L). exists n, g. split; [exact P1|]. split; [exact V|]. split; [exact T|].
    change (negb (index (set_thread s b ts i t' []))) with b. rewrite NL. exact L. }
  constructor.
  - intros C name IF. destruct (i_cur _ _ IV C name IF) as (n & g & H1 & H2 & H3 & H4 & H5). exists n, g.
    repeat split; auto; try (apply H4; assumption).
    change (index (set_thread s b ts i t' [])) with (index s). rewrite <- TO. exact H5.
  - change (index (set_thread s b ts i t' [])) with (index s). rewrite <- TO. exact (i_none _ _ IV).
  - change (negb (index (set_thread s b ts i t' []))) with b. rewrite set_thread_same. apply Forall_set; [exact NX|]. split; [exact B'|]. right. exact PF.
  - change (index (set_thread s b ts i t' [])) with (index s). rewrite <- TO. exact (i_stopped _ _ IV).
  - intros name P C. apply NX'. exact (i_prep _ _ IV name P C).
  - pose proof (i_ctl _ _ IV) as K. unfold ctl_ok in *. change (ctl (set_thread s b ts i t' [])) with (ctl s).
    change (index (set_thread s b ts i t' [])) with (index s). fold b in K |- *. rewrite NL, <- TO.
    destruct (ctl s) as [| | | | |o1 k1 ? ?|o1 k1 ? ?| | | | | | | | |o1 ok1]; try exact K; try (exfalso; tauto).
    + destruct K as (K0 & K00 & K1 & K2 & name & K3 & K4). split; [exact K0|]. split; [exact K00|]. split; [exact K1|]. split; [exact K2|]. exists name. split; [exact K3|]. apply NX', K4.
    + destruct o1; try exact K. destruct ok1; [|exact K]. apply NX', K.
  - exact (thread_scan _ _ _ _ _ _ _ _ S N E (i_scan _ _ IV)).
  - exact (i_runs _ _ IV).
  - exact (i_log _ _ IV).
  - exact (i_bad _ _ IV).
Qed.

(** * A thread of the current state *)
Lemma runs_snoc b i e o l j : runs j (ERun b i e o :: l) = if j =? i then runs j l ++ [(e, o)] else runs j l. Proof. reflexivity. Qed.
Lemma inv_thread_cur s ts i t o t' evs : inv s -> svc s (index s) = Some ts -> nth_error ts i = Some t ->
  tstep s (index s) i t o = Some (t', evs) -> inv (set_thread s (index s) ts i t' evs).
Proof.
  intros IV S N E. set (b := index s) in *.
  assert (TS : threads s b = ts) by (unfold threads; rewrite S; reflexivity).
  destruct (tstep_past _ _ _ _ _ _ _ E) as (_ & _ & AL).
  assert (ND : ~ Forall dead (threads s b)) by (rewrite TS; intros F; apply AL; exact (proj1 (Forall_nth _ _) F i t N)).
  assert (NI : ctl s <> CIndex) by (intros C; pose proof (i_ctl _ _ IV) as K; unfold ctl_ok in K; rewrite C in K; apply ND, K).
  destruct (in_force (log s)) as [name|] eqn:IF; [|exfalso; apply ND, (i_none _ _ IV IF)].
  assert (SF : stopped (log s) = false) by (destruct (stopped (log s)) eqn:Q; [exfalso; apply ND, (i_stopped _ _ IV Q)|reflexivity]).
  destruct (i_cur _ _ IV NI name IF) as (n & g & H1 & H2 & H3 & H4 & H5). fold b in H2, H5. rewrite TS in H5.
  destruct (H5 i t N) as (es & NE & TK).
  pose proof (tstep_cur _ _ _ _ _ _ _ _ _ H2 NE TK E) as CASES. fold b in CASES.
  set (s' := set_thread s b ts i t' evs).
  assert (TO : threads s' (negb b) = threads s (negb b)) by (apply set_thread_other, negb_neq).
  assert (EV : evs = [] \/ exists e, evs = [ERun b i e o]) by (destruct CASES as [[-> _]|(e & -> & _)]; [left|right; exists e]; reflexivity).
  assert (LF : in_force (log s') = in_force (log s) /\ prepared (log s') = prepared (log s) /\ stopped (log s') = stopped (log s)).
  { unfold s', set_thread. cbn [log]. destruct EV as [->|[e ->]]; repeat split. }
  destruct LF as (LF & LP & LS).
  assert (LR : forall j, j <> i -> runs j (log s') = runs j (log s)).
  { intros j J. unfold s', set_thread. cbn [log]. destruct EV as [->|[e ->]]; [reflexivity|]. cbn [app]. change (log (set_svc s b (Some (set_nth ts i t')))) with (log s).
    rewrite runs_snoc. apply Nat.eqb_neq in J. rewrite J. reflexivity. }
  assert (TK' : thread_ok b g es (runs i (log s')) t').
  { unfold s', set_thread. cbn [log]. destruct CASES as [[-> K]|(e & -> & K)]; [exact K|]. cbn [app]. change (log (set_svc s b (Some (set_nth ts i t')))) with (log s).
    rewrite runs_snoc, Nat.eqb_refl. exact K. }
  assert (NX' : forall name, next_ok states s name -> next_ok states s' name).
  { intros nm (n1 & g1 & P1 & V & T & L). exists n1, g1. split; [exact P1|]. split; [exact V|]. split; [exact T|].
    change (negb (index s')) with (negb b). rewrite TO. exact L. }
  constructor.
  - intros _ nm. rewrite LF, IF. intros Q. injection Q as <-. exists n, g. repeat split; auto; try (apply H4; assumption).
    change (index s') with b. unfold s' at 1. rewrite set_thread_same. intros j x Ej. rewrite nth_error_set_nth in Ej. destruct (j =? i) eqn:J.
    + apply Nat.eqb_eq in J. subst j. destruct (i <? length ts); [|discriminate]. injection Ej as <-. exists es. split; assumption.
    + apply Nat.eqb_neq in J. rewrite (LR j J). apply H5, Ej.
  - rewrite LF, IF. discriminate.
  - change (negb (index s')) with (negb b). rewrite TO. exact (i_next _ _ IV).
  - rewrite LS, SF. discriminate.
  - intros nm. rewrite LP. intros P C. apply NX'. exact (i_prep _ _ IV nm P C).
  - pose proof (i_ctl _ _ IV) as K. unfold ctl_ok in *. change (ctl s') with (ctl s). change (index s') with b. fold b in K. rewrite TO.
    destruct (ctl s) as [| | | | |o1 k1 ? ?|o1 k1 ? ?| | | | | | | | |o1 ok1]; try exact K; try (exfalso; tauto).
    + rewrite LF. exact K.
    + destruct o1; try exact K. destruct ok1; [|exact K]. apply NX', K. destruct ok1; [|exact K]. exfalso. tauto.
  - exact (thread_scan _ _ _ _ _ _ _ _ S N E (i_scan _ _ IV)).
  - intros j. rewrite LF. destruct (Nat.eq_dec j i) as [->|J]; [|rewrite (LR j J); rewrite IF; pose proof (i_runs _ _ IV j) as R; rewrite IF in R; exact R].
    right. exists name, n, es. split; [exact IF|]. split; [exact H1|]. split; [exact NE|]. unfold cycles.
    unfold thread_ok in TK'. destruct (pc t'); try (rewrite TK'; discriminate).
    + destruct TK' as (_ & _ & w & W & _). rewrite W. discriminate.
    + destruct TK' as (_ & _ & W). rewrite W. discriminate.
  - unfold s', set_thread. cbn [log]. destruct EV as [->|[e ->]]; [exact (i_log _ _ IV)|]. cbn [app only_when_started]. split; [exact SF|exact (i_log _ _ IV)].
  - unfold s', set_thread. cbn [log]. pose proof (i_bad _ _ IV) as B. destruct EV as [->|[e ->]]; [exact B|]. cbn [app]. intros [Q|Q]; [discriminate|]. apply B, Q.
Qed.
End Sched.
