(** C24: MemoryMapAsyncOutputBroker, a real-time thread that calls Execute and Flush and a service thread that calls BufferLoop. *)
From Verif Require Import Base Conc AsyncBroker_Model AsyncBroker_Proofs.
Open Scope nat_scope.

(** * Specification *)
(** The samples given to Execute, in order: the K memory cells of each. *)
Fixpoint given (K : nat) (sched : list action) : list (list Z) :=
  match sched with [] => [] | AExec d :: r => map d (seq 0 K) :: given K r | _ :: r => given K r end.
(** The samples with which Synchronise was called, in order. *)
Definition synchronised (l : list event) : list (list Z) := rev (syncs l).
(** [kept_up N] (AsyncBroker_Proofs): at every time less than N samples are stored and not yet freed, and less than N - 1 before the
    service thread has started. *)

(** Only actions of the two threads: no new call, no spurious wake-up. *)
Definition internal (a : action) : bool := match a with AP | AC _ => true | _ => false end.

(** * From the invariant to executions *)
Lemma given_app K a : forall b, given K (a ++ b) = given K a ++ given K b.
Proof. induction a as [|x a IH]; intro b; [reflexivity|]. destruct x; cbn [app given]; rewrite IH; reflexivity. Qed.

Lemma step_log N K s a s' : step N K s a = Some s' -> exists k, log s' = k ++ log s.
Proof.
  assert (TK : forall s x, take s = Some x -> log x = log s). { intros s0 x. unfold take. destruct (lk s0); [discriminate|]. intro E. injection E as <-. reflexivity. }
  destruct a; cbn [step].
  - destruct (pp s); try discriminate. intro E. injection E as <-. exists []. reflexivity.
  - destruct (pp s); try discriminate. intro E. injection E as <-. exists [EFlush]. reflexivity.
  - unfold pstep. destruct (pp s); try discriminate;
      try (destruct (take s) eqn:T; [|discriminate]; intro E; injection E as <-; exists []; cbn [log set_pp app]; apply TK; exact T).
    all: try (intro E; injection E as <-; exists []; reflexivity).
    + destruct (n <? K); intro E; injection E as <-; exists []; reflexivity.
    + intro E; injection E as <-. destruct ret; [eexists [_]|exists []]; reflexivity.
    + intro E; injection E as <-. exists []. destruct (w s =? N); reflexivity.
    + intro E; injection E as <-. eexists [_]; reflexivity.
    + destruct (flushed s); [|discriminate]. intro E; injection E as <-. eexists [_]; reflexivity.
  - unfold cstep. destruct (cp s);
      try (destruct (take s) eqn:T; [|discriminate]; intro E; injection E as <-; exists []; cbn [log set_cp app]; apply TK; exact T).
    all: try (intro E; injection E as <-; exists []; reflexivity).
    all: try (intro E; injection E as <-; eexists [_]; reflexivity).
    + intro E; injection E as <-. exists []. destruct (N =? 1); reflexivity.
    + intro E; injection E as <-. exists []. destruct (r s =? stop); [|destruct (tc s (r s))]; reflexivity.
    + destruct (c <? K); intro E; injection E as <-; exists []; reflexivity.
    + destruct (ev s); [|discriminate]. intro E; injection E as <-; exists []; reflexivity.
    + intro E; injection E as <-. exists []. destruct (posted s); reflexivity.
  - destruct (cp s); try discriminate. intro E. injection E as <-. exists []. reflexivity.
Qed.

Lemma kept_up_app N k l : kept_up N (k ++ l) -> kept_up N l.
Proof. induction k; cbn [app]; auto. intro H. apply IHk. eapply kept_up_tail. exact H. Qed.

Definition infl (K : nat) (s : st) : list (list Z) :=
  match pp s with PCheck | PCopy _ | PSet _ => [cells K (cur s)] | _ => [] end.
Definition rets_ok (l : list event) : Prop := forall b, In (ERet b) l -> b = true.

Record Good (N K : nat) (g : list (list Z)) (s : st) : Prop :=
  { g_inv : exists pd, Inv N K pd s; g_given : g = rev (puts (log s)) ++ infl K s; g_ret : rets_ok (log s) }.

Lemma good_step N K g s a s' : 2 <= N -> Good N K g s -> kept_up N (log s') -> step N K s a = Some s' ->
  Good N K (g ++ given K [a]) s'.
Proof.
  intros HN [[pd V] G R] KU E. destruct (step_log _ _ _ _ _ E) as [k LK].
  assert (KU0 : kept_up N (log s)) by (apply (kept_up_app N k); rewrite <- LK; exact KU).
  split; [eapply inv_step; eauto using kept_up_now| |].
  - rewrite G. pose proof (i_pok _ _ _ _ V) as PO. clear - PO E.
    destruct a; cbn [step given] in *; rewrite ?app_nil_r.
    + unfold infl. destruct (pp s); try discriminate. injection E as <-. cbn. rewrite app_nil_r. reflexivity.
    + unfold infl. destruct (pp s); try discriminate. injection E as <-. reflexivity.
    + unfold pstep in E. unfold infl at 1. destruct (pp s) eqn:EP; try discriminate; cbn [pok] in PO; try subst ret;
        try (unfold take in E; destruct (lk s); [discriminate|]); try (injection E as <-; reflexivity).
      * injection E as <-. unfold infl. cbn. destruct (tc s (w s)); reflexivity.
      * destruct (n <? K); injection E as <-; reflexivity.
      * injection E as <-. unfold infl. cbn. rewrite app_nil_r. reflexivity.
      * injection E as <-. destruct (w s =? N); reflexivity.
      * destruct (flushed s); [|discriminate]. injection E as <-. reflexivity.
    + unfold cstep in E. assert (H : pp s' = pp s /\ cur s' = cur s /\ puts (log s') = puts (log s)).
      { destruct (cp s); try (unfold take in E; destruct (lk s); [discriminate|]); try (injection E as <-; cbn; auto; fail).
        - injection E as <-. destruct (N =? 1); cbn; auto.
        - injection E as <-. destruct (r s =? stop); [|destruct (tc s (r s))]; cbn; auto.
        - destruct (c <? K); injection E as <-; cbn; auto.
        - destruct (ev s); [|discriminate]. injection E as <-. cbn. auto.
        - injection E as <-. destruct (posted s); cbn; auto. }
      destruct H as (H1 & H2 & H3). unfold infl. rewrite H1, H2, H3. reflexivity.
    + destruct (cp s); try discriminate. injection E as <-. reflexivity.
  - pose proof (i_pok _ _ _ _ V) as PO. clear - PO E R.
    assert (ADD : forall e, match e with ERet b => b = true | _ => True end -> rets_ok (e :: log s)).
    { intros e H b Hb. destruct Hb as [Hb|Hb]; [rewrite Hb in H; exact H|apply R; exact Hb]. }
    destruct a; cbn [step] in *.
    + destruct (pp s); try discriminate. injection E as <-. exact R.
    + destruct (pp s); try discriminate. injection E as <-. apply ADD. exact Logic.I.
    + unfold pstep in E. destruct (pp s) eqn:EP; try discriminate; cbn [pok] in PO; try subst ret;
        try (unfold take in E; destruct (lk s); [discriminate|]); try (injection E as <-; exact R).
      * destruct (n <? K); injection E as <-; exact R.
      * injection E as <-. apply ADD. exact Logic.I.
      * injection E as <-. destruct (w s =? N); exact R.
      * injection E as <-. apply ADD. reflexivity.
      * destruct (flushed s); [|discriminate]. injection E as <-. apply ADD. exact Logic.I.
    + unfold cstep in E. destruct (cp s); try (unfold take in E; destruct (lk s); [discriminate|]); try (injection E as <-; exact R);
        try (injection E as <-; apply ADD; exact Logic.I).
      * injection E as <-. destruct (N =? 1); exact R.
      * injection E as <-. destruct (r s =? stop); [|destruct (tc s (r s))]; exact R.
      * destruct (c <? K); injection E as <-; exact R.
      * destruct (ev s); [|discriminate]. injection E as <-. exact R.
      * injection E as <-. destruct (posted s); exact R.
    + destruct (cp s); try discriminate. injection E as <-. exact R.
Qed.

Lemma good_exec N K s0 sched : forall g s, 2 <= N -> Good N K g s0 -> exec (step N K) s0 sched = Some s -> kept_up N (log s) -> Good N K (g ++ given K sched) s.
Proof.
  revert s0. induction sched as [|a r IH]; intros s0 g s HN H E KU; cbn [exec] in E.
  - injection E as <-. cbn [given]. rewrite app_nil_r. exact H.
  - destruct (step N K s0 a) as [s1|] eqn:ES; [|discriminate].
    assert (KU1 : kept_up N (log s1)).
    { clear - E KU. revert s1 E. induction r as [|b r IHr]; intros s1 E; cbn [exec] in E; [injection E as <-; exact KU|].
      destruct (step N K s1 b) as [s2|] eqn:EB; [|discriminate]. destruct (step_log _ _ _ _ _ EB) as [k LK].
      apply (kept_up_app N k). rewrite <- LK. apply IHr. exact E. }
    pose proof (good_step _ _ _ _ _ _ HN H KU1 ES) as H1. specialize (IH s1 _ s HN H1 E KU).
    rewrite <- app_assoc in IH. rewrite <- given_app in IH. exact IH.
Qed.

Lemma good_init N K : 2 <= N -> Good N K [] (init N).
Proof. intro HN. split; [exists false; apply inv_init; exact HN|reflexivity|intros b []]. Qed.

Lemma good N K sched s : 2 <= N -> exec (step N K) (init N) sched = Some s -> kept_up N (log s) -> Good N K (given K sched) s.
Proof. intros HN E KU. apply (good_exec N K (init N) sched [] s HN (good_init N K HN) E KU). Qed.

(** ** Flush *)
(** The Executes that have returned; what came before the service thread last read the write index; what came before the last call of Flush. *)
Fixpoint returned (l : list event) : nat := match l with [] => 0 | ERet _ :: r => S (returned r) | _ :: r => returned r end.
Fixpoint before_loop (l : list event) : list event := match l with [] => [] | ELoop :: r => r | _ :: r => before_loop r end.
Fixpoint at_flush (l : list event) : list event := match l with [] => [] | EFlush :: r => r | _ :: r => at_flush r end.
Definition base (l : list event) : list event := if looped l then before_loop l else l.
Section FlushInv.
Variables (N K : nat).
Hypothesis HN : 2 <= N.
Definition pending (p : ppc) : nat := match p with PLock | PInc _ | PWrap _ | PPost | PPosted | PUnlock _ => 1 | _ => 0 end.
Definition reaches (s : st) (stop : nat) : Prop := forall S, stop = S mod N -> N + dones (log s) <= S < 2 * N + dones (log s) -> N + returned (before_loop (log s)) <= S.
Definition settled (s : st) : Prop :=
  match cp s with
  | CUnl1 stop | CLoop stop | CCopy stop _ | CSync stop | CClear stop _ | CNext stop _ => reaches s stop
  | CFlush => returned (before_loop (log s)) <= dones (log s)
  | _ => True
  end.
Definition told (s : st) : Prop := match pp s with FPost | FPosted | FUnlock | FSpin => flushed s = true -> returned (base (at_flush (log s))) <= dones (log s) | _ => True end.
Definition Aux (s : st) : Prop := returned (log s) + pending (pp s) <= length (puts (log s)) /\ settled s /\ told s.
Lemma returned_tail e l : returned l <= returned (e :: l). Proof. destruct e; cbn; lia. Qed.
Lemma returned_before l : returned (before_loop l) <= returned l.
Proof. induction l as [|e l IH]; [cbn; lia|]. destruct e; cbn [before_loop returned]; lia. Qed.
Lemma base_before l : looped l = true -> returned (base (at_flush l)) <= returned (before_loop l).
Proof.
  assert (B : forall l, returned (base l) <= returned l) by (intro x; unfold base; destruct (looped x); [apply returned_before|lia]).
  assert (F : forall l, returned (at_flush l) <= returned l). { induction l0 as [|e x IH]; [cbn; lia|]. destruct e; cbn [at_flush returned]; lia. }
  induction l as [|e l IH]; [discriminate|]. intro L. destruct e; cbn [at_flush before_loop looped] in *; try (apply IH; exact L).
  - specialize (B (at_flush l)). specialize (F l). lia.
  - unfold base. rewrite L. lia.
Qed.
Lemma flush_of_log k l : (forall e, In e k -> e <> EFlush) -> at_flush (k ++ l) = at_flush l.
Proof. induction k as [|e k IH]; [reflexivity|]. intro H. cbn [app]. assert (e <> EFlush) by (apply H; left; reflexivity). rewrite <- IH by (intros; apply H; right; assumption). destruct e; try reflexivity. contradiction. Qed.
Lemma same_stop S S' D : S mod N = S' mod N -> N + D <= S < 2 * N + D -> N + D <= S' < 2 * N + D -> S = S'.
Proof. intros E A B. destruct (Nat.le_gt_cases S S'); [apply (mod_eq N); [lia|exact E]|symmetry; apply (mod_eq N); [lia|symmetry; exact E]]. Qed.
Lemma aux_step pd s a s' : Inv N K pd s -> ahead N (log s) -> Aux s -> step N K s a = Some s' -> Aux s'.
Proof.
  intros V A (X & Y & Z) E. unfold Aux, settled, told in *. pose proof (i_pok _ _ _ _ V) as PO.
  pose proof (put_room N HN pd _ _ A eq_refl (fun H => proj1 (i_loop _ _ _ _ V H)) (i_pd _ _ _ _ V)) as (R1 & R2 & R3).
  destruct a; cbn [step] in E.
  - destruct (pp s) eqn:EP; try discriminate. injection E as <-. cbn in *. auto.
  - destruct (pp s) eqn:EP; try discriminate. injection E as <-. cbn in *. split; [exact X|]. split; [|exact Logic.I]. exact Y.
  - (* the real-time thread *)
    unfold pstep in E. destruct (pp s) eqn:EP; try discriminate; cbn [pok] in PO; try subst ret; try (unfold take in E; destruct (lk s); [discriminate|]); try (injection E as <-; cbn in *; split; [try lia; auto|split; [exact Y|auto]]; fail).
    + injection E as <-. cbn in *. destruct (tc s (w s)); cbn; auto.
    + destruct (n <? K); injection E as <-; cbn in *; auto.
    + injection E as <-. cbn in *. destruct (w s =? N); cbn; auto.
    + injection E as <-. cbn in *. split; [exact X|]. split; [exact Y|]. discriminate.
    + destruct (flushed s); [|discriminate]. injection E as <-. cbn in *. auto.
  - (* the service thread *)
    unfold cstep in E. destruct (cp s) eqn:EC; try (unfold take in E; destruct (lk s); [discriminate|]).
    + injection E as <-. cbn. auto.
    + injection E as <-. cbn [log set_cp say pp cp returned puts dones before_loop at_flush flushed]. split; [exact X|]. split; [|exact Z].
      intros S ES WS. cbn [log set_cp say dones before_loop] in *.
      pose proof (i_w _ _ _ _ V) as W. unfold wc in W. pose proof (i_ex _ _ _ _ V) as EX. rewrite EC in EX. cbn [crit_c] in EX. rewrite andb_true_r in EX. pose proof (i_DQ _ _ _ _ V) as DQ.
      assert (Q : w s = (N + length (puts (log s)) - unpub (pp s)) mod N) by (rewrite W; destruct (pp s); try discriminate EX; cbn [unpub]; rewrite ?Nat.sub_0_r; reflexivity).
      assert (S = N + length (puts (log s)) - unpub (pp s)).
      { apply (same_stop _ _ (dones (log s))); [congruence|exact WS|]. split; [clear - DQ; lia|]. destruct pd; cbn [nxt] in *; [specialize (R2 eq_refl); clear - R2 HN; lia|]. pose proof (i_pd _ _ _ _ V eq_refl) as D0. rewrite D0. clear - R1 HN D0. lia. }
      subst S. destruct (pp s); try discriminate EX; cbn [pending unpub] in *; clear - X; lia.
    + rewrite (proj2 (Nat.eqb_neq N 1)) in E by (clear - HN; lia). injection E as <-. cbn. auto.
    + injection E as <-. destruct (Nat.eqb_spec (r s) stop) as [Hr|Hr]; [|destruct (tc s (r s)); cbn; auto].
      cbn. split; [exact X|]. split; [|exact Z].
      pose proof (i_stop _ _ _ _ V) as ST. unfold stopc in ST. rewrite EC in ST. destruct ST as (S0 & S1 & S2 & S3 & S4 & S5 & _). pose proof (i_r _ _ _ _ V) as R. unfold rc in R. rewrite EC in R.
      assert (Eq : nxt N pd (dones (log s)) = S0). { apply (mod_eq N); [clear - S3 S5; lia|]. rewrite <- R, <- S1. exact Hr. }
      assert (PD : pd = true). { destruct pd; [reflexivity|]. exfalso. cbn [nxt] in Eq. clear - Eq S2 HN. lia. } subst pd. cbn [nxt] in Eq.
      specialize (Y S0 S1 ltac:(clear - Eq HN; lia)). clear - Y Eq. lia.
    + destruct (c <? K); injection E as <-; cbn; auto.
    + injection E as <-. cbn. auto.
    + injection E as <-. cbn. split; [exact X|]. split; [|destruct (pp s); auto].
      pose proof (i_stop _ _ _ _ V) as ST. unfold stopc in ST. rewrite EC in ST. destruct ST as (S0 & S1 & S2 & S3 & S4 & S5 & _ & S6). specialize (S6 eq_refl).
      assert (PD : pd = true). { destruct pd; [reflexivity|]. exfalso. cbn [nxt] in S6. clear - S6 HN. lia. } subst pd. cbn [nxt] in *.
      intros S ES WS. cbn [log set_cp set_tc say dones before_loop] in *. assert (S = S0). { apply (same_stop _ _ (Datatypes.S (dones (log s)))); [congruence|clear - WS; lia|clear - S5 S6 HN; lia]. } subst S. apply Y; [exact S1|clear - S5 S6; lia].
    + injection E as <-. destruct ret; cbn; auto.
    + injection E as <-. cbn. split; [exact X|]. split; [exact Logic.I|]. assert (looped (log s) = true) as L. { destruct (looped (log s)) eqn:L; [reflexivity|]. destruct (i_loop _ _ _ _ V L) as [_ Q]. rewrite EC in Q. discriminate. }
      pose proof (base_before _ L). destruct (pp s); auto; intros _; lia.
    + destruct (ev s); [|discriminate]. injection E as <-. cbn. auto.
    + injection E as <-. cbn. auto.
    + injection E as <-. destruct (posted s); cbn; auto.
    + injection E as <-. cbn. auto.
    + injection E as <-. cbn. auto.
  - destruct (cp s) eqn:EC; try discriminate. injection E as <-. cbn. auto.
Qed.
End FlushInv.

Definition flush_ok (l : list event) : Prop := forall k m, l = k ++ EFlushed :: m -> returned (base (at_flush m)) <= dones m.
Lemma one_event N K s a s' : step N K s a = Some s' -> log s' = log s \/ exists e, log s' = e :: log s /\ (e = EFlushed -> pp s = FSpin /\ flushed s = true).
Proof.
  assert (TK : forall s x, take s = Some x -> log x = log s). { intros s0 x. unfold take. destruct (lk s0); [discriminate|]. intro E. injection E as <-. reflexivity. }
  destruct a; cbn [step].
  - destruct (pp s); try discriminate. intro E. injection E as <-. left. reflexivity.
  - destruct (pp s); try discriminate. intro E. injection E as <-. right. exists EFlush. split; [reflexivity|discriminate].
  - unfold pstep. destruct (pp s); try discriminate;
      try (destruct (take s) eqn:T; [|discriminate]; intro E; injection E as <-; left; cbn [log set_pp]; apply TK; exact T).
    all: try (intro E; injection E as <-; left; reflexivity).
    + destruct (n <? K); intro E; injection E as <-; left; reflexivity.
    + intro E; injection E as <-. destruct ret; [right; eexists; split; [reflexivity|discriminate]|left; reflexivity].
    + intro E; injection E as <-. left. destruct (w s =? N); reflexivity.
    + intro E; injection E as <-. right; eexists; split; [reflexivity|discriminate].
    + destruct (flushed s); [|discriminate]. intro E; injection E as <-. right; eexists; split; [reflexivity|auto].
  - unfold cstep. destruct (cp s);
      try (destruct (take s) eqn:T; [|discriminate]; intro E; injection E as <-; left; cbn [log set_cp]; apply TK; exact T).
    all: try (intro E; injection E as <-; left; reflexivity).
    all: try (intro E; injection E as <-; right; eexists; split; [reflexivity|discriminate]).
    + intro E; injection E as <-. left. destruct (N =? 1); reflexivity.
    + intro E; injection E as <-. left. destruct (r s =? stop); [|destruct (tc s (r s))]; reflexivity.
    + destruct (c <? K); intro E; injection E as <-; left; reflexivity.
    + destruct (ev s); [|discriminate]. intro E; injection E as <-; left; reflexivity.
    + intro E; injection E as <-. left. destruct (posted s); reflexivity.
  - destruct (cp s); try discriminate. intro E. injection E as <-. left. reflexivity.
Qed.
Lemma flushes N K sched : 2 <= N -> forall s, exec (step N K) (init N) sched = Some s -> kept_up N (log s) -> Aux N s /\ flush_ok (log s).
Proof.
  intros HN. induction sched as [|a r IH] using rev_ind; intros s E KU.
  - cbn in E. injection E as <-. split; [|intros [|] m Q; discriminate]. split; [cbn; lia|]. split; exact Logic.I.
  - rewrite exec_app in E. destruct (exec (step N K) (init N) r) as [s1|] eqn:E1; [|discriminate]. cbn [exec] in E. destruct (step N K s1 a) as [s2|] eqn:E2; [|discriminate]. injection E as <-.
    destruct (step_log _ _ _ _ _ E2) as [k LK]. assert (KU1 : kept_up N (log s1)) by (apply (kept_up_app N k); rewrite <- LK; exact KU).
    destruct (IH s1 eq_refl KU1) as [A F]. destruct (good N K r s1 HN E1 KU1) as [[pd V] _ _]. split; [eapply aux_step; eauto using kept_up_now|].
    destruct (one_event _ _ _ _ _ E2) as [->|(e & -> & T)]; [exact F|]. intros [|x k'] m Q; cbn [app] in Q; injection Q as Q1 Q2; [|exact (F k' m Q2)].
    subst. destruct (T eq_refl) as [P Fl]. destruct A as (_ & _ & A). unfold told in A. rewrite P in A. exact (A Fl).
Qed.

(** * The theorems *)
(** Synchronise is called with the samples given to Execute: whole, in order, each at most once and none left out. *)
Theorem C24_in_order_partial N K sched s : 2 <= N -> exec (step N K) (init N) sched = Some s -> kept_up N (log s) ->
  exists rest, given K sched = synchronised (log s) ++ rest.
Proof.
  intros HN E KU. destruct (good _ _ _ _ HN E KU) as [[pd V] G _]. unfold synchronised. rewrite (i_sync _ _ _ _ V), G.
  set (n := dones (log s) + freed (cp s)). set (l := rev (puts (log s))).
  exists (skipn n l ++ infl K s). rewrite app_assoc, firstn_skipn. reflexivity.
Qed.
(** No Execute fails. *)
Theorem C24_accepted N K sched s b : 2 <= N -> exec (step N K) (init N) sched = Some s -> kept_up N (log s) -> In (ERet b) (log s) -> b = true.
Proof. intros HN E KU H. apply (g_ret _ _ _ _ (good _ _ _ _ HN E KU)). exact H. Qed.

(** The service thread does not sleep while an Execute has returned and its sample is not synchronised. *)
Theorem C24_no_sleep_pending_partial N K sched s : 2 <= N -> exec (step N K) (init N) sched = Some s -> kept_up N (log s) ->
  cp s = CWait -> ev s = false -> pp s = PIdle -> synchronised (log s) = given K sched.
Proof.
  intros HN E KU EC EE EP. destruct (good _ _ _ _ HN E KU) as [[pd V] G _]. unfold synchronised. rewrite (i_sync _ _ _ _ V), G.
  unfold infl. rewrite EP, app_nil_r, EC. cbn [freed].
  pose proof (i_stop _ _ _ _ V) as ST. unfold stopc in ST. rewrite EC, EP in ST. destruct ST as [_ ST]. cbn [unpub mid] in ST.
  pose proof (i_ev _ _ _ _ V) as VE. rewrite EE in VE.
  assert (H : ~ dones (log s) + 0 < length (puts (log s))).
  { intro H. destruct (ST H) as [X|X]; [|discriminate]. specialize (VE X). discriminate. }
  apply firstn_all2. rewrite rev_length. clear - H. lia.
Qed.

(** Neither thread waits for the other for ever: when neither can act, no call is under way and everything is synchronised. *)
Theorem C24_all_delivered_partial N K sched s : 2 <= N -> exec (step N K) (init N) sched = Some s -> kept_up N (log s) ->
  (forall a, internal a = true -> step N K s a = None) -> pp s = PIdle /\ synchronised (log s) = given K sched.
Proof.
  intros HN E KU Q. destruct (good _ _ _ _ HN E KU) as [[pd V] G _].
  pose proof (Q AP eq_refl) as QP. pose proof (Q (AC true) eq_refl) as QC. cbn [step] in QP, QC.
  pose proof (i_lk _ _ _ _ V) as LK. pose proof (i_ex _ _ _ _ V) as EX. pose proof (i_fl _ _ _ _ V) as FL.
  assert (W : cp s = CWait /\ ev s = false \/ lk s = true).
  { clear - QC. unfold cstep, take in QC. destruct (lk s); [auto|]. left. destruct (cp s); try discriminate.
    - destruct (c <? K); discriminate.
    - destruct (ev s); [discriminate|auto]. }
  assert (W2 : lk s = false).
  { destruct (lk s) eqn:EL; [|reflexivity]. exfalso. symmetry in LK. apply orb_true_iff in LK. destruct LK as [LK|LK].
    - clear - QP LK. unfold pstep in QP. destruct (pp s); discriminate.
    - clear - QC LK. unfold cstep in QC. destruct (cp s); discriminate. }
  rewrite W2 in W. destruct W as [[EC EE]|W]; [|discriminate].
  assert (EP : pp s = PIdle).
  { unfold pstep, take in QP. rewrite W2 in QP. destruct (pp s) eqn:EP; try reflexivity; try discriminate.
    - destruct (n <? K); discriminate.
    - exfalso. destruct (flushed s) eqn:EF; [discriminate|]. unfold flc in FL. rewrite EC, EP in FL.
      destruct (FL EF) as [X|X]; [|discriminate]. pose proof (i_ev _ _ _ _ V X) as Y. rewrite EE in Y. discriminate. }
  split; [exact EP|]. eapply C24_no_sleep_pending_partial; eauto.
Qed.

(** Flush. Full statement: when it returns, every sample whose Execute returned before it was called is synchronised. That is false (C24_flush_refuted): the
    service thread may be past reading the write index. What holds: every sample whose Execute had returned when the service thread last read the write index before
    Flush was called (or, if it had never read it, when Flush was called) is synchronised. *)
Theorem C24_flush_partial N K sched s l1 l2 : 2 <= N -> exec (step N K) (init N) sched = Some s -> kept_up N (log s) ->
  log s = EFlushed :: l1 ++ EFlush :: l2 -> ~ In EFlush l1 ->
  (forall l3 l4, l2 = l3 ++ ELoop :: l4 -> ~ In ELoop l3 -> returned l4 <= length (synchronised (log s))) /\ (~ In ELoop l2 -> returned l2 <= length (synchronised (log s))).
Proof.
  intros HN E KU L NF. destruct (flushes _ _ _ HN _ E KU) as [_ F]. specialize (F [] _ L). destruct (good _ _ _ _ HN E KU) as [[pd V] _ _].
  assert (AF : at_flush (l1 ++ EFlush :: l2) = l2) by (rewrite flush_of_log by (intros e I Q; subst; contradiction); reflexivity). rewrite AF in F.
  assert (D : dones (l1 ++ EFlush :: l2) <= length (synchronised (log s))).
  { unfold synchronised. rewrite (i_sync _ _ _ _ V), firstn_length, rev_length. pose proof (i_DQ _ _ _ _ V) as DQ. rewrite L in DQ |- *. cbn [dones] in *. lia. }
  assert (NL : forall l, ~ In ELoop l -> looped l = false) by (induction l as [|e l IH]; [reflexivity|]; intro Q; destruct e; cbn [looped]; try (apply IH; intro; apply Q; right; assumption); exfalso; apply Q; left; reflexivity).
  assert (BL : forall l3 l4, ~ In ELoop l3 -> looped (l3 ++ ELoop :: l4) = true /\ before_loop (l3 ++ ELoop :: l4) = l4).
  { induction l3 as [|e l3 IH]; intros l4 Q; [auto|]. destruct (IH l4 ltac:(intro; apply Q; right; assumption)) as [B1 B2]. destruct e; cbn [app looped before_loop]; auto. exfalso. apply Q. left. reflexivity. }
  unfold base in F. split.
  - intros l3 l4 -> Q. destruct (BL l3 l4 Q) as [B1 B2]. rewrite B1, B2 in F. lia.
  - intro Q. rewrite (NL _ Q) in F. lia.
Qed.
Print Assumptions C24_flush_partial.

(** ** Bounded work *)
Section Rank.
Variables (N K : nat).
Definition dist (i stop : nat) : nat := if i <=? stop then stop - i else stop + N - i.
Definition after (i : nat) : nat := if i + 1 =? N then 0 else i + 1.
Definition cst : nat := K + 5.
Definition top : nat := N * cst + 5.
Definition big : nat := top + 5.
Definition pos (s : st) : nat :=
  match cp s with
  | CLock2 => top + 4 | CTest => top + 3 | CClrP => top + 2 | CUnl2 => top + 1
  | CLock1 => top | CRead => N * cst + 4 | CUnl1 _ => N * cst + 3
  | CLoop stop => dist (r s) stop * cst + 2
  | CCopy stop c => dist (after (r s)) stop * cst + 6 + (K - c)
  | CSync stop => dist (after (r s)) stop * cst + 5
  | CClear stop _ => dist (after (r s)) stop * cst + 4
  | CNext stop true => dist (after (r s)) stop * cst + 3
  | CNext _ false => top + 1
  | CFlush => 1 | CWait => 0
  end.
Definition rounds (s : st) : nat :=
  match cp s with
  | CLock2 | CTest => if posted s then 1 else 0
  | CClrP => if ev s then 1 else 0
  | _ => if posted s then 2 else if ev s then 1 else 0
  end.
Definition prank (p : ppc) : nat :=
  match p with
  | PIdle => 0 | PUnlock _ => 1 | PPosted => big + 2 | PPost => 2 * big + 3 | PWrap _ => 2 * big + 4 | PInc _ => 2 * big + 5 | PLock => 2 * big + 6
  | PSet _ => 3 * big + 7 | PCopy n => 3 * big + 8 + (K - n) | PCheck => 3 * big + 9 + K
  | FSpin => 1 | FUnlock => 2 | FPosted => big + 3 | FPost => 2 * big + 4 | FClr => 2 * big + 5 | FLock => 2 * big + 6
  end.
(** How many actions the two threads can still take. *)
Definition work (s : st) : nat :=
  (length (puts (log s)) - dones (log s)) * big + rounds s * big + pos s + prank (pp s).

Lemma dist_after i stop : 2 <= N -> i < N -> stop < N -> i <> stop -> dist i stop = dist (after i) stop + 1.
Proof.
  intros HN Hi Hs Ne. unfold dist, after. destruct (Nat.eqb_spec (i + 1) N).
  - destruct (Nat.leb_spec i stop), (Nat.leb_spec 0 stop); lia.
  - destruct (Nat.leb_spec i stop), (Nat.leb_spec (i + 1) stop); lia.
Qed.
Lemma dist_lt i stop : i < N -> stop < N -> dist i stop < N.
Proof. intros. unfold dist. destruct (Nat.leb_spec i stop); lia. Qed.

Lemma work_p pd s s' : 2 <= N -> Inv N K pd s -> Inv N K pd s' -> pstep N K s = Some s' -> work s' < work s.
Proof.
  intros HN V V' E. pose proof (i_pok _ _ _ _ V) as PO. pose proof (i_DQ _ _ _ _ V') as DQ'. pose proof (i_DQ _ _ _ _ V) as DQ.
  assert (PS : forall x y, r x = r y -> cp x = cp y -> pos x = pos y). { intros x y A B. unfold pos. rewrite A, B. reflexivity. }
  assert (RS : forall x y, posted x = posted y -> ev x = ev y -> cp x = cp y -> rounds x = rounds y). { intros x y A B C. unfold rounds. rewrite A, B, C. reflexivity. }
  assert (RE : forall x, rounds (set_pp (set_ev x true) PPosted) <= rounds x + 1 /\ rounds (set_pp (set_ev x true) FPosted) <= rounds x + 1).
  { intro x. clear. unfold rounds. cbn. destruct (cp x), (posted x), (ev x); lia. }
  assert (RP : forall x p, (posted x = true -> ev x = true) -> ev x = true -> rounds (set_pp (set_posted x true) p) <= rounds x + 1).
  { intros x p A B. clear - A B. unfold rounds. cbn. destruct (cp x), (posted x); rewrite ?B; lia. }
  pose proof (i_ev _ _ _ _ V) as VE. pose proof (i_ev2 _ _ _ _ V) as VE2.
  assert (BIG : 1 <= big) by (clear; unfold big; lia).
  unfold pstep in E. destruct (pp s) eqn:EP; try discriminate; cbn [pok] in PO; try subst ret.
  - injection E as <-. unfold work. rewrite EP.
    rewrite (PS (set_pp s (if tc s (w s) then PSet false else PCopy 0)) s), (RS (set_pp s (if tc s (w s) then PSet false else PCopy 0)) s) by reflexivity. cbn [log set_pp pp].
    destruct (tc s (w s)); cbn [prank]; clear; lia.
  - destruct (Nat.ltb_spec n K) as [H|H]; injection E as <-; unfold work; rewrite EP; cbn [log set_pp set_mem pp prank].
    + rewrite (PS (set_pp _ _) s), (RS (set_pp _ _) s) by reflexivity. clear - H; lia.
    + rewrite (PS (set_pp _ _) s), (RS (set_pp _ _) s) by reflexivity. clear - H; lia.
  - injection E as <-. unfold work. rewrite EP. rewrite (PS (set_pp _ _) s), (RS (set_pp _ _) s) by reflexivity.
    cbn [log set_pp set_tc say puts dones length pp prank] in *. cbn [unpub] in *.
    rewrite Nat.sub_succ_l by (clear - DQ; lia). cbn [Nat.mul]. clear - BIG. lia.
  - unfold take in E. destruct (lk s); [discriminate|]. injection E as <-. unfold work. rewrite EP. rewrite (PS (set_pp _ _) s), (RS (set_pp _ _) s) by reflexivity. cbn. clear; lia.
  - injection E as <-. unfold work. rewrite EP. rewrite (PS (set_pp _ _) s), (RS (set_pp _ _) s) by reflexivity. cbn [log set_pp set_w pp prank]. clear; lia.
  - injection E as <-. unfold work. rewrite EP. destruct (w s =? N);
      rewrite (PS (set_pp _ _) s), (RS (set_pp _ _) s) by reflexivity; cbn [log set_pp set_w pp prank]; clear; lia.
  - injection E as <-. unfold work. rewrite EP. rewrite (PS (set_pp _ _) s) by reflexivity. cbn [log set_pp set_ev pp prank].
    pose proof (proj1 (RE s)) as H. cbn [set_pp set_ev] in *. apply (Nat.mul_le_mono_r _ _ big) in H. clear - H BIG. lia.
  - injection E as <-. unfold work. rewrite EP. rewrite (PS (set_pp _ _) s) by reflexivity. cbn [log set_pp set_posted pp prank].
    pose proof (RP s (PUnlock true) VE VE2) as H. cbn [set_pp set_posted] in *. apply (Nat.mul_le_mono_r _ _ big) in H. clear - H BIG. lia.
  - injection E as <-. unfold work. rewrite EP. rewrite (PS (set_pp _ _) s), (RS (set_pp _ _) s) by reflexivity. cbn [log set_pp set_lk say puts dones pp prank]. clear; lia.
  - unfold take in E. destruct (lk s); [discriminate|]. injection E as <-. unfold work. rewrite EP. rewrite (PS (set_pp _ _) s), (RS (set_pp _ _) s) by reflexivity. cbn [log set_pp set_lk pp prank]. clear; lia.
  - injection E as <-. unfold work. rewrite EP. rewrite (PS (set_pp _ _) s), (RS (set_pp _ _) s) by reflexivity. cbn [log set_pp set_flushed pp prank]. clear; lia.
  - injection E as <-. unfold work. rewrite EP. rewrite (PS (set_pp _ _) s) by reflexivity. cbn [log set_pp set_ev pp prank].
    pose proof (proj2 (RE s)) as H. cbn [set_pp set_ev] in *. apply (Nat.mul_le_mono_r _ _ big) in H. clear - H BIG. lia.
  - injection E as <-. unfold work. rewrite EP. rewrite (PS (set_pp _ _) s) by reflexivity. cbn [log set_pp set_posted pp prank].
    pose proof (RP s FUnlock VE VE2) as H. cbn [set_pp set_posted] in *. apply (Nat.mul_le_mono_r _ _ big) in H. clear - H BIG. lia.
  - injection E as <-. unfold work. rewrite EP. rewrite (PS (set_pp _ _) s), (RS (set_pp _ _) s) by reflexivity. cbn [log set_pp set_lk pp prank]. clear; lia.
  - destruct (flushed s); [|discriminate]. injection E as <-. unfold work. rewrite EP. rewrite (PS (set_pp _ _) s), (RS (set_pp _ _) s) by reflexivity. cbn [log set_pp say puts dones pp prank]. clear; lia.
Qed.

Lemma work_c pd s s' b : 2 <= N -> Inv N K pd s -> cstep N K b s = Some s' -> work s' < work s.
Proof.
  intros HN V E.
  pose proof (i_ev _ _ _ _ V) as VE. pose proof (i_DQ _ _ _ _ V) as DQ. pose proof (i_stop _ _ _ _ V) as ST. pose proof (i_r _ _ _ _ V) as R.
  unfold stopc in ST. unfold rc in R.
  assert (RL : r s < N).
  { clear - R HN. destruct (cp s); try (rewrite R; apply Nat.mod_upper_bound; lia). destruct R as [_ R]. rewrite R. apply Nat.mod_upper_bound. lia. }
  assert (SL : forall stop lo, stopped N pd s (length (puts (log s))) (dones (log s)) stop lo -> stop < N).
  { intros stop lo (S0 & -> & _). apply Nat.mod_upper_bound. clear - HN. lia. }
  assert (AN : after (r s) < N).
  { clear - RL HN. unfold after. destruct (Nat.eqb_spec (r s + 1) N); lia. }
  assert (CS : forall d, d < N -> d * cst + cst <= N * cst).
  { intros d Hd. clear - Hd. replace (d * cst + cst) with ((d + 1) * cst) by lia. apply Nat.mul_le_mono_r. lia. }
  assert (C5 : cst = K + 5) by reflexivity. assert (TP : top = N * cst + 5) by reflexivity. assert (BG : big = top + 5) by reflexivity.
  unfold cstep in E. unfold work, pos, rounds. destruct (cp s) eqn:EC.
  - unfold take in E. destruct (lk s); [discriminate|]. injection E as <-. cbn [log set_cp set_lk posted ev pp cp]. clear - TP. lia.
  - injection E as <-. cbn [log set_cp say puts dones posted ev pp cp]. clear; lia.
  - rewrite (proj2 (Nat.eqb_neq N 1)) in E by (clear - HN; lia). injection E as <-. cbn [log set_cp set_lk posted ev pp cp r].
    pose proof (dist_lt (r s) stop RL (SL _ _ ST)) as H. apply CS in H. clear - H C5. lia.
  - pose proof (SL _ _ ST) as SLT. destruct (Nat.eqb_spec (r s) stop) as [H|H].
    + injection E as <-. cbn [log set_cp posted ev pp cp r]. clear; lia.
    + pose proof (dist_after (r s) stop HN RL SLT H) as DA.
      destruct (tc s (r s)); injection E as <-; cbn [log set_cp posted ev pp cp r]; rewrite DA, Nat.mul_add_distr_r; clear - C5; lia.
  - destruct (Nat.ltb_spec c K) as [H|H]; injection E as <-; cbn [log set_cp set_dsm posted ev pp cp r]; clear - H; lia.
  - injection E as <-. cbn [log set_cp say puts dones posted ev pp cp r]. clear; lia.
  - injection E as <-. cbn [log set_cp set_tc say puts dones posted ev pp cp r].
    assert (LT : dones (log s) < length (puts (log s))).
    { destruct ST as (S0 & _ & _ & _ & S4 & _ & _ & S7). specialize (S7 eq_refl). clear - S4 S7 HN. destruct pd; cbn [nxt] in S7; lia. }
    replace (length (puts (log s)) - dones (log s)) with (S (length (puts (log s)) - S (dones (log s)))) by (clear - LT; lia).
    cbn [Nat.mul]. destruct ret; clear - BG; lia.
  - injection E as <-. cbn [log set_cp set_r posted ev pp cp r].
    assert (EA : (if (1 <? N) && (r s + 1 =? N) then 0 else r s + 1) = after (r s)).
    { unfold after. replace (1 <? N) with true by (symmetry; apply Nat.ltb_lt; clear - HN; lia). reflexivity. }
    rewrite EA. destruct ret; clear; lia.
  - injection E as <-. cbn [log set_cp set_flushed posted ev pp cp r]. clear; lia.
  - destruct (ev s) eqn:EE; [|discriminate]. injection E as <-. cbn [log set_cp posted ev pp cp r].
    destruct (posted s); clear - BG; lia.
  - unfold take in E. destruct (lk s); [discriminate|]. injection E as <-. cbn [log set_cp set_lk posted ev pp cp]. clear; lia.
  - injection E as <-. destruct (posted s) eqn:PO; cbn [log set_cp set_ev posted ev pp cp]; [rewrite (VE eq_refl)|]; clear; lia.
  - injection E as <-. cbn [log set_cp set_posted posted ev pp cp]. clear; lia.
  - injection E as <-. cbn [log set_cp set_lk posted ev pp cp]. clear; lia.
Qed.
End Rank.

(** The two threads together can take at most [work] actions more without a new call. *)
Theorem C24_bounded_work N K sched s more s' : 2 <= N -> exec (step N K) (init N) sched = Some s ->
  forallb internal more = true -> exec (step N K) s more = Some s' -> kept_up N (log s') -> length more + work N K s' <= work N K s.
Proof.
  intros HN E. revert sched s E. induction more as [|a more IH]; intros sched s E I2 E2 KU; cbn [exec length] in *; [injection E2 as <-; lia|].
  destruct (step N K s a) as [s1|] eqn:ES; [|discriminate]. cbn [forallb] in I2. apply andb_true_iff in I2. destruct I2 as [IA IM].
  assert (E1 : exec (step N K) (init N) (sched ++ [a]) = Some s1).
  { rewrite exec_app, E. cbn [exec]. rewrite ES. reflexivity. }
  specialize (IH _ _ E1 IM E2 KU).
  assert (KU1 : kept_up N (log s1)).
  { clear - E2 KU. revert s1 E2. induction more as [|b r IHr]; intros s1 E; cbn [exec] in E; [injection E as <-; exact KU|].
    destruct (step N K s1 b) as [s2|] eqn:EB; [|discriminate]. destruct (step_log _ _ _ _ _ EB) as [k LK].
    apply (kept_up_app N k). rewrite <- LK. apply IHr. exact E. }
  assert (KU0 : kept_up N (log s)).
  { destruct (step_log _ _ _ _ _ ES) as [k LK]. apply (kept_up_app N k). rewrite <- LK. exact KU1. }
  destruct (good _ _ _ _ HN E KU0) as [[pd V] _ _].
  assert (work N K s1 < work N K s); [|lia].
  destruct a; try discriminate IA; cbn [step] in ES.
  - eapply work_p; [exact HN|exact V| |exact ES]. eapply inv_p; eauto using kept_up_now.
  - eapply work_c; eauto.
Qed.

(** * What does not hold *)
Definition smp (v : Z) : nat -> Z := fun _ => v.
Definition put1 (v : Z) : list action := AExec (smp v) :: repeat AP 10.
Definition idle : list action := repeat (AC true) 7.      (* the first BufferLoop, up to its Wait *)
Definition round : list action := repeat (AC true) 10.    (* from Wait to Wait, with nothing to consume *)
(** The service thread is idle and N Executes in a row succeed: the service thread takes the full buffer for an empty one, goes to
    sleep, and neither thread does anything although both samples are pending... *)
Definition full_sched : list action := idle ++ put1 1 ++ put1 2 ++ round ++ round.
Definition full_state : st :=
  Eval vm_compute in match exec (step 2 1) (init 2) full_sched with Some s => s | None => init 2 end.
Theorem C24_full_buffer_refuted : exec (step 2 1) (init 2) full_sched = Some full_state /\
  flat_map (fun e => match e with ERet b => [b] | _ => [] end) (log full_state) = [true; true] /\
  synchronised (log full_state) = [] /\ forall a, internal a = true -> step 2 1 full_state a = None.
Proof.
  split; [vm_compute; reflexivity|]. split; [reflexivity|]. split; [reflexivity|]. intros [| | |b|] H; try discriminate H; reflexivity.
Qed.
(** ... and whatever the real-time thread executes from then on, every Execute fails and nothing is ever synchronised (unless Flush is
    called or Wait returns spuriously). *)
Theorem C24_lost_for_ever_refuted sched s :
  (forall a, In a sched -> a <> AFlush /\ a <> ASpur) -> exec (step 2 1) full_state sched = Some s ->
  synchronised (log s) = [] /\ cp s = CWait /\ exists k, log s = k ++ log full_state /\ forall b, In (ERet b) k -> b = false.
Proof.
  set (J := fun s => synchronised (log s) = [] /\ cp s = CWait /\ (exists k, log s = k ++ log full_state /\ forall b, In (ERet b) k -> b = false) /\
    ev s = false /\ tc s 0 = true /\ tc s 1 = true /\
    match pp s with PIdle | PCheck | PSet false | PInc false | PUnlock false => w s < 2 | PWrap false => w s <= 2 | _ => False end).
  intros HA E. assert (HJ : J s); [|destruct HJ as (A & B & C & _); auto].
  assert (H0 : J full_state).
  { unfold J. cbn. repeat split; auto. exists []. split; [reflexivity|intros b []]. }
  revert H0 E. generalize full_state at 1 2. revert HA. induction sched as [|a r IH]; intros HA s0 H0 E; cbn [exec] in E; [injection E as <-; exact H0|].
  destruct (step 2 1 s0 a) as [s1|] eqn:ES; [|discriminate]. apply (IH (fun x Hx => HA x (or_intror Hx)) s1); [|exact E].
  destruct (HA a (or_introl eq_refl)) as [N1 N2]. clear IH HA E r. destruct H0 as (A & B & C & D & T0 & T1 & F).
  assert (TW : forall b, w s0 < 2 -> upd (tc s0) (w s0) b 0 = (if w s0 =? 0 then b else true) /\ upd (tc s0) (w s0) b 1 = (if w s0 =? 1 then b else true)).
  { intros b H. unfold upd. rewrite T0, T1. destruct (w s0) as [|[|]]; [auto|auto|lia]. }
  destruct a; cbn [step] in ES; try congruence.
  - destruct (pp s0) eqn:EP; try discriminate. injection ES as <-. unfold J. cbn. auto 8.
  - unfold pstep in ES. destruct (pp s0) eqn:EP; try discriminate; try contradiction F; try (destruct ret; [contradiction F|]); injection ES as <-; unfold J; cbn.
    + assert (TT : tc s0 (w s0) = true) by (destruct (w s0) as [|[|]]; [exact T0|exact T1|lia]). rewrite TT. auto 8.
    + destruct (TW true F) as [TA TB]. rewrite TA, TB. repeat split; auto; try (destruct (w s0 =? 0); reflexivity); destruct (w s0 =? 1); reflexivity.
    + repeat split; auto. lia.
    + destruct (w s0 =? 2) eqn:EW; cbn; repeat split; auto. apply Nat.eqb_neq in EW. lia.
    + repeat split; auto. destruct C as (k & CK & CB). exists (ERet false :: k). split; [cbn; rewrite CK; reflexivity|].
      intros b [X|X]; [congruence|exact (CB b X)].
  - unfold cstep in ES. rewrite B, D in ES. discriminate.
Qed.

(** N - 1 Executes succeed before the service thread reads the write index for the first time: the samples stay behind, and a later one
    is synchronised first. *)
Theorem C24_late_start_refuted : exists s, exec (step 3 1) (init 3) (put1 1 ++ put1 2 ++ repeat (AC true) 15 ++ put1 3 ++ repeat (AC true) 26) = Some s /\
  rev (puts (log s)) = [[1%Z]; [2%Z]; [3%Z]] /\ synchronised (log s) = [[3%Z]].
Proof. eexists. split; [vm_compute; reflexivity|]. split; reflexivity. Qed.
(** Flush returns although a sample accepted before it was called is not synchronised. *)
Theorem C24_flush_refuted : exists s, exec (step 4 1) (init 4) (repeat (AC true) 6 ++ put1 1 ++ AFlush :: repeat AP 5 ++ [AC true] ++ [AP]) = Some s /\
  log s = [EFlushed; EFlush; ERet true; EPut [1%Z]; ELoop].
Proof. eexists. split; [vm_compute; reflexivity|]. reflexivity. Qed.
(** One buffer: an Execute that fails because the buffer is still full may mark it again after it was freed, so that the same sample is
    synchronised twice. *)
Theorem C24_failed_execute_refuted : exists s, exec (step 1 1) (init 1)
    (put1 7 ++ repeat (AC true) 5 ++ [AExec (smp 8); AP] ++ repeat (AC true) 4 ++ repeat AP 4 ++ repeat (AC true) 30) = Some s /\
  rev (puts (log s)) = [[7%Z]] /\ synchronised (log s) = [[7%Z]; [7%Z]].
Proof. eexists. split; [vm_compute; reflexivity|]. split; reflexivity. Qed.

(** Two buffers, three samples of two cells, with the service thread one sample behind at most. *)
Lemma kept_up_cons N e l : ahead N (e :: l) -> kept_up N l -> kept_up N (e :: l).
Proof. intros A H [|x l1] l2 E; cbn in E; [subst l2; exact A|]. injection E as _ E. exact (H l1 l2 E). Qed.
Lemma kept_up_nil N : 2 <= N -> kept_up N [].
Proof. intros H [|] l2 E; [cbn in E; subst; unfold ahead; cbn; lia|discriminate]. Qed.
Definition two (v : Z) : nat -> Z := fun c => (v + Z.of_nat c)%Z.
Definition good_sched : list action :=
  repeat (AC true) 7 ++ (AExec (two 10) :: repeat AP 11) ++ repeat (AC true) 11 ++ (AExec (two 20) :: repeat AP 3) ++ repeat (AC true) 16 ++ repeat AP 8
  ++ repeat (AC false) 30 ++ (AExec (two 30) :: repeat AP 11) ++ repeat (AC true) 26.
Example C24_case : exists s, exec (step 2 2) (init 2) good_sched = Some s /\ kept_up 2 (log s) /\
  synchronised (log s) = [[10; 11]; [20; 21]; [30; 31]]%Z /\ given 2 good_sched = synchronised (log s).
Proof.
  eexists. split; [vm_compute; reflexivity|]. split; [|split; reflexivity].
  cbn [log]. repeat (apply kept_up_cons; [unfold ahead; cbn; lia|]). apply kept_up_nil. lia.
Qed.

Print Assumptions C24_in_order_partial.
Print Assumptions C24_accepted.
Print Assumptions C24_no_sleep_pending_partial.
Print Assumptions C24_all_delivered_partial.
Print Assumptions C24_bounded_work.
Print Assumptions C24_full_buffer_refuted.
Print Assumptions C24_lost_for_ever_refuted.
Print Assumptions C24_late_start_refuted.
Print Assumptions C24_flush_refuted.
Print Assumptions C24_failed_execute_refuted.

(** A Flush that waits: the sample is put, the service thread begins a round, Flush returns after it. *)
Example C24_flush_case : exists s l1 l2 l3 l4, exec (step 4 1) (init 4) (repeat (AC true) 7 ++ put1 5 ++ repeat (AC true) 8 ++ AFlush :: repeat AP 5 ++ repeat (AC true) 8 ++ [AP]) = Some s /\ kept_up 4 (log s) /\
  log s = EFlushed :: l1 ++ EFlush :: l2 /\ ~ In EFlush l1 /\ l2 = l3 ++ ELoop :: l4 /\ ~ In ELoop l3 /\ returned l4 = 1.
Proof.
  eexists. exists [EDone; ESync [5%Z]], [ELoop; ERet true; EPut [5%Z]; ELoop], [], [ERet true; EPut [5%Z]; ELoop]. split; [vm_compute; reflexivity|]. split.
  - cbn [log]. repeat (apply kept_up_cons; [unfold ahead; cbn; lia|]). apply kept_up_nil. lia.
  - split; [reflexivity|]. split; [intros [Q|[Q|[]]]; discriminate|]. split; [reflexivity|]. split; [intros []|reflexivity].
Qed.
