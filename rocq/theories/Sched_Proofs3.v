(** The invariant of the scheduler is preserved by the client. *)
From Coq Require Import String.
From Verif Require Import Base Conc Sched_Model Sched_Spec Sched_Proofs Sched_Proofs2.
Open Scope nat_scope.

Section Sched.
Variable states : list (string * list (list exec)).
Notation threads_of := (threads_of states).
Notation inv := (inv states).
Notation step := (step states).
Notation current_ok := (current_ok states).
Notation next_ok := (next_ok states).
Notation ctl_ok := (ctl_ok states).

(** What a change of the threads of the current state keeps. *)
Definition same_run (t t' : thr) : Prop := pc t' = pc t \/ pc t = TSleep /\ pc t' = TInner.
Definition run_rel (ts ts' : list thr) : Prop := forall i t', nth_error ts' i = Some t' -> exists t, nth_error ts i = Some t /\ same_run t t'.
Lemma same_run_ok b g es seq t t' : same_run t t' -> thread_ok b g es seq t -> thread_ok b g es seq t'.
Proof. unfold thread_ok. intros [->|[-> ->]] K; exact K. Qed.
Lemma same_run_dead t t' : same_run t t' -> dead t -> dead t'.
Proof. unfold dead. intros [->|[A B]] K; congruence. Qed.
Lemma run_rel_dead ts ts' : run_rel ts ts' -> Forall dead ts -> Forall dead ts'.
Proof. intros R F. apply Forall_nth. intros i t' E. destruct (R i t' E) as (t & N & Q). apply (same_run_dead t); auto. exact (proj1 (Forall_nth _ _) F i t N). Qed.
Lemma run_rel_refl ts : run_rel ts ts. Proof. intros i t E. exists t. split; auto. left. reflexivity. Qed.
Lemma run_rel_nil ts : run_rel ts []. Proof. intros i t E. destruct i; discriminate. Qed.
Lemma run_rel_set ts i t c : nth_error ts i = Some t -> run_rel ts (set_nth ts i (Thr c (pc t))).
Proof.
  intros N j t' E. rewrite nth_error_set_nth in E. destruct (j =? i) eqn:J.
  - apply Nat.eqb_eq in J. subst j. destruct (i <? length ts); [|discriminate]. injection E as <-. exists t. split; auto. left. reflexivity.
  - exists t'. split; auto. left. reflexivity.
Qed.
Lemma run_rel_wake ts : run_rel ts (map wake ts).
Proof.
  intros i t' E. rewrite nth_error_map in E. destruct (nth_error ts i) as [t|]; [|discriminate]. injection E as <-. exists t. split; auto.
  unfold same_run, wake. destruct (pc t) eqn:P; auto.
Qed.

Lemma current_frame s s' name : current_ok s name -> index s' = index s -> log s' = log s -> tab s' (index s) = tab s (index s) -> cur s' = cur s ->
  ctl s <> CCur -> ctl s' <> CCur -> run_rel (threads s (index s)) (threads s' (index s)) -> current_ok s' name.
Proof.
  intros (n & g & H1 & H2 & H3 & H4 & H5) EI EL ET EC C C' R. exists n, g. rewrite EI, EL, ET, EC. repeat split; auto; try contradiction.
  intros i t' E. destruct (R i t' E) as (t & N & Q). destruct (H5 i t N) as (es & X & Y). exists es. split; auto. exact (same_run_ok _ _ _ _ _ _ Q Y).
Qed.
Lemma inv_frame s s' : inv s -> index s' = index s -> log s' = log s -> ctl s <> CIndex ->
  (forall name, in_force (log s) = Some name -> current_ok s name -> current_ok s' name) ->
  (Forall dead (threads s (index s)) -> Forall dead (threads s' (index s))) ->
  Forall (fun t => boot t /\ (dead t \/ posted s' = false)) (threads s' (negb (index s))) ->
  (forall name, prepared (log s) = Some name -> prepping (ctl s') = false -> next_ok s' name) ->
  ctl_ok s' -> scan_ok s' -> inv s'.
Proof.
  intros [I1 I2 I3 I4 I5 I6 I7 I8 I9 I10] EI EL NI HC HD HN HP HO HS.
  constructor; rewrite ?EI, ?EL; auto.
Qed.

Lemma next_frame s s' name : next_ok s name -> index s' = index s -> sched s' = sched s -> next_id s' = next_id s -> (valid s = true -> valid s' = true) ->
  tab s' (negb (index s)) = tab s (negb (index s)) -> length (threads s' (negb (index s))) = length (threads s (negb (index s))) -> next_ok s' name.
Proof. intros (n & g & P & V & T & L) E1 E2 E3 E4 E5 E6. exists n, g. unfold prep1 in *. rewrite E1, E2, E3, E5, E6. auto. Qed.
Lemma next_weaken s p : (p = posted s \/ p = false) -> Forall (fun t => boot t /\ (dead t \/ posted s = false)) (threads s (negb (index s))) ->
  Forall (fun t => boot t /\ (dead t \/ p = false)) (threads s (negb (index s))).
Proof. intros P. apply Forall_impl. intros t [B D]. split; auto. destruct P as [->| ->]; auto. Qed.
Lemma threads_set_same s b x : threads (set_svc s b (Some x)) b = x.
Proof. unfold threads, set_svc. cbn [svc]. rewrite updb_same. reflexivity. Qed.
Lemma threads_set_other s b c x : c <> b -> threads (set_svc s b x) c = threads s c.
Proof. intros N. unfold threads, set_svc. cbn [svc]. unfold updb. destruct b, c; try contradiction; reflexivity. Qed.
Lemma threads_svc s b ts : svc s b = Some ts -> threads s b = ts.
Proof. unfold threads. intros ->. reflexivity. Qed.
Lemma dead_past t : dead t -> past t. Proof. unfold dead, past. intros ->. exact I. Qed.
Lemma is_dead_dead t : is_dead (pc t) = true -> dead t. Proof. unfold dead. destruct (pc t); auto; discriminate. Qed.

(** A change of the control only (and of what the threads of the current state do not look at). *)
Lemma inv_ctl s s' : inv s -> index s' = index s -> log s' = log s -> svc s' = svc s -> tab s' (index s) = tab s (index s) -> cur s' = cur s ->
  (posted s' = posted s \/ posted s' = false) -> ctl s <> CIndex -> ctl s <> CCur -> ctl s' <> CCur ->
  (forall name, prepared (log s) = Some name -> prepping (ctl s') = false -> next_ok s' name) ->
  ctl_ok s' -> scan_ok s' -> inv s'.
Proof.
  intros IV EI EL ES ET EC EP NI NC NC' HP HO HS. assert (TH : forall b, threads s' b = threads s b) by (intros b; unfold threads; rewrite ES; reflexivity).
  apply (inv_frame s); auto.
  - intros name IF K. apply (current_frame s); auto. rewrite TH. apply run_rel_refl.
  - rewrite TH. auto.
  - rewrite TH. apply next_weaken; auto. exact (i_next _ _ IV).
Qed.

Lemma inv_client s ok s' : inv s -> cstep states s ok = Some s' -> inv s'.
Proof.
  intros IV E. unfold cstep in E. pose proof (i_ctl _ _ IV) as K. unfold Sched_Proofs.ctl_ok in K. pose proof (i_scan _ _ IV) as SC. unfold scan_ok in SC.
  destruct (ctl s) as [|name|name|name n|name n|o k second i|o k second i|name n|name n|name n i| | | | | |o ok1] eqn:C.
  - discriminate.
  - (* CApp *) injection E as <-. apply (inv_ctl s); auto; try (rewrite C; discriminate); destruct ok; cbn; auto; discriminate.
  - (* CFind *) destruct (find_state states name 0) as [n|] eqn:F; injection E as <-; apply (inv_ctl s); auto; try (rewrite C; discriminate); cbn; auto; try discriminate.
    unfold prep1. cbn. rewrite updb_same. auto.
  - (* CReset *) injection E as <-. apply (inv_ctl s); auto; try (rewrite C; discriminate); cbn; auto; try discriminate.
    split; [exact K|]. auto.
  - (* COld *) injection E as <-. destruct (svc s (negb (index s))) eqn:SV.
    + apply (inv_ctl s); auto; try (rewrite C; discriminate); cbn; auto; try discriminate. split; [intros j t _ J; lia|discriminate].
    + apply (inv_ctl s); auto; try (rewrite C; discriminate); cbn; auto; try discriminate. split; [exact K|]. unfold threads. cbn. rewrite SV. constructor.
  - (* CSet *)
    destruct (svc s (target s k)) as [ts|] eqn:SV; [|discriminate]. pose proof (threads_svc _ _ _ SV) as TS. rewrite TS in SC. destruct SC as (SC1 & SC2).
    assert (PREP : forall s1, index s1 = index s -> sched s1 = sched s -> next_id s1 = next_id s -> valid s1 = valid s -> tab s1 = tab s ->
              (prepping (ctl s1) = false -> length (threads s1 (negb (index s))) = length (threads s (negb (index s)))) -> prepping (ctl s1) = prepping (CSet o k second i) ->
              forall name, prepared (log s) = Some name -> prepping (ctl s1) = false -> next_ok s1 name).
    { intros s1 E1 E2 E3 E4 E5 E6 E7 name P Q. apply (next_frame s); auto; try congruence. apply (i_prep _ _ IV name P). rewrite C. congruence. }
    destruct (nth_error ts i) as [t|] eqn:N.
    + destruct (is_dead (pc t)) eqn:D.
      * injection E as <-. apply is_dead_dead in D. apply (inv_ctl s); auto; try (rewrite C; discriminate); try discriminate.
        -- unfold Sched_Proofs.scan_ok. cbn [ctl set_ctl]. change (target (set_ctl s (CSet o k second (S i))) k) with (target s k). change (threads (set_ctl s (CSet o k second (S i)))) with (threads s). rewrite TS.
           split; [|exact SC2]. intros j x Ej J. destruct (Nat.eq_dec j i) as [->|NE]; [|apply (SC1 j x Ej); lia].
           rewrite N in Ej. injection Ej as <-. destruct second; auto. apply dead_past, D.
      * injection E as <-. set (ts' := set_nth ts i (Thr CmdStop (pc t))). set (s1 := set_ctl (set_svc s (target s k) (Some ts')) (CWaitDead o k second i)).
        assert (T1 : forall b, threads s1 b = threads (set_svc s (target s k) (Some ts')) b) by reflexivity.
        assert (TL : forall b, length (threads s1 b) = length (threads s b)).
        { intros b. rewrite T1. destruct (Bool.bool_dec b (target s k)) as [->|NE]; [|rewrite threads_set_other by auto; reflexivity].
          rewrite threads_set_same, TS. apply set_nth_length. }
        assert (R : forall b, run_rel (threads s b) (threads s1 b)).
        { intros b. rewrite T1. destruct (Bool.bool_dec b (target s k)) as [->|NE]; [|rewrite threads_set_other by auto; apply run_rel_refl].
          rewrite threads_set_same, TS. apply run_rel_set. exact N. }
        apply (inv_frame s); auto; try (rewrite C; discriminate).
        -- intros name IF HC. apply (current_frame s); auto; try (rewrite C; discriminate). discriminate.
        -- apply run_rel_dead, R.
        -- apply Forall_nth. intros j x Ej. pose proof (proj1 (Forall_nth _ _) (i_next _ _ IV)) as NX. rewrite T1 in Ej.
           destruct (Bool.bool_dec (negb (index s)) (target s k)) as [Q|NE]; [|rewrite threads_set_other in Ej by auto; exact (NX j x Ej)].
           rewrite Q, threads_set_same in Ej. rewrite Q, TS in NX. subst ts'. rewrite nth_error_set_nth in Ej. destruct (j =? i) eqn:J; [|exact (NX j x Ej)].
           destruct (i <? length ts); [|discriminate]. injection Ej as <-. exact (NX i t N).
        -- unfold Sched_Proofs.scan_ok. cbn [ctl s1 set_ctl]. change (target s1 k) with (target s k). rewrite T1, threads_set_same. subst ts'. split; [|split].
           ++ intros j x Ej J. rewrite nth_error_set_nth in Ej. destruct (j =? i) eqn:Q; [apply Nat.eqb_eq in Q; lia|]. exact (SC1 j x Ej J).
           ++ intros Q j x Ej. rewrite nth_error_set_nth in Ej. destruct (j =? i) eqn:Q2; [|exact (SC2 Q j x Ej)].
              destruct (i <? length ts); [|discriminate]. injection Ej as <-. exact (SC2 Q i t N).
           ++ intros x Ej. rewrite nth_error_set_nth, Nat.eqb_refl in Ej. destruct (i <? length ts); [|discriminate]. injection Ej as <-. cbn. auto.
    + destruct second.
      * assert (AD : Forall dead ts).
        { apply Forall_nth. intros j x Ej. apply (SC1 j x Ej). apply nth_error_None in N. apply nth_error_lt in Ej. lia. }
        assert (FB : forallb (fun t => is_dead (pc t)) ts = true).
        { apply forallb_forall. intros x X. rewrite (proj1 (Forall_forall _ _) AD x X). reflexivity. }
        rewrite FB in E. injection E as <-. set (c := match k with KPrep n => match o with OPrepare name => CNew name n | _ => CRet o true end | KStop => CRet o true end).
        set (s1 := set_ctl (set_svc s (target s k) (Some [])) c).
        assert (T1 : forall b, threads s1 b = threads (set_svc s (target s k) (Some [])) b) by reflexivity.
        assert (R : forall b, run_rel (threads s b) (threads s1 b)).
        { intros b. rewrite T1. destruct (Bool.bool_dec b (target s k)) as [->|NE]; [|rewrite threads_set_other by auto; apply run_rel_refl].
          rewrite threads_set_same. apply run_rel_nil. }
        apply (inv_frame s); auto; try (rewrite C; discriminate).
        -- intros name IF HC. apply (current_frame s); auto; try (rewrite C; discriminate). cbn. subst c. destruct k, o; discriminate.
        -- apply run_rel_dead, R.
        -- rewrite T1. destruct (Bool.bool_dec (negb (index s)) (target s k)) as [->|NE]; [rewrite threads_set_same; constructor|].
           rewrite threads_set_other by auto. exact (i_next _ _ IV).
        -- apply PREP; auto; cbn [ctl s1 set_ctl].
           ++ intros Q. rewrite T1. rewrite threads_set_other; auto. subst c. destruct k as [n|]; cbn; [|apply negb_neq]. destruct o; try contradiction K. discriminate.
           ++ subst c. destruct k, o; try contradiction K; reflexivity.
        -- unfold Sched_Proofs.ctl_ok. cbn [ctl s1 set_ctl]. change (index s1) with (index s). rewrite !T1. subst c. destruct k as [n|]; destruct o as [name| |]; try contradiction K; cbn [target].
           ++ rewrite threads_set_same. split; [exact K|constructor].
           ++ rewrite threads_set_same. constructor.
        -- unfold Sched_Proofs.scan_ok. cbn [ctl s1 set_ctl]. subst c. destruct k, o; exact I.
      * injection E as <-. apply (inv_ctl s); auto; try (rewrite C; discriminate); try discriminate.
        -- unfold Sched_Proofs.scan_ok. cbn [ctl set_ctl]. change (target (set_ctl s (CSet o k true 0)) k) with (target s k). change (threads (set_ctl s (CSet o k true 0))) with (threads s). rewrite TS.
           split; [intros j x _ J; lia|]. intros _ j x Ej. apply (SC1 j x Ej). apply nth_error_None in N. apply nth_error_lt in Ej. lia.
  - (* CWaitDead *)
    destruct (svc s (target s k)) as [ts|] eqn:SV; [|discriminate]. pose proof (threads_svc _ _ _ SV) as TS. rewrite TS in SC. destruct SC as (SC1 & SC2 & SC3).
    destruct (nth_error ts i) as [t|] eqn:N; [|discriminate]. destruct (SC3 t eq_refl) as (A & B).
    assert (X : s' = set_ctl s (CSet o k second (S i)) /\ (if second then dead t else past t)).
    { destruct (is_dead (pc t)) eqn:D.
      - injection E as <-. split; auto. apply is_dead_dead in D. destruct second; auto. apply dead_past, D.
      - destruct (cm t) eqn:CM; try discriminate E; injection E as <-; (split; [reflexivity|]; destruct second; [specialize (B eq_refl); discriminate|destruct A; auto; discriminate]). }
    destruct X as [-> X]. apply (inv_ctl s); auto; try (rewrite C; discriminate); try discriminate.
    + intros name P Q. apply (next_frame s); auto. apply (i_prep _ _ IV name P). rewrite C. exact Q.
    + unfold Sched_Proofs.scan_ok. cbn [ctl set_ctl]. change (target (set_ctl s (CSet o k second (S i))) k) with (target s k). change (threads (set_ctl s (CSet o k second (S i)))) with (threads s). rewrite TS.
      split; [|exact SC2]. intros j x Ej J. destruct (Nat.eq_dec j i) as [->|NE]; [|apply (SC1 j x Ej); lia].
      rewrite N in Ej. injection Ej as <-. exact X.
  - (* CNew *)
    injection E as <-. destruct K as (K1 & K2). cbn zeta. set (ts := repeat (Thr CmdStop TDead) (length (threads_of n))). set (s0 := set_svc s (negb (index s)) (Some ts)).
    match goal with |- inv ?x => set (s1 := x) end.
    assert (T1 : forall b, threads s1 b = threads s0 b) by reflexivity.
    assert (AD : Forall dead ts) by (apply Forall_forall; intros x X; apply repeat_spec in X; subst x; reflexivity).
    apply (inv_frame s); auto; try (rewrite C; discriminate); try reflexivity.
    + intros name' IF HC. apply (current_frame s); auto; try (rewrite C; discriminate); try discriminate.
      * cbn. unfold updb. destruct (index s); reflexivity.
      * rewrite T1. subst s0. rewrite threads_set_other by (destruct (index s); discriminate). apply run_rel_refl.
    + rewrite T1. subst s0. rewrite threads_set_other by (destruct (index s); discriminate). auto.
    + rewrite T1. subst s0. rewrite threads_set_same. revert AD. apply Forall_impl. intros t D. split; auto. unfold boot. rewrite D. exact I.
    + discriminate.
    + unfold Sched_Proofs.ctl_ok. cbn [ctl s1]. change (index s1) with (index s). rewrite T1. subst s0. rewrite threads_set_same. split; [exact K1|]. split; [exact AD|]. apply repeat_length.
  - (* CInfo *)
    injection E as <-. destruct K as (K1 & K2 & K3). apply (inv_ctl s); auto; try (rewrite C; discriminate); try discriminate.
    + cbn. unfold updb. destruct (index s); reflexivity.
    + unfold Sched_Proofs.ctl_ok. cbn [ctl]. split; [exact K1|]. split; [exact K3|]. exists (gen s). cbn. apply updb_same.
  - (* CStartThr *)
    destruct K as (K1 & K2 & g & K3). destruct (svc s (negb (index s))) as [ts|] eqn:SV; [|discriminate]. pose proof (threads_svc _ _ _ SV) as TS.
    destruct (i <? length ts) eqn:L; injection E as <-.
    + set (s1 := set_ctl _ _). assert (T1 : forall b, threads s1 b = threads (set_svc s (negb (index s)) (Some (set_nth ts i (Thr CmdStart TBoot)))) b) by reflexivity.
      apply (inv_frame s); auto; try (rewrite C; discriminate); try reflexivity.
      * intros name' IF HC. apply (current_frame s); auto; try (rewrite C; discriminate); try discriminate.
        rewrite T1. rewrite threads_set_other by (destruct (index s); discriminate). apply run_rel_refl.
      * rewrite T1. rewrite threads_set_other by (destruct (index s); discriminate). auto.
      * rewrite T1. rewrite threads_set_same. apply Forall_set; [rewrite <- TS; exact (i_next _ _ IV)|]. split; [exact I|]. right. apply K1.
      * discriminate.
      * unfold Sched_Proofs.ctl_ok. cbn [ctl s1 set_ctl]. change (index s1) with (index s). rewrite T1. rewrite threads_set_same, set_nth_length, <- TS. split; [exact K1|]. split; [exact K2|]. exists g. exact K3.
    + apply (inv_ctl s); auto; try (rewrite C; discriminate); try discriminate.
      * cbn. exists n, g. split; [apply K1|]. split; [apply K1|]. split; [exact K3|exact K2].
  - (* CIndex *)
    injection E as <-. destruct K as (K0 & K00 & K1 & K2 & name & K3 & K4). destruct K4 as (n & g & P & V & T & L).
    assert (NN : negb (negb (index s)) = index s) by (destruct (index s); reflexivity).
    constructor; cbn [log add index ctl]; try rewrite (in_force_neutral ESwitch _ I); try rewrite (prepared_neutral ESwitch _ I); try rewrite (stopped_neutral ESwitch _ I).
    + intros _ nm Q. rewrite K3 in Q. injection Q as <-. destruct P as (P1 & P2 & P3). exists n, g. cbn. repeat split; auto; try contradiction. intros i t Et.
      unfold threads in Et. cbn in Et. fold (threads s (negb (index s))) in Et. pose proof (nth_error_lt _ _ _ Et) as LT. rewrite L in LT.
      destruct (nth_error (threads_of n) i) as [es|] eqn:N; [|apply nth_error_None in N; lia]. exists es. split; auto.
      pose proof (proj1 (Forall_nth _ _) (i_next _ _ IV) i t Et) as [B _]. rewrite K2. unfold thread_ok, boot in *. destruct (pc t); try contradiction B; reflexivity.
    + rewrite K3. discriminate.
    + rewrite NN. change (Forall (fun t => boot t /\ (dead t \/ posted s = false)) (threads s (index s))). revert K1. apply Forall_impl. intros t D. split; auto. unfold boot. rewrite D. exact I.
    + rewrite K0. discriminate.
    + rewrite K00. discriminate.
    + unfold Sched_Proofs.ctl_ok. cbn [ctl add log]. rewrite (in_force_neutral ESwitch _ I). split; [congruence|]. cbn [index]. change (Forall dead (threads s (negb (negb (index s))))). rewrite NN. exact K1.
    + exact I.
    + intros i. rewrite (runs_neutral i ESwitch _ I), (in_force_neutral ESwitch _ I). left. apply K2.
    + exact (i_log _ _ IV).
    + intros [Q|Q]; [discriminate|]. exact (i_bad _ _ IV Q).
  - (* CCur *)
    destruct K as (K0 & K1). destruct (in_force (log s)) as [name|] eqn:IF; [|congruence].
    destruct (i_cur _ _ IV) with (name := name) as (n & g & H1 & H2 & H3 & H4 & H5); auto; [rewrite C; discriminate|]. destruct (H4 C) as (A1 & A2 & A3).
    rewrite A2, A3 in E. injection E as <-. match goal with |- inv ?x => set (s1 := x) end.
    apply (inv_frame s); auto; try (rewrite C; discriminate); try reflexivity.
    + intros nm Q _. rewrite IF in Q. injection Q as <-. exists n, g. repeat split; auto; try discriminate.
    + exact (i_next _ _ IV).
    + intros nm Q R. apply (next_frame s); auto. apply (i_prep _ _ IV nm Q). rewrite C. reflexivity.
  - (* CPost *)
    injection E as <-. match goal with |- inv ?x => set (s1 := x) end. apply (inv_frame s); auto; try (rewrite C; discriminate); try reflexivity.
    + intros nm Q HC. apply (current_frame s); auto; try (rewrite C; discriminate); try discriminate. apply run_rel_refl.
    + change (threads s1) with (threads s). revert K. apply Forall_impl. intros t D. split; auto. unfold boot. rewrite D. exact I.
    + intros nm Q R. apply (next_frame s); auto. apply (i_prep _ _ IV nm Q). rewrite C. reflexivity.
  - (* CBroadcast *)
    injection E as <-. match goal with |- inv ?x => set (s1 := x) end.
    assert (T1 : forall b, threads s1 b = map wake (threads s b)) by (intros b; unfold threads, s1; cbn [svc]; destruct (svc s b); reflexivity).
    apply (inv_frame s); auto; try (rewrite C; discriminate); try reflexivity.
    + intros nm Q HC. apply (current_frame s); auto; try (rewrite C; discriminate); try discriminate. rewrite T1. apply run_rel_wake.
    + rewrite T1. apply run_rel_dead, run_rel_wake.
    + rewrite T1. assert (F : Forall dead (map wake (threads s (negb (index s))))) by (revert K; apply run_rel_dead, run_rel_wake). revert F. apply Forall_impl. intros t D. split; auto. unfold boot. rewrite D. exact I.
    + intros nm Q R. apply (next_frame s); auto; [|rewrite T1; apply map_length]. apply (i_prep _ _ IV nm Q). rewrite C. reflexivity.
  - (* CStop *)
    assert (PREP : forall c, prepping c = false -> forall name, prepared (log s) = Some name -> prepping c = false -> next_ok (set_ctl s c) name).
    { intros c _ nm P _. apply (next_frame s); auto. apply (i_prep _ _ IV nm P). rewrite C. reflexivity. }
    destruct (valid s) eqn:V.
    + injection E as <-. destruct (svc s (index s)) as [ts|] eqn:SV; (apply (inv_ctl s); auto; try (rewrite C; discriminate); try discriminate; try (apply PREP; reflexivity)); try exact I.
      * cbn. split; [intros j x _ J; lia|discriminate].
      * cbn. unfold threads. cbn. rewrite SV. constructor.
    + injection E as <-. apply (inv_ctl s); auto; try (rewrite C; discriminate); try discriminate; try (apply PREP; reflexivity); exact I.
  - (* CRet *)
    injection E as <-. set (s1 := set_ctl (add s (ERet o ok1)) CIdle).
    assert (IFE : in_force (log s1) = in_force (log s)) by (destruct o, ok1; reflexivity).
    assert (RE : forall i, runs i (log s1) = runs i (log s)) by (intros i; destruct o, ok1; reflexivity).
    constructor; rewrite ?IFE.
    + intros _ nm Q. destruct (i_cur _ _ IV) with (name := nm) as (n & g & H1 & H2 & H3 & H4 & H5); auto; [rewrite C; discriminate|].
      exists n, g. split; [exact H1|]. split; [exact H2|]. split; [intros _; apply H3; rewrite C; discriminate|]. split; [discriminate|]. intros i t Et. rewrite RE. exact (H5 i t Et).
    + exact (i_none _ _ IV).
    + exact (i_next _ _ IV).
    + intros Q. destruct o as [name| |]; destruct ok1; try exact (i_stopped _ _ IV Q). exact K.
    + intros nm Q _. change (next_ok s nm). destruct o as [name| |]; cbn [log s1 set_ctl add prepared] in Q.
      * destruct ok1; [|discriminate]. injection Q as <-. exact K.
      * apply (i_prep _ _ IV nm Q). rewrite C. reflexivity.
      * apply (i_prep _ _ IV nm Q). rewrite C. reflexivity.
    + exact I.
    + exact I.
    + intros i. rewrite RE, IFE. exact (i_runs _ _ IV i).
    + exact (i_log _ _ IV).
    + intros [Q|Q]; [discriminate|]. exact (i_bad _ _ IV Q).
Qed.

Lemma inv_call s o : inv s -> ctl s = CIdle -> disciplined (ECall o :: log s) -> inv (set_ctl (add s (ECall o)) (entry o)).
Proof.
  intros IV C D. destruct o as [name| |].
  3, 1: (constructor;
    [intros _ nm Q; destruct (i_cur _ _ IV) with (name := nm) as (n & g & H1 & H2 & H3 & H4 & H5); auto; [rewrite C; discriminate|];
     exists n, g; split; [exact H1|]; split; [exact H2|]; split; [intros _; apply H3; rewrite C; discriminate|]; split; [discriminate|exact H5]
    |exact (i_none _ _ IV)|exact (i_next _ _ IV)|exact (i_stopped _ _ IV)
    |intros nm Q P; try discriminate P; apply (i_prep _ _ IV nm Q); rewrite C; reflexivity
    |exact I|exact I|exact (i_runs _ _ IV)|exact (i_log _ _ IV)|intros [Q|Q]; [discriminate|]; exact (i_bad _ _ IV Q)]).
  cbn [disciplined] in D. destruct D as (D1 & D2 & D3). destruct (prepared (log s)) as [name|] eqn:P; [|congruence].
  assert (NX : next_ok s name) by (apply (i_prep _ _ IV name P); rewrite C; reflexivity).
  constructor; cbn [set_ctl add ctl entry log in_force stopped prepared runs]; try congruence; try discriminate.
  - exact (i_next _ _ IV).
  - unfold Sched_Proofs.ctl_ok. cbn [set_ctl add ctl entry log in_force stopped prepared runs]. split; [reflexivity|]. split; [reflexivity|]. split; [exact (i_stopped _ _ IV D1)|]. split; [reflexivity|]. exists name. split; [exact P|exact NX].
  - exact I.
  - intros i. left. reflexivity.
  - exact (i_log _ _ IV).
  - intros [Q|Q]; [discriminate|]. exact (i_bad _ _ IV Q).
Qed.

Lemma step_log sp s a s' : step sp s a = Some s' -> exists k, log s' = k ++ log s.
Proof.
  intros E. destruct a as [o|ok|b i o|b i]; cbn [Sched_Model.step] in E.
  - destruct (ctl s); try discriminate. injection E as <-. exists [ECall o]. reflexivity.
  - unfold cstep in E. repeat match type of E with context[match ?x with _ => _ end] => destruct x; try discriminate E end; injection E as <-; first [exists []; reflexivity|eexists [_]; reflexivity].
  - destruct (svc s b) as [ts|]; [|discriminate]. destruct (nth_error ts i) as [t|]; [|discriminate]. destruct (tstep s b i t o) as [[t' es]|]; [|discriminate]. injection E as <-. exists es. reflexivity.
  - destruct sp; [|discriminate]. destruct (svc s b) as [ts|]; [|discriminate]. destruct (nth_error ts i) as [[c p]|]; [|discriminate]. destruct p; try discriminate. injection E as <-. exists []. reflexivity.
Qed.
Lemma disciplined_app k l : disciplined (k ++ l) -> disciplined l.
Proof. induction k as [|e k IH]; auto. intros D. apply IH, (disciplined_tail e), D. Qed.
Lemma inv_init : inv (init).
Proof. constructor; cbn; auto; try discriminate; try (constructor; fail). left. reflexivity. Qed.
Lemma inv_step s a s' : (disciplined (log s) -> inv s) -> step false s a = Some s' -> disciplined (log s') -> inv s'.
Proof.
  intros IH E D. pose proof (step_log _ _ _ _ E) as [k LG]. assert (IV : inv s) by (apply IH, (disciplined_app k); rewrite <- LG; exact D).
  destruct a as [o|ok|b i o|b i]; cbn [Sched_Model.step] in E.
  - destruct (ctl s) eqn:C; try discriminate. injection E as <-. apply inv_call; auto.
  - exact (inv_client _ _ _ IV E).
  - destruct (svc s b) as [ts|] eqn:SV; [|discriminate]. destruct (nth_error ts i) as [t|] eqn:N; [|discriminate]. destruct (tstep s b i t o) as [[t' es]|] eqn:T; [|discriminate]. injection E as <-.
    destruct (Bool.bool_dec b (index s)) as [->|NE]; [exact (inv_thread_cur _ _ _ _ _ _ _ _ IV SV N T)|].
    assert (b = negb (index s)) as -> by (destruct b, (index s); congruence || reflexivity). exact (inv_thread_next _ _ _ _ _ _ _ _ IV SV N T).
  - discriminate.
Qed.
Lemma inv_exec sch s : Conc.exec (step false) init sch = Some s -> disciplined (log s) -> inv s.
Proof.
  apply (exec_inv (step false) (fun s => disciplined (log s) -> inv s)).
  - intros s0 a s1 IH E D. exact (inv_step _ _ _ IH E D).
  - intros _. exact inv_init.
Qed.
End Sched.
