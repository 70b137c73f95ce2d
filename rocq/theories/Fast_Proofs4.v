(** Proofs about the fast scheduler: all schedules; a started state runs. *)
From Coq Require Import Lia.
From Verif Require Import Base Conc Fast_Model Fast_Spec Fast_Proofs Fast_Proofs2 Fast_Proofs3.
Open Scope nat_scope.

Section All.
Variable n : nat.
Variable plan : nat -> list (nat * list exec).
Hypothesis n_pos : 0 < n.
Hypothesis plan_ok : planned n plan.
Notation work := (work plan).
Notation inv := (inv n plan).
Notation good := (good n plan).
Notation run := (Conc.exec (pstep n false plan)).

Lemma inv_pstep : forall s a s', inv s -> pstep n false plan s a = Some s' -> inv s'.
Proof.
  intros s a s' I H. destruct a as [o| |p o].
  - exact (inv_call n plan n_pos s o s' I H).
  - unfold pstep in H. cbn [patient step] in H. exact (inv_cstep n plan n_pos plan_ok s s' I H).
  - unfold pstep in H. cbn [patient step] in H. destruct (Nat.ltb_spec p n); [|discriminate]. apply (inv_tstep n plan n_pos s p o s'); assumption.
Qed.
Lemma inv_run : forall sched s, run init sched = Some s -> inv s.
Proof. intros sched s H. apply (exec_inv (pstep n false plan) inv inv_pstep sched init s); [apply inv_init; exact n_pos|exact H]. Qed.

Lemma good_split : forall post l, good (post ++ l) -> good l.
Proof. induction post as [|e post IH]; intros l H; [exact H|]. apply IH. apply H. Qed.

(** What an action of a thread changes for the others. *)
Lemma tstep_keeps : forall s p o s', tstep n false plan s p o = Some s' ->
  ctl s' = ctl s /\ running (log s') = running (log s) /\ in_force (log s') = in_force (log s) /\ (cntf s = true -> cntf s' = true) /\
  (exists es, log s' = es ++ log s) /\ (thr s p <> TBc -> forall q, q <> p -> thr s' q = thr s q).
Proof.
  intros s p o s' H. unfold tstep in H. destruct (thr s p) eqn:E; try discriminate H;
    repeat match type of H with
    | match ?x with _ => _ end = Some _ => destruct x eqn:?; try discriminate H
    | (if ?x then _ else _) = Some _ => destruct x eqn:?; try discriminate H
    end; injection H as <-; cbn [set_thr set_thrs set_cnt add ctl log cntf thr running in_force]; repeat split; auto;
    try (exists []; reflexivity); try (eexists [_]; reflexivity); try (intros _ q N; apply upd_other; exact N); try congruence.
Qed.

Definition lively (s : sys) : Prop := inv s /\ ctl s = CIdle /\ running (log s) = true.
Lemma lively_step : forall s p o s', lively s -> p < n -> tstep n false plan s p o = Some s' -> lively s'.
Proof.
  intros s p o s' (I & C & R) Hp H. pose proof (tstep_keeps s p o s' H) as (A & B & _). split; [apply (inv_tstep n plan n_pos s p o s'); assumption|]. split; congruence.
Qed.
Lemma lively_thr : forall s p, lively s -> p < n -> match thr s p with TOff | TEvS | TBad => False | TUnS => cntf s = true | _ => True end.
Proof.
  intros s p (I & C & R) Hp. destruct (i_run _ _ _ I R) as (A & B & _). pose proof (i_thr _ _ _ I p Hp) as T.
  destruct (thr s p); cbn [tok] in T; auto; try rewrite C in T.
  - destruct T. congruence.
  - destruct T as (_ & _ & [T|T]); congruence.
  - destruct T as (_ & _ & T & _). destruct (cntf s); [reflexivity|]. destruct (T eq_refl).
Qed.

(** Schedules of threads only. *)
Definition threads_only (sched : list action) : Prop := Forall (fun a => exists p, p < n /\ a = AThread p Ran) sched.
Lemma run_cons : forall s p s1 sched s2, p < n -> tstep n false plan s p Ran = Some s1 -> run s1 sched = Some s2 -> run s (AThread p Ran :: sched) = Some s2.
Proof.
  intros s p s1 sched s2 Hp H R. cbn [Conc.exec].
  assert (pstep n false plan s (AThread p Ran) = Some s1) as ->; [|exact R]. unfold pstep. cbn [patient step]. destruct (Nat.ltb_spec p n); [exact H|lia].
Qed.

(** Everybody comes to the counting semaphore. *)
Definition rank (t : tpc) : nat := match t with TCycle _ i k => 5 + (k - i) | TFin => 4 | TEv => 3 | TCnt => 2 | TPost => 1 | _ => 0 end.
Definition total (s : sys) : nat := sum (fun q => rank (thr s q)) n.

Lemma total_lt : forall s p s' o, p < n -> thr s p <> TBc -> tstep n false plan s p o = Some s' -> rank (thr s' p) < rank (thr s p) -> total s' < total s.
Proof.
  intros s p s' o Hp NB H L. unfold total.
  pose proof (sum_change (fun q => rank (thr s' q)) (fun q => rank (thr s q)) n p Hp) as SC. cbv beta in SC.
  destruct (tstep_keeps s p o s' H) as (_ & _ & _ & _ & _ & K). specialize (SC ltac:(intros q N; f_equal; apply K; assumption)). lia.
Qed.

Lemma gather : forall m s, lively s -> total s < m -> exists sched s', threads_only sched /\ run s sched = Some s' /\ lively s' /\ cntf s' = true /\
  in_force (log s') = in_force (log s) /\ exists es, log s' = es ++ log s.
Proof.
  induction m as [|m IH]; intros s V L; [lia|].
  destruct (cntf s) eqn:F.
  { exists [], s. split; [constructor|]. split; [reflexivity|]. split; [exact V|]. split; [exact F|]. split; [reflexivity|exists []; reflexivity]. }
  assert (exists p s1, p < n /\ tstep n false plan s p Ran = Some s1 /\ total s1 < total s) as (p & s1 & Hp & H & D).
  { pose proof V as (I & C & R). destruct (i_wait _ _ _ I F) as (A & B & _).
    destruct (Nat.eq_dec (cnt s) n) as [Z|Z].
    - destruct (B Z) as (p & Hp & P). exists p. unfold tstep. rewrite P. eexists. split; [exact Hp|]. split; [reflexivity|].
      apply (total_lt s p _ Ran Hp); [congruence|unfold tstep; rewrite P; reflexivity|]. cbn [set_cnt set_thr thr]. rewrite upd_same, P. cbn. lia.
    - pose proof (sum_bound (fun q => counted (thr s q)) n (counted_le (thr s))) as SB.
      destruct (sum_some (fun q => counted (thr s q)) n (counted_le (thr s)) ltac:(lia)) as (p & Hp & P). cbv beta in P.
      pose proof (lively_thr s p V Hp) as Q. pose proof (i_thr _ _ _ I p Hp) as T. destruct (i_run _ _ _ I R) as (Ev & _).
      exists p. destruct (thr s p) eqn:E; try discriminate P; try contradiction; cbn [tok] in T; try (exfalso; destruct T as (_ & _ & _ & T); congruence); try (exfalso; destruct T as (_ & _ & _ & T & _); congruence).
      + eexists. split; [exact Hp|]. assert (tstep n false plan s p Ran = Some (set_thr s p TCnt)) as H by (unfold tstep; rewrite E, Ev; reflexivity).
        split; [exact H|]. apply (total_lt s p _ Ran Hp ltac:(congruence) H). cbn [set_thr thr]. rewrite upd_same, E. cbn. lia.
      + eexists. split; [exact Hp|]. assert (tstep n false plan s p Ran = Some (set_cnt (set_thr s p (if S (cnt s) =? n then TPost else TCw)) (if n <? S (cnt s) then n else S (cnt s)) (cntf s))) as H by (unfold tstep; rewrite E; reflexivity).
        split; [exact H|]. apply (total_lt s p _ Ran Hp ltac:(congruence) H). cbn [set_cnt set_thr thr]. rewrite upd_same, E. destruct (_ =? _); cbn; lia.
      + destruct T as (_ & r & _ & TL & TO & ->).
        destruct (Nat.ltb_spec i (length (work st p))) as [Li|Li].
        * destruct (nth_error (work st p) i) as [e|] eqn:N; [|apply nth_error_None in N; lia].
          eexists. split; [exact Hp|]. assert (tstep n false plan s p Ran = Some (add (set_thr s p (TCycle st (S i) (length (work st p)))) (ERun p e Ran))) as H.
          { unfold tstep. rewrite E. destruct (Nat.ltb_spec i (length (work st p))); [|lia]. rewrite N. reflexivity. }
          split; [exact H|]. apply (total_lt s p _ Ran Hp ltac:(congruence) H). cbn [add set_thr thr]. rewrite upd_same, E. cbn. lia.
        * eexists. split; [exact Hp|]. assert (tstep n false plan s p Ran = Some (set_thr s p TFin)) as H.
          { unfold tstep. rewrite E. destruct (Nat.ltb_spec i (length (work st p))); [lia|]. reflexivity. }
          split; [exact H|]. apply (total_lt s p _ Ran Hp ltac:(congruence) H). cbn [add set_thr thr]. rewrite upd_same, E. cbn. lia.
      + eexists. split; [exact Hp|]. assert (tstep n false plan s p Ran = Some (add (set_thr s p TEv) (EEnd p))) as H by (unfold tstep; rewrite E; reflexivity).
        split; [exact H|]. apply (total_lt s p _ Ran Hp ltac:(congruence) H). cbn [add set_thr thr]. rewrite upd_same, E. cbn. lia. }
  destruct (IH s1 (lively_step s p Ran s1 V Hp H) ltac:(lia)) as (sched & s2 & TO & R & V2 & F2 & G2 & (es & G3)).
  destruct (tstep_keeps s p Ran s1 H) as (_ & _ & K & _ & (es1 & K2) & _).
  exists (AThread p Ran :: sched), s2. split; [constructor; [exists p; auto|exact TO]|]. split; [apply (run_cons s p s1); assumption|].
  split; [exact V2|]. split; [exact F2|]. split; [congruence|]. exists (es ++ es1). rewrite G3, K2, app_assoc. reflexivity.
Qed.

(** Then a thread with executables begins its cycle. *)
Definition rank2 (t : tpc) : nat :=
  match t with TCycle _ i k => 12 + (k - i) | TFin => 11 | TEv => 10 | TCnt => 9 | TCw => 8 | TCwS => 7 | TBc => 7 | TIdx => 5 | TNum _ => 4 | TPtr _ _ => 3 | _ => 0 end.
Lemma goes : forall m s p st, lively s -> cntf s = true -> p < n -> in_force (log s) = Some st -> work st p <> [] -> rank2 (thr s p) < m ->
  exists sched s' es, threads_only sched /\ run s sched = Some s' /\ log s' = EBegin p st :: es ++ log s.
Proof.
  induction m as [|m IH]; intros s p st V F Hp St W L; [lia|].
  pose proof V as (I & C & R). pose proof (lively_thr s p V Hp) as Q. pose proof (i_thr _ _ _ I p Hp) as T. destruct (i_run _ _ _ I R) as (Ev & _).
  assert (forall q s1, q < n -> tstep n false plan s q Ran = Some s1 -> rank2 (thr s1 p) < rank2 (thr s p) ->
    exists sched s' es, threads_only sched /\ run s sched = Some s' /\ log s' = EBegin p st :: es ++ log s) as K.
  { intros q s1 Hq H D. destruct (tstep_keeps s q Ran s1 H) as (_ & _ & K & KF & (es1 & K2) & _).
    destruct (IH s1 p st (lively_step s q Ran s1 V Hq H) (KF F) Hp ltac:(congruence) W ltac:(lia)) as (sched & s2 & es & TO & R2 & G).
    exists (AThread q Ran :: sched), s2, (es ++ es1). split; [constructor; [exists q; auto|exact TO]|]. split; [apply (run_cons s q s1); assumption|].
    rewrite G, K2, app_assoc. reflexivity. }
  destruct (thr s p) eqn:E; try contradiction; cbn [tok] in T.
  - apply (K p (set_thr s p TCnt) Hp); [unfold tstep; rewrite E, Ev; reflexivity|]. cbn [set_thr thr]. rewrite upd_same. cbn. lia.
  - apply (K p (set_cnt (set_thr s p (if S (cnt s) =? n then TPost else TCw)) (if n <? S (cnt s) then n else S (cnt s)) (cntf s)) Hp); [unfold tstep; rewrite E; reflexivity|].
    cbn [set_cnt set_thr thr]. rewrite upd_same. destruct (_ =? _); cbn; lia.
  - destruct T as (_ & _ & _ & T & _). congruence.
  - apply (K p (set_thr (set_thrs s (fun q => wake_cnt (thr s q))) p TIdx) Hp); [unfold tstep; rewrite E; reflexivity|].
    cbn [set_thrs set_thr thr]. rewrite upd_same. cbn. lia.
  - apply (K p (set_thr s p TIdx) Hp); [unfold tstep; rewrite E, F; reflexivity|]. cbn [set_thr thr]. rewrite upd_same. cbn. lia.
  - destruct T as (_ & _ & T). destruct (T F) as (q & Hq & B).
    apply (K q (set_thr (set_thrs s (fun q => wake_cnt (thr s q))) q TIdx) Hq); [unfold tstep; rewrite B; reflexivity|].
    cbn [set_thrs set_thr thr]. rewrite upd_other by congruence. rewrite E. cbn. lia.
  - apply (K p (set_thr s p (TNum (index s))) Hp); [unfold tstep; rewrite E; reflexivity|]. cbn [set_thr thr]. rewrite upd_same. cbn. lia.
  - destruct T as (_ & _ & _ & _ & ->). destruct (i_force _ _ _ I st St p Hp) as (N & _).
    destruct (length (work st p)) as [|k] eqn:LL; [apply length_zero_iff_nil in LL; contradiction|].
    apply (K p (set_thr s p (TPtr (index s) (S k))) Hp); [unfold tstep; rewrite E, N; reflexivity|]. cbn [set_thr thr]. rewrite upd_same. cbn. lia.
  - destruct T as (_ & _ & _ & _ & -> & _). destruct (i_force _ _ _ I st St p Hp) as (_ & N). specialize (N W).
    exists [AThread p Ran], (add (set_thr s p (TCycle st 0 k)) (EBegin p st)), []. split; [constructor; [exists p; auto|constructor]|]. split; [|reflexivity].
    apply (run_cons s p (add (set_thr s p (TCycle st 0 k)) (EBegin p st))); auto. unfold tstep. rewrite E, N. reflexivity.
  - destruct T as (_ & r & _ & TL & TO & ->). destruct (Nat.ltb_spec i (length (work st0 p))) as [Li|Li].
    + destruct (nth_error (work st0 p) i) as [e|] eqn:N; [|apply nth_error_None in N; lia].
      apply (K p (add (set_thr s p (TCycle st0 (S i) (length (work st0 p)))) (ERun p e Ran)) Hp).
      * unfold tstep. rewrite E. destruct (Nat.ltb_spec i (length (work st0 p))); [|lia]. rewrite N. reflexivity.
      * cbn [add set_thr thr]. rewrite upd_same. cbn. lia.
    + apply (K p (set_thr s p TFin) Hp).
      * unfold tstep. rewrite E. destruct (Nat.ltb_spec i (length (work st0 p))); [lia|]. reflexivity.
      * cbn [add set_thr thr]. rewrite upd_same. cbn. lia.
  - apply (K p (add (set_thr s p TEv) (EEnd p)) Hp); [unfold tstep; rewrite E; reflexivity|]. cbn [add set_thr thr]. rewrite upd_same. cbn. lia.
  - destruct T as (_ & _ & _ & _ & T). specialize (T st St). contradiction.
  - destruct T as (_ & _ & _ & T). specialize (T F). rewrite C in T. specialize (T st St). contradiction.
Qed.

Lemma started_runs : forall s p st, lively s -> p < n -> in_force (log s) = Some st -> work st p <> [] ->
  exists sched s' es, threads_only sched /\ run s sched = Some s' /\ log s' = EBegin p st :: es ++ log s.
Proof.
  intros s p st V Hp St W. destruct (gather (S (total s)) s V ltac:(lia)) as (sched1 & s1 & T1 & R1 & V1 & F1 & G1 & (es1 & L1)).
  destruct (goes (S (rank2 (thr s1 p))) s1 p st V1 F1 Hp ltac:(congruence) W ltac:(lia)) as (sched2 & s2 & es2 & T2 & R2 & L2).
  exists (sched1 ++ sched2), s2, (es2 ++ es1). split; [apply Forall_app; split; assumption|]. split.
  - rewrite exec_app, R1. exact R2.
  - rewrite L2, L1, app_assoc. reflexivity.
Qed.
End All.
