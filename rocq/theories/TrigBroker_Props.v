(** C25: MemoryMapAsyncTriggerOutputBroker, a real-time thread that calls Execute and a service thread that calls BufferLoop. *)
From Verif Require Import Base Conc TrigBroker_Model TrigBroker_Proofs.
Open Scope nat_scope.

(** * Specification *)
(** The samples given to Execute, in order: the K memory cells of each. *)
Fixpoint given (K : nat) (sched : list action) : list (list Z) :=
  match sched with [] => [] | AExec d :: r => map d (seq 0 K) :: given K r | _ :: r => given K r end.
(** The samples with which Synchronise was called, in order. *)
Definition synchronised (l : list event) : list (list Z) := rev (syncs l).
(** Sample i is wanted when a triggered sample j (cell T positive) is at most [pre] samples after it or at most [post] before it. *)
Definition wanted (T pre post : nat) (X : list (list Z)) (i : nat) : Prop :=
  exists j, j < length X /\ (0 < nth T (nth j X []) 0)%Z /\ j <= i + pre /\ i <= j + post.
(** [picks X n l]: l is the wanted ones among the first n samples of X, each once and in order. *)
Inductive picks (T pre post : nat) (X : list (list Z)) : nat -> list (list Z) -> Prop :=
| picks_0 : picks T pre post X 0 []
| picks_yes n l : picks T pre post X n l -> wanted T pre post X n -> picks T pre post X (S n) (l ++ [nth n X []])
| picks_no n l : picks T pre post X n l -> ~ wanted T pre post X n -> picks T pre post X (S n) l.
(** [kept_up N pre] (TrigBroker_Proofs): at every time there is a free buffer besides those not yet passed by the service thread and
    those kept for the pre-trigger window. *)

(** Only actions of the two threads: no new call, no spurious wake-up. *)
Definition internal (a : action) : bool := match a with AP | AC _ => true | _ => false end.

(** * From the invariant to executions *)
Lemma wanted_sel T pre post X i : wanted T pre post X i <-> selb T pre post X i = true.
Proof.
  rewrite selb_true. unfold wanted, trg. split; intros (j & A & B & C); exists j; (split; [exact A|]); split; auto; apply Z.ltb_lt; exact B.
Qed.
Lemma picks_chosen T pre post X n : picks T pre post X n (chosen T pre post X n).
Proof.
  induction n as [|n IH]; [constructor|]. rewrite <- (Nat.add_1_r n), chosen_succ. rewrite Nat.add_1_r.
  destruct (selb T pre post X n) eqn:E.
  - apply picks_yes; [exact IH|]. apply wanted_sel. exact E.
  - rewrite app_nil_r. apply picks_no; [exact IH|]. rewrite wanted_sel, E. discriminate.
Qed.
Lemma given_app K a : forall b, given K (a ++ b) = given K a ++ given K b.
Proof. induction a as [|x a IH]; intro b; [reflexivity|]. destruct x; cbn [app given]; rewrite IH; reflexivity. Qed.

Section Exec.
Variables (N K T pre post : nat).
Notation stp := (step N K T pre post).

Ltac pcases E := unfold pstep, take in E; try match type of E with context [lk ?x] => destruct (lk x) eqn:? end;
  repeat match type of E with context [match ?x with _ => _ end] => destruct x eqn:? end; try discriminate E; injection E as <-; cbn.
Ltac ccases E := unfold cstep, take in E; try match type of E with context [lk ?x] => destruct (lk x) eqn:? end;
  repeat match type of E with context [match ?x with _ => _ end] => destruct x eqn:? end; try discriminate E; injection E as <-; cbn.

Lemma step_log s a s' : stp s a = Some s' -> exists k, log s' = k ++ log s.
Proof.
  destruct a; cbn [step]; intro E.
  - destruct (pp s); try discriminate. injection E as <-. exists []. reflexivity.
  - pcases E; try (exists []; reflexivity); eexists [_]; reflexivity.
  - ccases E; try (exists []; reflexivity); eexists [_]; reflexivity.
  - destruct (cp s); try discriminate. injection E as <-. exists []. reflexivity.
Qed.

Lemma kept_up_app k l : kept_up N pre (k ++ l) -> kept_up N pre l.
Proof. intros H l1 l2 E. apply (H (k ++ l1)). rewrite E. apply app_assoc. Qed.
Lemma kept_up_now l : kept_up N pre l -> ahead N pre l.
Proof. intros H. apply (H []). reflexivity. Qed.
Lemma kept_up_exec sched : forall s s', exec stp s sched = Some s' -> kept_up N pre (log s') -> kept_up N pre (log s).
Proof.
  induction sched as [|b r IHr]; intros s s' E KU; cbn [exec] in E; [injection E as <-; exact KU|].
  destruct (stp s b) as [s2|] eqn:EB; [|discriminate]. destruct (step_log _ _ _ EB) as [k LK].
  apply (kept_up_app k). rewrite <- LK. eapply IHr; eauto.
Qed.

Definition infl (s : st) : list (list Z) :=
  match pp s with PCheck | PCopy _ | PTrig _ | PPre _ _ | PElse _ | PCnt _ => [cells K (cur s)] | _ => [] end.
Definition rets_ok (l : list event) : Prop := forall b, In (ERet b) l -> b = true.

Hypothesis HN : 2 <= N.
Hypothesis HT : T < K.
Hypothesis HP : pre < N.

Record Good (g : list (list Z)) (s : st) : Prop :=
  { g_inv : Inv N K T pre post s; g_given : g = rev (puts (log s)) ++ infl s; g_ret : rets_ok (log s) }.

Lemma good_step g s a s' : Good g s -> kept_up N pre (log s) -> stp s a = Some s' -> Good (g ++ given K [a]) s'.
Proof.
  intros [V G R] KU E.
  split; [eapply inv_step; eauto using kept_up_now| |].
  - rewrite G. pose proof (i_pok _ _ _ _ _ _ V) as PO. clear - PO E.
    destruct a; cbn [step given] in *; rewrite ?app_nil_r.
    + unfold infl. destruct (pp s); try discriminate. injection E as <-. cbn. rewrite app_nil_r. reflexivity.
    + unfold infl at 1. unfold pstep in E. destruct (pp s) eqn:EP; try discriminate E; cbn [pok] in PO; try subst ret; pcases E; unfold infl; cbn; rewrite ?app_nil_r; reflexivity.
    + assert (H : pp s' = pp s /\ cur s' = cur s /\ puts (log s') = puts (log s)) by (ccases E; auto).
      destruct H as (H1 & H2 & H3). unfold infl. rewrite H1, H2, H3. reflexivity.
    + destruct (cp s); try discriminate. injection E as <-. reflexivity.
  - pose proof (i_pok _ _ _ _ _ _ V) as PO. clear - PO E R.
    assert (ADD : forall e, match e with ERet b => b = true | _ => True end -> rets_ok (e :: log s)).
    { intros e H b Hb. destruct Hb as [Hb|Hb]; [rewrite Hb in H; exact H|apply R; exact Hb]. }
    destruct a; cbn [step] in *.
    + destruct (pp s); try discriminate. injection E as <-. exact R.
    + unfold pstep in E. destruct (pp s) eqn:EP; try discriminate E; cbn [pok] in PO; try subst ret; pcases E; try exact R; apply ADD; auto.
    + ccases E; try exact R; apply ADD; auto.
    + destruct (cp s); try discriminate. injection E as <-. exact R.
Qed.

Lemma good_exec sched : forall s0 g s, Good g s0 -> exec stp s0 sched = Some s -> kept_up N pre (log s) -> Good (g ++ given K sched) s.
Proof.
  induction sched as [|a r IH]; intros s0 g s H E KU; pose proof E as E0; cbn [exec] in E.
  - injection E as <-. cbn [given]. rewrite app_nil_r. exact H.
  - destruct (stp s0 a) as [s1|] eqn:ES; [|discriminate].
    pose proof (good_step _ _ _ _ H (kept_up_exec _ _ _ E0 KU) ES) as H1. specialize (IH s1 _ s H1 E KU).
    rewrite <- app_assoc in IH. rewrite <- given_app in IH. exact IH.
Qed.
Lemma good sched s : exec stp (init N pre) sched = Some s -> kept_up N pre (log s) -> Good (given K sched) s.
Proof. intros E KU. apply (good_exec sched (init N pre) [] s); auto. split; [apply inv_init; auto|reflexivity|intros b []]. Qed.

End Exec.
Lemma chosen_infl T pre post X Y n : n = 0 \/ n + pre <= length X -> length Y <= 1 -> chosen T pre post (X ++ Y) n = chosen T pre post X n.
Proof.
  intros H L. destruct Y as [|y [|z Y]]; [rewrite app_nil_r; reflexivity| |cbn in L; lia]. apply chosen_snoc. exact H.
Qed.
Lemma infl_len K s : length (infl K s) <= 1.
Proof. unfold infl. destruct (pp s); cbn; lia. Qed.

(** * The theorems *)
(** Synchronise is called exactly with the wanted samples among the first n given to Execute, where n never comes closer than [pre] to
    the last one (so that no later trigger can change what is wanted). *)
Theorem C25_window_partial N K T pre post sched s : 2 <= N -> T < K -> pre + post < N ->
  exec (step N K T pre post) (init N pre) sched = Some s -> kept_up N pre (log s) ->
  exists n, (n = 0 \/ n + pre <= length (given K sched)) /\ picks T pre post (given K sched) n (synchronised (log s)).
Proof.
  intros HN HT HP E KU. assert (HP' : pre < N) by lia. destruct (good N K T pre post HN HT HP' sched s E KU) as [V G _].
  pose proof (room N K T pre post HN HT HP' s V (kept_up_now N pre _ KU)) as [R1 _]. pose proof (i_stop _ _ _ _ _ _ V) as ST. pose proof (i_up _ _ _ _ _ _ V) as UP.
  set (n := nxt N pre (passes (log s)) + decided (cp s) - N).
  assert (LB : n = 0 \/ n + pre <= length (rev (puts (log s)))).
  { rewrite rev_length. unfold n. clear - R1 ST UP HN. unfold stopc in ST. destruct (cp s); cbn [decided]; try lia;
      destruct ST as (S0 & _ & _ & A & _ & _ & B); specialize (B eq_refl); lia. }
  exists n. split; [rewrite G, app_length; clear - LB; lia|].
  unfold synchronised. rewrite (i_sync _ _ _ _ _ _ V). fold n. rewrite G.
  rewrite <- (chosen_infl T pre post _ (infl K s) n LB (infl_len K s)). apply picks_chosen.
Qed.
(** No Execute fails. *)
Theorem C25_accepted N K T pre post sched s b : 2 <= N -> T < K -> pre + post < N ->
  exec (step N K T pre post) (init N pre) sched = Some s -> kept_up N pre (log s) -> In (ERet b) (log s) -> b = true.
Proof. intros HN HT HP E KU H. apply (g_ret _ _ _ _ _ _ _ (good N K T pre post HN HT ltac:(lia) sched s E KU)). exact H. Qed.

(** When the service thread sleeps and no Execute is under way, only the last [pre] samples are undecided. *)
Theorem C25_no_sleep_pending_partial N K T pre post sched s : 2 <= N -> T < K -> pre + post < N ->
  exec (step N K T pre post) (init N pre) sched = Some s -> kept_up N pre (log s) ->
  cp s = CWait -> ev s = false -> pp s = PIdle -> picks T pre post (given K sched) (length (given K sched) - pre) (synchronised (log s)).
Proof.
  intros HN HT HP E KU EC EE EP. assert (HP' : pre < N) by lia. destruct (good N K T pre post HN HT HP' sched s E KU) as [V G _].
  pose proof (room N K T pre post HN HT HP' s V (kept_up_now N pre _ KU)) as [R1 _].
  pose proof (i_stop _ _ _ _ _ _ V) as ST. unfold stopc in ST. rewrite EC, EP in ST. cbn [unpub mid] in ST.
  pose proof (i_ev _ _ _ _ _ _ V) as VE. rewrite EE, EP in VE. rewrite EP in R1. cbn [unpub] in R1.
  assert (H : ~ nxt N pre (passes (log s)) + 0 + pre < N + length (puts (log s))).
  { intro H. destruct (ST H) as [X|X]; [|discriminate]. destruct (VE X) as [Y|Y]; discriminate. }
  unfold infl in G. rewrite EP, app_nil_r in G. unfold synchronised. rewrite (i_sync _ _ _ _ _ _ V), EC, G, rev_length. cbn [decided].
  replace (nxt N pre (passes (log s)) + 0 - N) with (length (puts (log s)) - pre) by (clear - H R1; lia). apply picks_chosen.
Qed.

(** Neither thread waits for the other for ever: when neither can act, no call is under way and only the last [pre] samples are undecided. *)
Theorem C25_all_delivered_partial N K T pre post sched s : 2 <= N -> T < K -> pre + post < N ->
  exec (step N K T pre post) (init N pre) sched = Some s -> kept_up N pre (log s) ->
  (forall a, internal a = true -> step N K T pre post s a = None) ->
  pp s = PIdle /\ picks T pre post (given K sched) (length (given K sched) - pre) (synchronised (log s)).
Proof.
  intros HN HT HP E KU Q. destruct (good N K T pre post HN HT ltac:(lia) sched s E KU) as [V G _].
  pose proof (Q AP eq_refl) as QP. pose proof (Q (AC true) eq_refl) as QC. cbn [step] in QP, QC.
  pose proof (i_lk _ _ _ _ _ _ V) as LK.
  assert (W : cp s = CWait /\ ev s = false \/ lk s = true).
  { clear - QC. unfold cstep, take in QC. destruct (lk s); [auto|]. left. destruct (cp s); try discriminate.
    - destruct (c <? K); discriminate.
    - destruct (ev s); [discriminate|auto]. }
  assert (W2 : lk s = false).
  { destruct (lk s) eqn:EL; [|reflexivity]. exfalso. symmetry in LK. apply orb_true_iff in LK. destruct LK as [LK|LK].
    - clear - QP LK. unfold pstep in QP. destruct (pp s); discriminate.
    - clear - QC LK. unfold cstep in QC. destruct (cp s); discriminate. }
  rewrite W2 in W. destruct W as [[EC EE]|W]; [|discriminate].
  assert (EP : pp s = PIdle).
  { unfold pstep, take in QP. rewrite W2 in QP. destruct (pp s) eqn:EP; try reflexivity; try discriminate.
    - destruct (n <? K); discriminate.
    - destruct (j <? pre); discriminate. }
  split; [exact EP|]. eapply C25_no_sleep_pending_partial; eauto.
Qed.

(** ** Bounded work *)
Section Rank.
Variables (N K T pre post : nat).
Definition dist (i stop : nat) : nat := if i <=? stop then stop - i else stop + N - i.
Definition after (i : nat) : nat := if i + 1 =? N then 0 else i + 1.
Definition cst : nat := K + 5.
Definition top : nat := N * cst + 5.
Definition big : nat := top + 5.
Definition pos (s : st) : nat :=
  match cp s with
  | CLock2 => top + 4 | CTest => top + 3 | CClrP => top + 2 | CUnl2 => top + 1
  | CLock1 => top | CRead => N * cst + 4 | CUnl1 _ => N * cst + 3
  | CLoop stop => dist (r s) stop * cst + 2
  | CCopy stop c => dist (after (r s)) stop * cst + 6 + (K - c)
  | CSync stop => dist (after (r s)) stop * cst + 5
  | CClear stop _ => dist (after (r s)) stop * cst + 4
  | CNext stop _ => dist (after (r s)) stop * cst + 3
  | CWait => 0
  end.
Definition rounds (s : st) : nat :=
  match cp s with
  | CLock2 | CTest => if posted s then 1 else 0
  | CClrP => if ev s then 1 else 0
  | _ => if posted s then 2 else if ev s then 1 else 0
  end.
Definition prank (p : ppc) : nat :=
  match p with
  | PIdle => 0 | PUnlock _ => 1 | PPost => big + 2 | PPosted => 3 * big + 3 | PWrap _ => 3 * big + 4 | PInc _ => 3 * big + 5 | PLock => 3 * big + 6
  | PCnt _ => 4 * big + 7 | PElse _ => 4 * big + 8 | PPre _ j => 4 * big + 8 + (pre - j)
  | PTrig _ => 4 * big + 9 + pre | PCopy n => 4 * big + 10 + pre + (K - n) | PCheck => 4 * big + 11 + pre + K
  end.
(** How many actions the two threads can still take. *)
Definition work (s : st) : nat :=
  (length (puts (log s)) + lead pre - passes (log s)) * big + rounds s * big + pos s + prank (pp s).

Lemma dist_after i stop : 2 <= N -> i < N -> stop < N -> i <> stop -> dist i stop = dist (after i) stop + 1.
Proof.
  intros HN Hi Hs Ne. unfold dist, after. destruct (Nat.eqb_spec (i + 1) N).
  - destruct (Nat.leb_spec i stop), (Nat.leb_spec 0 stop); lia.
  - destruct (Nat.leb_spec i stop), (Nat.leb_spec (i + 1) stop); lia.
Qed.
Lemma dist_lt i stop : i < N -> stop < N -> dist i stop < N.
Proof. intros. unfold dist. destruct (Nat.leb_spec i stop); lia. Qed.

Lemma work_p s s' : 2 <= N -> Inv N K T pre post s -> pstep N K T pre post s = Some s' -> work s' < work s.
Proof.
  intros HN V E. pose proof (i_pok _ _ _ _ _ _ V) as PO. pose proof (i_DQ _ _ _ _ _ _ V) as DQ.
  assert (PS : forall x y, r x = r y -> cp x = cp y -> pos x = pos y). { intros x y A B. unfold pos. rewrite A, B. reflexivity. }
  assert (RS : forall x y, posted x = posted y -> ev x = ev y -> cp x = cp y -> rounds x = rounds y). { intros x y A B C. unfold rounds. rewrite A, B, C. reflexivity. }
  assert (RE : forall x p, rounds (set_pp (set_ev x true) p) <= rounds x + 1).
  { intros x p. clear. unfold rounds. cbn. destruct (cp x), (posted x), (ev x); lia. }
  assert (RP : forall x p, rounds (set_pp (set_posted x true) p) <= rounds x + 2).
  { intros x p. clear. unfold rounds. cbn. destruct (cp x), (posted x), (ev x); lia. }
  assert (BIG : 1 <= big) by (clear; unfold big; lia).
  assert (SAME : forall x, r x = r s -> cp x = cp s -> posted x = posted s -> ev x = ev s -> puts (log x) = puts (log s) -> passes (log x) = passes (log s) ->
            prank (pp x) < prank (pp s) -> work x < work s).
  { intros x A B C D F G H. unfold work. rewrite (PS x s A B), (RS x s C D B), F, G. clear - H. lia. }
  assert (TR : forall ret j, pp s = PPre ret j -> j <= pre). { intros ret j EP. pose proof (i_tr _ _ _ _ _ _ V) as X. unfold trc in X. rewrite EP in X. tauto. }
  unfold pstep in E. destruct (pp s) eqn:EP; try discriminate; cbn [pok] in PO; try subst ret.
  - injection E as <-. apply SAME; try reflexivity. cbn [set_pp pp]. destruct (tg s (w s)); cbn [prank]; clear; lia.
  - destruct (Nat.ltb_spec n K) as [H|H]; injection E as <-; (apply SAME; try reflexivity); cbn [set_pp set_mem pp prank]; clear - H; lia.
  - injection E as <-. destruct (0 <? mem s (w s) T)%Z; [destruct (was s)|]; (apply SAME; try reflexivity); cbn [set_pp set_cnt set_was set_tg pp prank]; clear; lia.
  - specialize (TR _ _ eq_refl). destruct (Nat.ltb_spec j pre) as [H|H]; injection E as <-.
    + destruct (j <? npre s); (apply SAME; try reflexivity); cbn [set_pp set_tg pp prank]; clear - H; lia.
    + apply SAME; try reflexivity. cbn [set_pp set_cnt pp prank]. clear - H; lia.
  - injection E as <-. destruct (0 <? cnt s); (apply SAME; try reflexivity); cbn [set_pp set_cnt set_was set_tg pp prank]; clear; lia.
  - injection E as <-. unfold work. rewrite EP. destruct (npre s <? pre); rewrite (PS (set_pp _ _) s), (RS (set_pp _ _) s) by reflexivity;
    cbn [log set_pp set_npre say puts passes length pp prank] in *; cbn [unpub] in *;
    (replace (S (length (puts (log s))) + lead pre - passes (log s)) with (S (length (puts (log s)) + lead pre - passes (log s))) by (clear - DQ; lia)); cbn [Nat.mul]; clear - BIG; lia.
  - unfold take in E. destruct (lk s); [discriminate|]. injection E as <-. apply SAME; try reflexivity. cbn [set_pp set_lk pp prank]. clear; lia.
  - injection E as <-. apply SAME; try reflexivity. cbn [set_pp set_w pp prank]. clear; lia.
  - injection E as <-. destruct (w s =? N); (apply SAME; try reflexivity); cbn [set_pp set_w pp prank]; clear; lia.
  - injection E as <-. unfold work. rewrite EP. rewrite (PS (set_pp _ _) s) by reflexivity. cbn [log set_pp set_posted pp prank].
    pose proof (RP s PPost) as H. cbn [set_pp set_posted] in *. apply (Nat.mul_le_mono_r _ _ big) in H. clear - H BIG. lia.
  - injection E as <-. unfold work. rewrite EP. rewrite (PS (set_pp _ _) s) by reflexivity. cbn [log set_pp set_ev pp prank].
    pose proof (RE s (PUnlock true)) as H. cbn [set_pp set_ev] in *. apply (Nat.mul_le_mono_r _ _ big) in H. clear - H BIG. lia.
  - injection E as <-. apply SAME; try reflexivity. cbn [set_pp set_lk say pp prank]. clear; lia.
Qed.

Lemma work_c s s' b : 2 <= N -> Inv N K T pre post s -> cstep N K pre b s = Some s' -> work s' < work s.
Proof.
  intros HN V E.
  pose proof (i_ev _ _ _ _ _ _ V) as VE. pose proof (i_ex _ _ _ _ _ _ V) as EX. pose proof (i_DQ _ _ _ _ _ _ V) as DQ. pose proof (i_stop _ _ _ _ _ _ V) as ST. pose proof (i_r _ _ _ _ _ _ V) as R.
  unfold stopc in ST.
  assert (RL : r s < N). { rewrite R. apply Nat.mod_upper_bound. clear - HN. lia. }
  assert (SL : forall stop lo, stopped N pre s (length (puts (log s))) (passes (log s)) stop lo -> stop < N).
  { intros stop lo (S0 & -> & _). apply Nat.mod_upper_bound. clear - HN. lia. }
  assert (CS : forall d, d < N -> d * cst + cst <= N * cst).
  { intros d Hd. clear - Hd. replace (d * cst + cst) with ((d + 1) * cst) by lia. apply Nat.mul_le_mono_r. lia. }
  assert (C5 : cst = K + 5) by reflexivity. assert (TP : top = N * cst + 5) by reflexivity. assert (BG : big = top + 5) by reflexivity.
  unfold cstep in E. unfold work, pos, rounds. destruct (cp s) eqn:EC.
  - unfold take in E. destruct (lk s); [discriminate|]. injection E as <-. cbn [log set_cp set_lk posted ev pp cp]. clear - TP. lia.
  - injection E as <-. cbn [log set_cp posted ev pp cp]. clear; lia.
  - rewrite (proj2 (Nat.eqb_neq N 1)) in E by (clear - HN; lia). injection E as <-. cbn [log set_cp set_lk posted ev pp cp r].
    pose proof (dist_lt (r s) stop RL (SL _ _ ST)) as H. apply CS in H. clear - H C5. lia.
  - pose proof (SL _ _ ST) as SLT. destruct (Nat.eqb_spec (r s) stop) as [H|H].
    + injection E as <-. cbn [log set_cp posted ev pp cp r]. clear; lia.
    + pose proof (dist_after (r s) stop HN RL SLT H) as DA.
      destruct (tg s (r s)); injection E as <-; cbn [log set_cp posted ev pp cp r]; rewrite DA, Nat.mul_add_distr_r; clear - C5; lia.
  - destruct (Nat.ltb_spec c K) as [H|H]; injection E as <-; cbn [log set_cp set_dsm posted ev pp cp r]; clear - H; lia.
  - injection E as <-. cbn [log set_cp say puts passes posted ev pp cp r]. clear; lia.
  - injection E as <-. cbn [log set_cp set_tg posted ev pp cp r]. clear; lia.
  - injection E as <-. cbn [log set_cp set_r say puts passes posted ev pp cp r].
    assert (EA : (if (1 <? N) && (r s + 1 =? N) then 0 else r s + 1) = after (r s)).
    { unfold after. replace (1 <? N) with true by (symmetry; apply Nat.ltb_lt; clear - HN; lia). reflexivity. }
    assert (LT : passes (log s) < length (puts (log s)) + lead pre).
    { destruct ST as (S0 & _ & _ & S4 & _ & _ & S7). specialize (S7 eq_refl). unfold nxt in S7. clear - S4 S7 HN. lia. }
    replace (length (puts (log s)) + lead pre - passes (log s)) with (S (length (puts (log s)) + lead pre - S (passes (log s)))) by (clear - LT; lia).
    rewrite EA. cbn [Nat.mul]. destruct ret; clear - BG; lia.
  - destruct (ev s) eqn:EE; [|discriminate]. injection E as <-. cbn [log set_cp posted ev pp cp r].
    destruct (posted s); clear - BG; lia.
  - unfold take in E. destruct (lk s); [discriminate|]. injection E as <-. cbn [log set_cp set_lk posted ev pp cp]. clear; lia.
  - injection E as <-. destruct (posted s) eqn:PO; cbn [log set_cp set_ev posted ev pp cp]; [|clear; lia].
    destruct (ev s); clear; lia.
  - injection E as <-. cbn [log set_cp set_posted posted ev pp cp]. clear; lia.
  - injection E as <-. cbn [log set_cp set_lk posted ev pp cp]. clear; lia.
Qed.
End Rank.

(** The two threads together can take at most [work] actions more without a new call. *)
Theorem C25_bounded_work N K T pre post sched s more s' : 2 <= N -> T < K -> pre + post < N ->
  exec (step N K T pre post) (init N pre) sched = Some s ->
  forallb internal more = true -> exec (step N K T pre post) s more = Some s' -> kept_up N pre (log s') -> length more + work N K pre s' <= work N K pre s.
Proof.
  intros HN HT HP E. revert sched s E. induction more as [|a more IH]; intros sched s E I2 E2 KU; pose proof E2 as E3; cbn [exec length] in *; [injection E2 as <-; lia|].
  destruct (step N K T pre post s a) as [s1|] eqn:ES; [|discriminate]. cbn [forallb] in I2. apply andb_true_iff in I2. destruct I2 as [IA IM].
  assert (E1 : exec (step N K T pre post) (init N pre) (sched ++ [a]) = Some s1).
  { rewrite exec_app, E. cbn [exec]. rewrite ES. reflexivity. }
  specialize (IH _ _ E1 IM E2 KU).
  assert (KU0 : kept_up N pre (log s)) by (apply (kept_up_exec N K T pre post (a :: more) s s'); [cbn [exec]; rewrite ES; exact E2|exact KU]).
  destruct (good N K T pre post HN HT ltac:(lia) sched s E KU0) as [V _ _].
  assert (work N K pre s1 < work N K pre s); [|lia].
  destruct a; try discriminate IA; cbn [step] in ES.
  - eapply work_p; eauto.
  - eapply work_c; eauto.
Qed.

(** * What does not hold *)
Definition smp (t v : Z) : nat -> Z := fun c => match c with 0 => t | _ => v end.
Definition run1 (t v : Z) (k : nat) : list action := AExec (smp t v) :: repeat AP k.
(** No pre-trigger buffers, the service thread is idle and N triggered samples in a row are accepted: the service thread takes the full
    buffer for an empty one, goes to sleep, and neither thread does anything although both samples are pending. *)
Theorem C25_full_buffer_refuted : exists s, exec (step 2 2 0 0 0) (init 2 0) (repeat (AC true) 6 ++ run1 1 5 13 ++ run1 1 6 12 ++ repeat (AC true) 18) = Some s /\
  flat_map (fun e => match e with ERet b => [b] | _ => [] end) (log s) = [true; true] /\
  synchronised (log s) = [] /\ forall a, internal a = true -> step 2 2 0 0 0 s a = None.
Proof. eexists. split; [vm_compute; reflexivity|]. split; [reflexivity|]. split; [reflexivity|]. intros [| |b|] H; try discriminate H; reflexivity. Qed.

(** Four buffers, one sample before and one after a trigger; eight samples of two cells of which the third and the seventh are triggered;
    the service thread runs after each Execute. *)
Lemma kept_up_cons N pre e l : ahead N pre (e :: l) -> kept_up N pre l -> kept_up N pre (e :: l).
Proof. intros A H [|x l1] l2 E; cbn in E; [subst l2; exact A|]. injection E as _ E. exact (H l1 l2 E). Qed.
Lemma kept_up_nil N pre : 2 <= N -> pre < N -> kept_up N pre [].
Proof. intros H H1 [|] l2 E; [cbn in E; subst; unfold ahead, lead; cbn; destruct (Nat.eqb_spec pre 0); lia|discriminate]. Qed.
Definition turn (t v : Z) (k m : nat) : list action := run1 t v k ++ repeat (AC true) m.
Example C25_case : exists s,
  exec (step 4 2 0 1 1) (init 4 1) (turn 0 1 13 24 ++ turn 0 2 13 20 ++ turn 1 3 14 25 ++ turn 0 4 13 25 ++ turn 0 5 13 25 ++ turn 0 6 13 20 ++ turn 1 7 14 25 ++ turn 0 8 13 25) = Some s /\
  kept_up 4 1 (log s) /\ synchronised (log s) = [[0; 2]; [1; 3]; [0; 4]; [0; 6]; [1; 7]]%Z /\ (forall a, internal a = true -> step 4 2 0 1 1 s a = None).
Proof.
  eexists. split; [vm_compute; reflexivity|]. split; [|split; [reflexivity|intros [| |b|] H; try discriminate H; reflexivity]].
  cbn [log]. repeat (apply kept_up_cons; [unfold ahead, lead; cbn; lia|]). apply kept_up_nil; lia.
Qed.

Print Assumptions C25_window_partial.
Print Assumptions C25_accepted.
Print Assumptions C25_no_sleep_pending_partial.
Print Assumptions C25_all_delivered_partial.
Print Assumptions C25_bounded_work.
Print Assumptions C25_full_buffer_refuted.
