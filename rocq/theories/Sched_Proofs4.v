(** Clients that stop, prepare and start in this order: nothing blocks. *)
From Coq Require Import String.
From Verif Require Import Base Conc Sched_Model Sched_Spec Sched_Proofs Sched_Proofs2 Sched_Proofs3.
Open Scope nat_scope.

Lemma strict_disciplined l : strict l -> disciplined l.
Proof. induction l as [|e l IH]; auto. destruct e as [[]|[] []| | |]; cbn; tauto. Qed.
Lemma strict_tail e l : strict (e :: l) -> strict l.
Proof. destruct e as [[]|[] []| | |]; cbn; tauto. Qed.
Lemma strict_app k l : strict (k ++ l) -> strict l.
Proof. induction k as [|e k IH]; auto. intros D. apply IH, (strict_tail e), D. Qed.

Definition alive (t : thr) : Prop :=
  match pc t with TBoot | TKeep => cm t = CmdStart | TDead | TTerm => False | _ => cm t = CmdKeep end.
Definition awake (t : thr) : Prop := pc t <> TSleep.

Section Sched.
Variable states : list (string * list (list exec)).
Notation threads_of := (threads_of states).
Notation inv := (inv states).
Notation step := (step states).

Definition nxt_ok (s : sys) : Prop :=
  let nxt := threads s (negb (index s)) in
  match ctl s with
  | CStartThr _ _ i => forall j t, nth_error nxt j = Some t -> if j <? i then alive t else dead t
  | CRet (OPrepare _) true | CIndex => Forall alive nxt
  | _ => match prepared (log s) with Some _ => Forall alive nxt | None => Forall dead nxt end
  end.
Definition all_alive (s : sys) : Prop :=
  Forall alive (threads s (index s)) /\
  forall name n, in_force (log s) = Some name -> find_state states name 0 = Some n -> length (threads s (index s)) = length (threads_of n).
Definition cur_live (s : sys) : Prop :=
  match ctl s with
  | CIndex | CRet OStop true => True
  | CCur | CPost => all_alive s
  | CBroadcast => all_alive s /\ posted s = true
  | CSet _ KStop _ _ | CWaitDead _ KStop _ _ => posted s = true /\ Forall awake (threads s (index s))
  | _ => all_alive s /\ posted s = true /\ Forall awake (threads s (index s))
  end.
Definition there (s : sys) : Prop :=
  match ctl s with
  | CSet _ k _ _ => svc s (target s k) <> None
  | CWaitDead _ k _ i => match svc s (target s k) with Some ts => i < length ts | None => False end
  | CInfo _ _ | CStartThr _ _ _ => svc s (negb (index s)) <> None
  | _ => True
  end.
Record linv (s : sys) : Prop := LInv {
  l_prep : prepping (ctl s) = true -> stopped (log s) = true /\ prepared (log s) = None;
  l_next : nxt_ok s;
  l_cur : stopped (log s) = false -> cur_live s;
  l_there : there s
}.

(** * Threads *)
Lemma alive_step s b i t o t' evs : alive t -> tstep s b i t o = Some (t', evs) -> ~ In EBad evs -> alive t' /\ (posted s = true -> awake t -> awake t').
Proof.
  unfold alive, tstep, awake. intros A E NB. destruct (pc t) as [| | | | | | | |x g rest|x g|] eqn:P; try discriminate E; try contradiction A; rewrite ?A in E; cbn [is_keep] in E.
  - injection E as <- <-. cbn. split; auto. discriminate.
  - injection E as <- <-. cbn. split; auto. discriminate.
  - injection E as <- <-. cbn. split; auto. discriminate.
  - injection E as <- <-. destruct (posted s); cbn; split; auto; discriminate.
  - injection E as <- <-. cbn. split; auto. discriminate.
  - destruct (tab s (index s)) as [| |g l]; [injection E as <- <-; cbn; split; auto; discriminate|injection E as <- <-; exfalso; apply NB; left; reflexivity|].
    destruct (nth_error l i); injection E as <- <-; [cbn; split; auto; discriminate|]. exfalso; apply NB; left; reflexivity.
  - destruct rest; [injection E as <- <-; cbn; split; auto; discriminate|]. injection E as <- <-. destruct o; cbn; split; auto; discriminate.
  - destruct (tab s x) as [| |g' l]; try (injection E as <- <-; exfalso; apply NB; left; reflexivity).
    destruct (g =? g'); injection E as <- <-; [cbn; split; auto; discriminate|]. exfalso; apply NB; left; reflexivity.
Qed.
Lemma awake_step s b i t o t' evs : tstep s b i t o = Some (t', evs) -> posted s = true -> awake t'.
Proof.
  unfold tstep, awake. intros E P.
  destruct (pc t) as [| | | | | | | |x g rest|x g|]; try discriminate E; rewrite ?P in E;
    repeat match type of E with context[match ?x with _ => _ end] => destruct x end; injection E as <- <-; cbn; discriminate.
Qed.

Lemma linv_thread s b ts i t o t' evs : inv s -> linv s -> svc s b = Some ts -> nth_error ts i = Some t -> tstep s b i t o = Some (t', evs) ->
  inv (set_thread s b ts i t' evs) -> linv (set_thread s b ts i t' evs).
Proof.
  intros IV [L1 L2 L3 L4] SV N E IV'. set (s' := set_thread s b ts i t' evs) in *.
  pose proof (threads_svc _ _ _ SV) as TS.
  assert (NB : ~ In EBad evs) by (intros Q; apply (i_bad _ _ IV'); unfold s', set_thread; cbn [log]; apply in_or_app; left; exact Q).
  destruct (tstep_past _ _ _ _ _ _ _ E) as (_ & _ & ND).
  assert (EVS : stopped (log s') = stopped (log s) /\ prepared (log s') = prepared (log s) /\ in_force (log s') = in_force (log s)).
  { unfold s', set_thread. cbn [log]. change (log (set_svc s b (Some (set_nth ts i t')))) with (log s). unfold tstep in E.
    destruct (pc t) as [| | | | | | | |x g rest|x g|]; try discriminate E;
      repeat match type of E with context[match ?x with _ => _ end] => destruct x end; injection E as _ <-; auto. }
  destruct EVS as (E1 & E2 & E3).
  assert (TL : forall c, length (threads s' c) = length (threads s c)).
  { intros c. destruct (Bool.bool_dec c b) as [->|NE]; unfold s'; [rewrite set_thread_same, set_nth_length, TS; reflexivity|rewrite set_thread_other by auto; reflexivity]. }
  assert (TH : forall c j x, nth_error (threads s' c) j = Some x -> nth_error (threads s c) j = Some x \/ c = b /\ j = i /\ x = t').
  { intros c j x Ej. unfold s' in Ej. destruct (Bool.bool_dec c b) as [->|NE]; [|rewrite set_thread_other in Ej by auto; auto].
    rewrite set_thread_same, nth_error_set_nth in Ej. destruct (j =? i) eqn:J; [|left; rewrite TS; exact Ej]. apply Nat.eqb_eq in J.
    destruct (i <? length ts); [|discriminate]. injection Ej as <-. auto. }
  assert (AL : forall c, Forall alive (threads s c) -> Forall alive (threads s' c)).
  { intros c F. apply Forall_nth. intros j x Ej. pose proof (proj1 (Forall_nth _ _) F) as F'. destruct (TH c j x Ej) as [Q|(-> & -> & ->)]; [exact (F' j x Q)|].
    rewrite TS in F'. exact (proj1 (alive_step _ _ _ _ _ _ _ (F' i t N) E NB)). }
  assert (DL : forall c, Forall dead (threads s c) -> Forall dead (threads s' c)).
  { intros c F. apply Forall_nth. intros j x Ej. pose proof (proj1 (Forall_nth _ _) F) as F'. destruct (TH c j x Ej) as [Q|(-> & -> & ->)]; [exact (F' j x Q)|].
    rewrite TS in F'. contradiction (ND (F' i t N)). }
  assert (AW : forall c, posted s = true -> Forall awake (threads s c) -> Forall awake (threads s' c)).
  { intros c P F. apply Forall_nth. intros j x Ej. destruct (TH c j x Ej) as [Q|(-> & -> & ->)]; [exact (proj1 (Forall_nth _ _) F j x Q)|exact (awake_step _ _ _ _ _ _ _ E P)]. }
  assert (AA : all_alive s -> all_alive s') by (intros (A1 & A2); split; [apply AL; exact A1|rewrite E3; change (index s') with (index s); rewrite TL; exact A2]).
  constructor.
  - rewrite E1, E2. exact L1.
  - unfold nxt_ok in *. change (ctl s') with (ctl s). change (index s') with (index s). rewrite E2. cbn zeta in *.
    assert (DF : match prepared (log s) with Some _ => Forall alive (threads s (negb (index s))) | None => Forall dead (threads s (negb (index s))) end ->
                 match prepared (log s) with Some _ => Forall alive (threads s' (negb (index s))) | None => Forall dead (threads s' (negb (index s))) end) by (destruct (prepared (log s)); auto).
    destruct (ctl s) as [| | | | | | | | |? ? k| | | | | |o1 ok1]; auto; try (apply DF; exact L2).
    + intros j x Ej. destruct (TH _ j x Ej) as [Q|(Q1 & -> & ->)]; [exact (L2 j x Q)|]. specialize (L2 i t). rewrite Q1, TS in L2. specialize (L2 N).
      destruct (i <? k); [exact (proj1 (alive_step _ _ _ _ _ _ _ L2 E NB))|contradiction (ND L2)].
    + destruct o1; try (apply DF; exact L2). destruct ok1; [auto|apply DF; exact L2].
  - rewrite E1. intros Q. specialize (L3 Q). unfold cur_live in *. change (ctl s') with (ctl s). change (index s') with (index s). change (posted s') with (posted s).
    destruct (ctl s) as [| | | | |o1 [] ? ?|o1 [] ? ?| | | | | | | | |[] []]; auto; try (destruct L3 as (A1 & A2 & A3); split; [auto|split; auto]; fail); destruct L3; split; auto.
  - unfold there in *. change (ctl s') with (ctl s). change (index s') with (index s). change (svc s') with (updb (svc s) b (Some (set_nth ts i t'))).
    destruct (ctl s) as [| | | | |o1 k ? ?|o1 k ? ?| | | | | | | | |]; auto; try (change (target s' k) with (target s k)); unfold updb.
    + destruct (Bool.eqb (target s k) b); auto. discriminate.
    + destruct (Bool.eqb (target s k) b) eqn:Q; auto. apply Bool.eqb_prop in Q. rewrite Q, SV in L4. rewrite set_nth_length. exact L4.
    + destruct (Bool.eqb (negb (index s)) b); auto. discriminate.
    + destruct (Bool.eqb (negb (index s)) b); auto. discriminate.
Qed.

(** * The client *)
Ltac proj s s1 c := unfold nxt_ok, cur_live, there; try change (ctl s1) with c; try change (log s1) with (log s); try change (index s1) with (index s); try change (posted s1) with (posted s); cbn [prepping].
Lemma linv_client s ok s' : inv s -> linv s -> cstep states s ok = Some s' -> inv s' -> linv s'.
Proof.
  intros IV [L1 L2 L3 L4] E IV'. unfold cstep in E. pose proof (i_ctl _ _ IV) as K. unfold Sched_Proofs.ctl_ok in K.
  unfold nxt_ok in L2. unfold cur_live in L3. unfold there in L4.
  assert (IX : forall x : bool, x <> negb x) by (intros []; discriminate).
  destruct (ctl s) as [|name|name|name n|name n|o k second i|o k second i|name n|name n|name n i| | | | | |o ok1] eqn:C; cbn [prepping] in L1.
  - discriminate.
  - (* CApp *) destruct (L1 eq_refl) as (X1 & X2). injection E as <-. destruct ok; (constructor; unfold nxt_ok, cur_live, there; cbn; auto; rewrite X1; discriminate).
  - (* CFind *) destruct (L1 eq_refl) as (X1 & X2). destruct (find_state states name 0) as [n|] eqn:F; injection E as <-; (constructor; unfold nxt_ok, cur_live, there; cbn; auto; rewrite X1; discriminate).
  - (* CReset *) destruct (L1 eq_refl) as (X1 & X2). injection E as <-. constructor; unfold nxt_ok, cur_live, there; cbn; auto; rewrite X1; discriminate.
  - (* COld *) destruct (L1 eq_refl) as (X1 & X2). injection E as <-. destruct (svc s (negb (index s))) eqn:SV; (constructor; unfold nxt_ok, cur_live, there; cbn; auto; try (rewrite X1; discriminate)). rewrite SV. discriminate.
  - (* CSet *)
    destruct (svc s (target s k)) as [ts|] eqn:SV; [|discriminate]. pose proof (threads_svc _ _ _ SV) as TS.
    destruct (nth_error ts i) as [t|] eqn:N.
    + destruct (is_dead (pc t)) eqn:D.
      * injection E as <-. constructor; unfold nxt_ok, cur_live, there; cbn; auto. change (target (set_ctl s (CSet o k second (S i))) k) with (target s k). rewrite SV. discriminate.
      * injection E as <-. destruct k as [n|].
        { exfalso. destruct (L1 eq_refl) as (X1 & X2). rewrite X2 in L2. cbn [target] in TS. rewrite TS in L2. pose proof (proj1 (Forall_nth _ _) L2 i t N) as Q. unfold dead in Q. rewrite Q in D. discriminate. }
        cbn [target] in *. set (s1 := set_ctl _ _).
        assert (TN : threads s1 (negb (index s)) = threads s (negb (index s))) by (apply (threads_set_other s (index s)); auto).
        assert (TC : threads s1 (index s) = set_nth ts i (Thr CmdStop (pc t))) by (apply (threads_set_same s (index s))).
        constructor; proj s s1 (CWaitDead o KStop second i); auto.
        -- rewrite TN. exact L2.
        -- intros Q. destruct (L3 Q) as (A1 & A2). split; [exact A1|]. rewrite TC. apply Forall_set; [rewrite <- TS; exact A2|]. rewrite TS in A2. exact (proj1 (Forall_nth _ _) A2 i t N).
        -- change (svc s1 (index s1)) with (svc s1 (index s)). cbn. rewrite updb_same, set_nth_length. exact (nth_error_lt _ _ _ N).
    + destruct second.
      * injection E as <-. set (c := match k with KPrep n => match o with OPrepare name => CNew name n | _ => CRet o true end | KStop => CRet o true end).
        set (s0 := if forallb _ ts then s else add s EBad) in *.
        assert (B : s0 = s).
        { destruct (forallb (fun t => is_dead (pc t)) ts) eqn:FB; subst s0; [reflexivity|]. exfalso. apply (i_bad _ _ IV'). left. reflexivity. }
        rewrite B. clear B s0 IV'. set (s1 := set_ctl (set_svc s (target s k) (Some [])) c).
        destruct k as [n|]; destruct o as [name| |]; try contradiction K; subst c; cbn [target] in *.
        -- destruct (L1 eq_refl) as (X1 & X2). constructor; proj s s1 (CNew name n); auto; rewrite ?X2.
           ++ replace (threads s1 (negb (index s))) with (@nil thr); [constructor|]. symmetry. apply (threads_set_same s (negb (index s))).
           ++ rewrite X1. discriminate.
        -- constructor; proj s s1 (CRet OStop true); auto; try discriminate.
           replace (threads s1 (negb (index s))) with (threads s (negb (index s))); [exact L2|]. symmetry. apply (threads_set_other s (index s)); auto.
      * injection E as <-. constructor; unfold nxt_ok, cur_live, there; cbn; auto. change (target (set_ctl s (CSet o k true 0)) k) with (target s k). rewrite SV. discriminate.
  - (* CWaitDead *)
    destruct (svc s (target s k)) as [ts|] eqn:SV; [|discriminate]. destruct (nth_error ts i) as [t|] eqn:N; [|discriminate].
    assert (X : s' = set_ctl s (CSet o k second (S i))) by (destruct (is_dead (pc t)); [|destruct (cm t)]; try discriminate E; injection E as <-; reflexivity).
    subst s'. constructor; unfold nxt_ok, cur_live, there; cbn; auto. change (target (set_ctl s (CSet o k second (S i))) k) with (target s k). rewrite SV. discriminate.
  - (* CNew *) destruct (L1 eq_refl) as (X1 & X2). injection E as <-. set (s1 := Sys _ _ _ _ _ _ _ _ _ _ _). constructor; proj s s1 (CInfo name n); auto.
    + rewrite X2. replace (threads s1 (negb (index s))) with (repeat (Thr CmdStop TDead) (length (threads_of n))); [|symmetry; apply (threads_set_same s (negb (index s)))].
      apply Forall_forall. intros x X. apply repeat_spec in X. subst x. reflexivity.
    + rewrite X1. discriminate.
    + cbn. rewrite updb_same. discriminate.
  - (* CInfo *) destruct (L1 eq_refl) as (X1 & X2). injection E as <-. rewrite X2 in L2. constructor; unfold nxt_ok, cur_live, there; cbn; auto.
    + intros j t Ej. exact (proj1 (Forall_nth _ _) L2 j t Ej).
  - (* CStartThr *) destruct (L1 eq_refl) as (X1 & X2). destruct (svc s (negb (index s))) as [ts|] eqn:SV; [|discriminate]. pose proof (threads_svc _ _ _ SV) as TS.
    destruct (i <? length ts) eqn:LT; injection E as <-.
    + set (s1 := set_ctl _ _). constructor; proj s s1 (CStartThr name n (S i)); auto.
      * assert (TN : threads s1 (negb (index s)) = set_nth ts i (Thr CmdStart TBoot)) by (apply (threads_set_same s (negb (index s)))). rewrite TN. rewrite TS in L2. cbn zeta.
        intros j x Ej. rewrite nth_error_set_nth in Ej. destruct (j =? i) eqn:J.
        -- apply Nat.eqb_eq in J. subst j. rewrite LT in Ej. injection Ej as <-. replace (i <? S i) with true by (symmetry; apply Nat.ltb_lt; lia). reflexivity.
        -- apply Nat.eqb_neq in J. specialize (L2 j x Ej). replace (j <? S i) with (j <? i); [exact L2|]. destruct (Nat.ltb_spec j i), (Nat.ltb_spec j (S i)); auto; lia.
      * rewrite X1. discriminate.
      * cbn. rewrite updb_same. discriminate.
    + constructor; unfold nxt_ok, cur_live, there; cbn; auto.
      * apply Forall_nth. intros j x Ej. specialize (L2 j x Ej). apply nth_error_lt in Ej. change (j < length (threads s (negb (index s)))) in Ej. rewrite TS in Ej. apply Nat.ltb_ge in LT. replace (j <? i) with true in L2; [exact L2|]. symmetry. apply Nat.ltb_lt. lia.
  - (* CIndex *)
    injection E as <-. destruct K as (K0 & K00 & K1 & K2 & name & K3 & K4). destruct K4 as (n & g & P & V & T & L).
    assert (NN : negb (negb (index s)) = index s) by (destruct (index s); reflexivity).
    constructor; unfold nxt_ok, cur_live, there; cbn [add ctl log index prepping]; try discriminate; auto.
    + rewrite (prepared_neutral ESwitch _ I), K00. change (Forall dead (threads s (negb (negb (index s))))). rewrite NN. exact K1.
    + intros _. split; [exact L2|]. cbn [add log index]. intros nm m. rewrite (in_force_neutral ESwitch _ I), K3. intros Q. injection Q as <-. destruct P as (P & _). rewrite P. intros Q. injection Q as <-. exact L.
  - (* CCur *)
    assert (X : exists c', s' = Sys (index s) (sched s) (next_id s) c' (valid s) (posted s) (svc s) (tab s) (gen s) CPost (log s)).
    { pose proof (i_ctl _ _ IV') as K'. destruct (sched s (index s)); [destruct (valid s) eqn:V|]; injection E as <-; try discriminate K'. eexists. reflexivity. }
    destruct X as (c' & ->). constructor; unfold nxt_ok, cur_live, there; cbn; auto; discriminate.
  - (* CPost *) injection E as <-. constructor; unfold nxt_ok, cur_live, there; cbn; auto; discriminate.
  - (* CBroadcast *)
    injection E as <-. set (s1 := Sys _ _ _ _ _ _ _ _ _ _ _).
    assert (T1 : forall b, threads s1 b = map wake (threads s b)) by (intros b; unfold threads, s1; cbn [svc]; destruct (svc s b); reflexivity).
    assert (AL : forall l, Forall alive l -> Forall alive (map wake l)).
    { intros l F. apply Forall_forall. intros x X. apply in_map_iff in X. destruct X as (y & <- & Y). pose proof (proj1 (Forall_forall _ _) F y Y) as A. unfold alive, wake in *. destruct (pc y) eqn:P; rewrite ?P; auto. }
    constructor; proj s s1 (CRet OStart true); auto; try discriminate.
    + rewrite T1. destruct (prepared (log s)); [auto|]. revert L2. apply run_rel_dead, run_rel_wake.
    + intros Q. destruct (L3 Q) as ((A1 & A2) & A3). split; [split|split; auto].
      * change (index s1) with (index s). rewrite T1. auto.
      * change (index s1) with (index s). rewrite T1, map_length. exact A2.
      * rewrite T1. apply Forall_forall. intros x X. apply in_map_iff in X. destruct X as (y & <- & Y). unfold awake, wake. destruct (pc y) eqn:P; rewrite ?P; discriminate.
  - (* CStop *)
    destruct (valid s) eqn:V.
    + injection E as <-. destruct (svc s (index s)) as [ts|] eqn:SV; (constructor; unfold nxt_ok, cur_live, there; cbn; auto; try discriminate).
      * intros Q. apply (L3 Q).
      * rewrite SV. discriminate.
    + injection E as <-. constructor; unfold nxt_ok, cur_live, there; cbn; auto; discriminate.
  - (* CRet *)
    injection E as <-. set (s1 := set_ctl (add s (ERet o ok1)) CIdle).
    assert (IFE : in_force (log s1) = in_force (log s)) by (destruct o, ok1; reflexivity).
    constructor; unfold nxt_ok, cur_live, there; change (ctl s1) with CIdle; change (log s1) with (ERet o ok1 :: log s); change (index s1) with (index s); cbn [prepping]; try discriminate; auto.
    + destruct o as [name| |]; cbn [prepared]; [|exact L2|destruct ok1; exact L2]. destruct (L1 eq_refl) as (X1 & X2). destruct ok1; [exact L2|]. rewrite X2 in L2. exact L2.
    + intros Q. assert (AA : all_alive s /\ posted s = true /\ Forall awake (threads s (index s)) -> all_alive s1 /\ posted s1 = true /\ Forall awake (threads s1 (index s1))).
      { intros ((A1 & A2) & A3 & A4). split; [|auto]. split; [exact A1|]. rewrite IFE. exact A2. }
      apply AA. destruct o as [name| |]; cbn [stopped] in Q.
      * apply L3, Q. 
      * apply L3, Q.
      * destruct ok1; [discriminate|]. apply L3, Q.
Qed.
Lemma linv_call s o : inv s -> linv s -> ctl s = CIdle -> strict (ECall o :: log s) -> linv (set_ctl (add s (ECall o)) (entry o)).
Proof.
  intros IV [L1 L2 L3 L4] C D. unfold nxt_ok in L2. unfold cur_live in L3. unfold there in L4. rewrite C in *.
  destruct o as [name| |]; cbn [strict] in D.
  - destruct D as (D1 & D2 & D3). constructor; unfold nxt_ok, cur_live, there; cbn; auto.
  - destruct D as (D1 & D2 & D3). constructor; unfold nxt_ok, cur_live, there; cbn; auto; try discriminate.
    destruct (prepared (log s)); [exact L2|congruence].
  - constructor; unfold nxt_ok, cur_live, there; cbn; auto; discriminate.
Qed.
Lemma linv_init : linv init.
Proof. constructor; unfold nxt_ok, cur_live, there; cbn; auto; try discriminate. Qed.
Lemma linv_step s a s' : (strict (log s) -> inv s /\ linv s) -> step false s a = Some s' -> strict (log s') -> inv s' /\ linv s'.
Proof.
  intros IH E D. pose proof (step_log _ _ _ _ _ E) as [k LG]. destruct IH as (IV & LV); [apply (strict_app k); rewrite <- LG; exact D|].
  assert (IV' : inv s') by (apply (inv_step _ s a s'); auto; apply strict_disciplined, D). split; [exact IV'|].
  destruct a as [o|ok|b i o|b i]; cbn [Sched_Model.step] in E.
  - destruct (ctl s) eqn:C; try discriminate. injection E as <-. apply linv_call; auto.
  - exact (linv_client _ _ _ IV LV E IV').
  - destruct (svc s b) as [ts|] eqn:SV; [|discriminate]. destruct (nth_error ts i) as [t|] eqn:N; [|discriminate]. destruct (tstep s b i t o) as [[t' es]|] eqn:T; [|discriminate]. injection E as <-.
    exact (linv_thread _ _ _ _ _ _ _ _ IV LV SV N T IV').
  - discriminate.
Qed.
Lemma linv_exec sch s : Conc.exec (step false) init sch = Some s -> strict (log s) -> inv s /\ linv s.
Proof.
  apply (exec_inv (step false) (fun s => strict (log s) -> inv s /\ linv s)).
  - intros s0 a s1 IH E D. exact (linv_step _ _ _ IH E D).
  - intros _. split; [apply inv_init|exact linv_init].
Qed.

(** * Progress of the calls *)
(** The longest thread. *)
Definition longest : nat := list_max (map (@length exec) (concat (map snd states))).
Lemma longest_ok n i es : nth_error (threads_of n) i = Some es -> length es <= longest.
Proof.
  intros N. unfold longest. pose proof (proj1 (list_max_le (map (@length exec) (concat (map snd states))) _) (le_n _)) as F.
  rewrite Forall_forall in F. apply F, in_map, in_concat. unfold Sched_Model.threads_of in N. destruct (nth_error states n) as [[nm l]|] eqn:Q; [|destruct i; discriminate].
  exists l. split; [|eapply nth_error_In; exact N]. apply in_map_iff. exists (nm, l). split; auto. eapply nth_error_In. exact Q.
Qed.
(** The steps that a thread that has been told to stop still makes. *)
Definition trank (p : tpc) : nat :=
  match p with
  | TDead | TSleep => 0 | TOuter => 1 | TTerm | TBoot | TKeep => 2 | TInner => 3 | TWait => 4 | TEnd _ _ => 5 | TCycle _ _ l => 6 + length l | TMain => 7 + longest
  end.
Definition cback (k : kont) : nat := match k with KPrep n => length (threads_of n) + 5 | KStop => 2 end.
Definition crank (s : sys) : nat :=
  let N k := length (threads s (target s k)) in
  match ctl s with
  | CIdle => 0 | CRet _ _ => 1
  | CStartThr _ n i => 2 + (length (threads s (negb (index s))) - i)
  | CInfo _ n => 3 + length (threads s (negb (index s)))
  | CNew _ n => 4 + length (threads_of n)
  | CSet _ k true i => cback k + 2 * (N k - i) + 1
  | CWaitDead _ k true i => cback k + 2 * (N k - i)
  | CSet _ k false i => cback k + 2 * (N k - i) + 2 * N k + 3
  | CWaitDead _ k false i => cback k + 2 * (N k - i) + 2 * N k + 2
  | COld _ n => cback (KPrep n) + 4 * N (KPrep n) + 4
  | CReset _ n => cback (KPrep n) + 4 * N (KPrep n) + 5
  | CFind name => match find_state states name 0 with Some n => cback (KPrep n) + 4 * N (KPrep n) + 6 | None => 2 end
  | CApp name => match find_state states name 0 with Some n => cback (KPrep n) + 4 * N (KPrep n) + 7 | None => 3 end
  | CIndex => 5 | CCur => 4 | CPost => 3 | CBroadcast => 2
  | CStop => cback KStop + 4 * N KStop + 4
  end.
Lemma crank_step s ok s' : cstep states s ok = Some s' -> crank s' < crank s.
Proof.
  unfold cstep, crank. intros E.
  destruct (ctl s) as [|name|name|name n|name n|o k second i|o k second i|name n|name n|name n i| | | | | |o ok1] eqn:C; try discriminate E.
  - destruct ok; injection E as <-; cbn [set_ctl ctl]; destruct (find_state states name 0); cbn; try lia. unfold threads, target. cbn. lia.
  - destruct (find_state states name 0) eqn:F; injection E as <-; cbn; [unfold threads, target; cbn|]; lia.
  - injection E as <-. cbn. unfold threads, target; cbn. lia.
  - injection E as <-. cbn. destruct (svc s (negb (index s))) as [ts|] eqn:SV; unfold threads, target; cbn; rewrite ?SV; cbn; lia.
  - destruct (svc s (target s k)) as [ts|] eqn:SV; [|discriminate]. pose proof (threads_svc _ _ _ SV) as TS. rewrite TS. destruct (nth_error ts i) as [t|] eqn:N.
    + pose proof (nth_error_lt _ _ _ N) as LT. destruct (is_dead (pc t)); injection E as <-; cbn [set_ctl ctl].
      * change (target (set_ctl s (CSet o k second (S i))) k) with (target s k). change (threads (set_ctl s (CSet o k second (S i)))) with (threads s). rewrite TS. destruct second; lia.
      * set (s1 := set_ctl _ _). change (target s1 k) with (target s k). replace (length (threads s1 (target s k))) with (length ts); [destruct second; lia|].
        change (threads s1) with (threads (set_svc s (target s k) (Some (set_nth ts i (Thr CmdStop (pc t)))))). rewrite threads_set_same, set_nth_length. reflexivity.
    + apply nth_error_None in N. destruct second.
      * assert (X : ctl s' = (match k, o with KPrep n, OPrepare name => CNew name n | _, _ => CRet o true end)) by (destruct (forallb _ ts); injection E as <-; reflexivity).
        rewrite X. destruct k, o; cbn [cback]; lia.
      * injection E as <-. cbn [set_ctl ctl]. change (target (set_ctl s (CSet o k true 0)) k) with (target s k). change (threads (set_ctl s (CSet o k true 0))) with (threads s). rewrite TS. lia.
  - destruct (svc s (target s k)) as [ts|] eqn:SV; [|discriminate]. pose proof (threads_svc _ _ _ SV) as TS. rewrite TS. destruct (nth_error ts i) as [t|] eqn:N; [|discriminate].
    pose proof (nth_error_lt _ _ _ N) as LT.
    assert (X : s' = set_ctl s (CSet o k second (S i))) by (destruct (is_dead (pc t)); [|destruct (cm t)]; try discriminate E; injection E as <-; reflexivity).
    subst s'. cbn [set_ctl ctl]. change (target (set_ctl s (CSet o k second (S i))) k) with (target s k). change (threads (set_ctl s (CSet o k second (S i)))) with (threads s). rewrite TS. destruct second; lia.
  - injection E as <-. cbn [ctl]. unfold threads. cbn. rewrite updb_same, repeat_length. lia.
  - injection E as <-. cbn [ctl]. unfold threads. cbn. lia.
  - destruct (svc s (negb (index s))) as [ts|] eqn:SV; [|discriminate]. pose proof (threads_svc _ _ _ SV) as TS. rewrite TS. destruct (Nat.ltb_spec i (length ts)) as [LT|LT]; injection E as <-; cbn [set_ctl ctl]; [|lia].
    unfold threads. cbn. rewrite updb_same, set_nth_length. lia.
  - injection E as <-. cbn. lia.
  - destruct (sched s (index s)); [destruct (valid s)|]; injection E as <-; cbn; lia.
  - injection E as <-. cbn. lia.
  - injection E as <-. cbn. lia.
  - destruct (valid s); [destruct (svc s (index s)) as [ts|] eqn:SV|]; injection E as <-; cbn; try lia. unfold threads, target. cbn. rewrite SV. lia.
  - injection E as <-. cbn. lia.
Qed.
(** The client acts, or waits for a thread that goes on and comes nearer to its end. *)
Lemma progress s : inv s -> linv s -> ctl s <> CIdle ->
  (forall ok, exists s', step false s (AClient ok) = Some s') \/
  (exists o second i, ctl s = CWaitDead o KStop second i /\
     forall out, exists ts t t' evs, svc s (index s) = Some ts /\ nth_error ts i = Some t /\ tstep s (index s) i t out = Some (t', evs) /\ trank (pc t') < trank (pc t)).
Proof.
  intros IV [L1 L2 L3 L4] NI. cbn [Sched_Model.step]. unfold cstep. unfold nxt_ok in L2. unfold cur_live in L3. unfold there in L4.
  destruct (ctl s) as [|name|name|name n|name n|o k second i|o k second i|name n|name n|name n i| | | | | |o ok1] eqn:C; try congruence;
    try (left; intros ok; eexists; reflexivity).
  - left. intros ok. destruct (find_state states name 0); eexists; reflexivity.
  - left. intros ok. destruct (svc s (target s k)) as [ts|]; [|contradiction]. destruct (nth_error ts i) as [t|]; [destruct (is_dead (pc t))|destruct second]; eexists; reflexivity.
  - destruct (svc s (target s k)) as [ts|] eqn:SV; [|contradiction]. pose proof (threads_svc _ _ _ SV) as TS.
    destruct (nth_error ts i) as [t|] eqn:N; [|apply nth_error_None in N; lia].
    destruct (is_dead (pc t)) eqn:D; [left; intros ok; eexists; reflexivity|].
    destruct (cm t) eqn:CM; try (left; intros ok; eexists; reflexivity).
    destruct k as [n|].
    { exfalso. destruct (L1 eq_refl) as (X1 & X2). rewrite X2 in L2. cbn [target] in TS. rewrite TS in L2. pose proof (proj1 (Forall_nth _ _) L2 i t N) as Q. unfold dead in Q. rewrite Q in D. discriminate. }
    right. exists o, second, i. split; [reflexivity|]. cbn [target] in *. intros out. exists ts, t.
    assert (ND : ~ Forall dead (threads s (index s))) by (rewrite TS; intros F; pose proof (proj1 (Forall_nth _ _) F i t N) as Q; unfold dead in Q; rewrite Q in D; discriminate).
    assert (SF : stopped (log s) = false) by (destruct (stopped (log s)) eqn:Q; [exfalso; apply ND, (i_stopped _ _ IV Q)|reflexivity]).
    destruct (L3 SF) as (P & AW). rewrite TS in AW. pose proof (proj1 (Forall_nth _ _) AW i t N) as AWt. unfold awake in AWt.
    unfold tstep. rewrite CM, P. cbn [is_keep]. destruct (pc t) as [| | | | | | | |x g rest|x g|] eqn:PT; try discriminate D; try congruence.
    1-5, 9: (eexists; eexists; split; [first [exact SV|reflexivity]|]; split; [first [exact N|reflexivity]|]; split; [reflexivity|]; cbn; lia).
    + destruct (in_force (log s)) as [name|] eqn:IF; [|exfalso; apply ND, (i_none _ _ IV IF)].
      destruct (i_cur _ _ IV) with (name := name) as (n & g & H1 & H2 & H3 & H4 & H5); auto; [rewrite C; discriminate|].
      rewrite H2. rewrite TS in H5. destruct (H5 i t N) as (es & NE & _). rewrite NE. pose proof (longest_ok _ _ _ NE).
      eexists; eexists; split; [first [exact SV|reflexivity]|]; split; [first [exact N|reflexivity]|]; split; [reflexivity|]. cbn. lia.
    + destruct rest as [|e rest]; (eexists; eexists; split; [first [exact SV|reflexivity]|]; split; [first [exact N|reflexivity]|]; split; [reflexivity|]); cbn; [lia|]. destruct out; cbn; lia.
    + destruct (tab s x) as [| |g' l]; [| |destruct (g =? g')]; (eexists; eexists; split; [first [exact SV|reflexivity]|]; split; [first [exact N|reflexivity]|]; split; [reflexivity|]); cbn; lia.
  - left. intros ok. destruct (svc s (negb (index s))) as [ts|]; [|contradiction]. destruct (i <? length ts); eexists; reflexivity.
  - left. intros ok. destruct (sched s (index s)); [destruct (valid s)|]; eexists; reflexivity.
  - left. intros ok. destruct (valid s); eexists; reflexivity.
Qed.
Definition no_call (a : action) : Prop := match a with ACall _ => False | _ => True end.
Lemma strict_no_call sp s a s' : no_call a -> step sp s a = Some s' -> strict (log s) -> strict (log s').
Proof.
  intros NC E D. destruct a as [o|ok|b i o|b i]; try contradiction NC; cbn [Sched_Model.step] in E.
  - unfold cstep in E. repeat match type of E with context[match ?x with _ => _ end] => destruct x; try discriminate E end; injection E as <-; cbn [log set_ctl add set_svc]; try exact D; destruct o; try exact D; destruct ok0; exact D.
  - destruct (svc s b) as [ts|]; [|discriminate]. destruct (nth_error ts i) as [t|]; [|discriminate]. destruct (tstep s b i t o) as [[t' es]|] eqn:T; [|discriminate]. injection E as <-. cbn [log set_svc].
    unfold tstep in T. destruct (pc t) as [| | | | | | | |x g rest|x g|]; try discriminate T;
      repeat match type of T with context[match ?x with _ => _ end] => destruct x end; injection T as _ <-; exact D.
  - destruct sp; [|discriminate]. destruct (svc s b) as [ts|]; [|discriminate]. destruct (nth_error ts i) as [[c p]|]; [|discriminate]. destruct p; try discriminate. injection E as <-. exact D.
Qed.
Lemma returns : forall m r s, inv s -> linv s -> strict (log s) -> crank s <= m ->
  (forall o k second i ts t, ctl s = CWaitDead o k second i -> svc s (target s k) = Some ts -> nth_error ts i = Some t -> trank (pc t) <= r) ->
  exists sch s', Forall no_call sch /\ Conc.exec (step false) s sch = Some s' /\ ctl s' = CIdle.
Proof.
  induction m as [m IHm] using lt_wf_ind. induction r as [r IHr] using lt_wf_ind. intros s IV LV D CM CR.
  assert (X : ctl s = CIdle \/ ctl s <> CIdle) by (destruct (ctl s); auto; right; discriminate). destruct X as [X|X].
  { exists [], s. split; [constructor|]. split; [reflexivity|exact X]. }
  destruct (progress s IV LV X) as [P|(o & second & i & C & P)].
  - destruct (P true) as (s1 & E). pose proof (strict_no_call false s (AClient true) s1 I E D) as D1.
    destruct (linv_step s (AClient true) s1 (fun _ => conj IV LV) E D1) as (IV1 & LV1). cbn [Sched_Model.step] in E. pose proof (crank_step _ _ _ E) as LT.
    pose (r1 := match ctl s1 with CWaitDead o k second i => match svc s1 (target s1 k) with Some ts => match nth_error ts i with Some t => trank (pc t) | None => 0 end | None => 0 end | _ => 0 end).
    destruct (IHm (crank s1) ltac:(lia) r1 s1 IV1 LV1 D1 (le_n _)) as (sch & s' & F & R & CI).
    { intros o k second i ts t Q1 Q2 Q3. unfold r1. rewrite Q1, Q2, Q3. lia. }
    exists (AClient true :: sch), s'. split; [constructor; [exact I|exact F]|]. split; [|exact CI]. cbn [Conc.exec Sched_Model.step]. rewrite E. exact R.
  - destruct (P Ran) as (ts & t & t' & evs & SV & N & T & LT). pose (s1 := set_thread s (index s) ts i t' evs).
    assert (E : step false s (AThread (index s) i Ran) = Some s1) by (cbn [Sched_Model.step]; rewrite SV, N, T; reflexivity).
    pose proof (strict_no_call false s (AThread (index s) i Ran) s1 I E D) as D1. destruct (linv_step s _ s1 (fun _ => conj IV LV) E D1) as (IV1 & LV1).
    assert (TS : threads s1 (index s) = set_nth ts i t') by apply set_thread_same.
    assert (CE : crank s1 = crank s).
    { unfold crank. change (ctl s1) with (ctl s). rewrite C. change (target s1 KStop) with (index s). change (target s KStop) with (index s). rewrite TS, set_nth_length, (threads_svc _ _ _ SV). reflexivity. }
    destruct (IHr (trank (pc t')) ) with (s := s1) as (sch & s' & F & R & CI); auto.
    + pose proof (CR o KStop second i ts t C SV N). lia.
    + lia.
    + intros o1 k1 second1 i1 ts1 t1 Q1 Q2 Q3. change (ctl s1) with (ctl s) in Q1. rewrite C in Q1. injection Q1 as <- <- <- <-. change (target s1 KStop) with (index s) in Q2.
      pose proof (threads_svc _ _ _ Q2) as Q4. rewrite TS in Q4. subst ts1. rewrite nth_error_set_nth, Nat.eqb_refl in Q3. destruct (i <? length ts); [|discriminate]. injection Q3 as <-. lia.
    + exists (AThread (index s) i Ran :: sch), s'. split; [constructor; [exact I|exact F]|]. split; [|exact CI]. cbn [Conc.exec]. rewrite E. exact R.
Qed.

(** * Progress of the threads *)
Definition till (p : tpc) : nat :=
  match p with TBoot => 7 | TKeep => 6 | TOuter => 5 | TWait => 4 | TInner => 3 | TMain => 2 | TCycle _ _ (_ :: _) => 1 | TEnd _ _ => 4 | TCycle _ _ [] => 5 | _ => 0 end.
Lemma live_step s name n i es out : inv s -> linv s -> ctl s = CIdle -> stopped (log s) = false -> in_force (log s) = Some name -> find_state states name 0 = Some n ->
  nth_error (threads_of n) i = Some es -> es <> [] ->
  exists ts t t' evs, svc s (index s) = Some ts /\ nth_error ts i = Some t /\ 1 <= till (pc t) <= 7 /\ tstep s (index s) i t out = Some (t', evs) /\
    ((exists e, evs = [ERun (index s) i e out]) \/ (evs = [] /\ till (pc t') < till (pc t))).
Proof.
  intros IV [L1 L2 L3 L4] C SF IF F NE NES. specialize (L3 SF). unfold cur_live in L3. rewrite C in L3. destruct L3 as ((A1 & A2) & P & AW). specialize (A2 name n IF F).
  destruct (svc s (index s)) as [ts|] eqn:SV.
  2: { unfold threads in A2. rewrite SV in A2. cbn in A2. apply nth_error_lt in NE. lia. }
  pose proof (threads_svc _ _ _ SV) as TS. rewrite TS in *. destruct (nth_error ts i) as [t|] eqn:N; [|apply nth_error_None in N; apply nth_error_lt in NE; lia].
  pose proof (proj1 (Forall_nth _ _) A1 i t N) as A. pose proof (proj1 (Forall_nth _ _) AW i t N) as W. unfold awake in W.
  destruct (i_cur _ _ IV) with (name := name) as (n' & g & H1 & H2 & H3 & H4 & H5); auto; [rewrite C; discriminate|]. rewrite F in H1. injection H1 as <-.
  rewrite TS in H5. destruct (H5 i t N) as (es' & NE' & TK). rewrite NE in NE'. injection NE' as <-. unfold thread_ok in TK.
  exists ts, t. unfold tstep. unfold alive in A. rewrite P. destruct (pc t) as [| | | | | | | |x g' rest|x g'|] eqn:PT; try contradiction A; try congruence; rewrite ?A; cbn [is_keep].
  1-5: (eexists; eexists; split; [first [exact SV|reflexivity]|]; split; [first [exact N|reflexivity]|]; split; [cbn; lia|]; split; [reflexivity|]; right; split; [reflexivity|cbn; lia]).
  - rewrite H2, NE. eexists; eexists; split; [first [exact SV|reflexivity]|]; split; [first [exact N|reflexivity]|]; split; [cbn; lia|]; split; [reflexivity|]. right. split; [reflexivity|]. destruct es; [congruence|]. cbn. lia.
  - destruct rest as [|e rest]; (eexists; eexists; split; [first [exact SV|reflexivity]|]; split; [first [exact N|reflexivity]|]; split; [cbn; lia|]; split; [reflexivity|]); [right; split; [reflexivity|cbn; lia]|]. left. exists e. reflexivity.
  - destruct TK as (-> & -> & _). rewrite H2, Nat.eqb_refl. eexists; eexists; split; [first [exact SV|reflexivity]|]; split; [first [exact N|reflexivity]|]; split; [cbn; lia|]; split; [reflexivity|]. right. split; [reflexivity|cbn; lia].
Qed.
Lemma live_run name n i es out : find_state states name 0 = Some n -> nth_error (threads_of n) i = Some es -> es <> [] ->
  forall k s, inv s -> linv s -> strict (log s) -> ctl s = CIdle -> stopped (log s) = false -> in_force (log s) = Some name ->
  (forall ts t, svc s (index s) = Some ts -> nth_error ts i = Some t -> till (pc t) <= k) ->
  exists m s' e, m <= k /\ Conc.exec (step false) s (repeat (AThread (index s) i out) m) = Some s' /\ log s' = ERun (index s) i e out :: log s.
Proof.
  intros F NE NES. induction k as [|k IH]; intros s IV LV D C SF IF B.
  - destruct (live_step s name n i es out IV LV C SF IF F NE NES) as (ts & t & t' & evs & SV & N & TL & T & Q). specialize (B ts t SV N). lia.
  - destruct (live_step s name n i es out IV LV C SF IF F NE NES) as (ts & t & t' & evs & SV & N & TL & T & Q). specialize (B ts t SV N).
    pose (s1 := set_thread s (index s) ts i t' evs).
    assert (E : step false s (AThread (index s) i out) = Some s1) by (cbn [Sched_Model.step]; rewrite SV, N, T; reflexivity).
    destruct Q as [(e & Q)|(Q & LT)].
    + exists 1, s1, e. split; [lia|]. split; [cbn [repeat Conc.exec]; rewrite E; reflexivity|]. unfold s1, set_thread. rewrite Q. reflexivity.
    + pose proof (strict_no_call false s (AThread (index s) i out) s1 I E D) as D1. destruct (linv_step s _ s1 (fun _ => conj IV LV) E D1) as (IV1 & LV1).
      assert (LG : log s1 = log s) by (unfold s1, set_thread; rewrite Q; reflexivity).
      destruct (IH s1 IV1 LV1 D1 C) as (m & s' & e & M1 & M2 & M3); try (rewrite LG; assumption).
      { intros ts1 t1 Q1 Q2. change (index s1) with (index s) in Q1. pose proof (threads_svc _ _ _ Q1) as Q4. unfold s1 in Q4. rewrite set_thread_same in Q4. subst ts1.
        rewrite nth_error_set_nth, Nat.eqb_refl in Q2. destruct (i <? length ts); [|discriminate]. injection Q2 as <-. lia. }
      exists (S m), s', e. split; [lia|]. split; [|rewrite M3, LG; reflexivity]. cbn [repeat Conc.exec]. rewrite E. exact M2.
Qed.
End Sched.
