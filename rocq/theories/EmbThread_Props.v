(** C22: the life of a service thread, for every behaviour of its callbacks and every schedule. *)
From Verif Require Import Base Conc EmbThread_Model.

(** * Specification: the allowed histories *)
(** LReady: alive, no callback of the current cycle begun; LStarted, LMained r: the last callback (startup, main) returned r. *)
Inductive life := LDead | LReady | LStartup | LStarted (r : res) | LMain | LMained (r : res) | LTerm | LAsync.
(** The stage that ends a cycle whose last callback returned r. *)
Definition last_stage (r : res) : stage := match r with CCompleted => Termination | _ => BadTermination end.
Definition stage_eqb (a b : stage) : bool :=
  match a, b with Startup, Startup | Main, Main | Termination, Termination | BadTermination, BadTermination | AsyncTermination, AsyncTermination => true | _, _ => false end.
Definition next (f : life) (e : ev) : option life :=
  match e with
  | ECreate => match f with LDead => Some LReady | _ => None end
  | EExit => match f with LReady => Some LDead | _ => None end
  | EKill => match f with LDead | LAsync => None | _ => Some LDead end
  | ECb g =>
    match f with
    | LDead => if stage_eqb g AsyncTermination then Some LAsync else None
    | LReady => if stage_eqb g Startup then Some LStartup else None
    | LStarted r => if stage_eqb g Main then Some LMain else if stage_eqb g (last_stage r) then Some LTerm else None
    | LMained r => if stage_eqb g Main then match r with CNone => Some LMain | _ => None end else if stage_eqb g (last_stage r) then Some LTerm else None
    | _ => None
    end
  | ECbRet r => match f with LStartup => Some (LStarted r) | LMain => Some (LMained r) | LTerm => Some LReady | LAsync => Some LDead | _ => None end
  | _ => Some f
  end.
Fixpoint life_of (l : list ev) : option life := match l with [] => Some LDead | e :: r => match life_of r with Some f => next f e | None => None end end.
(** No Start was called since the beginning or since a Stop that returned without timeout and without refusal. *)
Fixpoint stopped (l : list ev) : bool :=
  match l with [] | ERetStop (SOk | SError) :: _ => true | ECallStart :: _ => false | _ :: r => stopped r end.

(** * Invariants *)
Definition life_pc (p : spc) (c : cpc) : life :=
  match p with
  | SDead => match c with CInAsync => LAsync | _ => LDead end
  | STest | SSet | SOuter | SStartup => LReady
  | SInStartup => LStartup | SIf r => LStarted r | SMain => LMained CNone | SInMain => LMain | SInner r _ => LMained r | STerm r => LMained r | SInTerm => LTerm
  end.
(** In SInner and STerm the last callback may have been Startup. *)
Definition life_ok (l : life) (p : spc) (c : cpc) : Prop :=
  l = life_pc p c \/ match p with SInner r true | STerm r => l = LStarted r | SMain => exists r, l = LStarted r | _ => False end.
(** Where the client is only when there is no service thread. *)
Definition needs_dead (c : cpc) : bool := match c with CStartSet | CBegin | CStopReset | CAsync | CInAsync | CKillReset _ | CStopRet (SOk | SError) => true | _ => false end.
Definition quiet (c : cpc) : bool := match c with CIdle | CAlive KStop | CStopRet SOk => true | _ => false end.
Record inv (s : sys) : Prop := {
  i_life : exists f, life_of (log s) = Some f /\ life_ok f (svc s) (client s);
  i_tid : tid s = false -> svc s = SDead;
  i_dead : needs_dead (client s) = true -> svc s = SDead;
  i_ret : match client s with CStopRet (SOk | SError) | CBegin | CStartSet => tid s = false | _ => True end;
  i_ok : match svc s with SInner r ok => ok = true -> r = CNone \/ life_of (log s) = Some (LStarted r) | SMain => True | _ => True end;
  i_main : svc s = SMain -> exists f, life_of (log s) = Some f /\ (f = LMained CNone \/ exists r, f = LStarted r);
  i_stopped : stopped (log s) = true -> svc s = SDead /\ tid s = false /\ quiet (client s) = true
}.
Lemma after_off k : needs_dead (after k Off) = true \/ (exists k', after k Off = CAlive k').
Proof. destruct k; cbn; eauto. Qed.
Lemma after_live k st : st <> Off -> needs_dead (after k st) = false.
Proof. destruct k, st; cbn; auto; congruence. Qed.

Lemma inv_step fin s a s' : inv s -> step fin s a = Some s' -> inv s'.
Proof.
  intros [(f & LF & LO) TI DE RE OK MA ST] S.
  destruct s as [cm ti p c l]; cbn [commands tid svc client log] in *.
  destruct a as [| |late r|r]; cbn [step commands tid svc client log] in S.
  - destruct c; try discriminate. injection S as <-. constructor; cbn [commands tid svc client log life_of stopped needs_dead next]; rewrite ?LF; auto; try discriminate.
    + exists f. split; [reflexivity|]. destruct p; exact LO.
    + destruct p; auto. intros X. apply OK in X. rewrite LF in X. exact X.
    + intros X. destruct (MA X) as (f' & X1 & X2). exists f'. rewrite LF in X1. auto.
  - destruct c; try discriminate. injection S as <-. constructor; cbn [commands tid svc client log life_of stopped needs_dead next]; rewrite ?LF; auto; try discriminate.
    + exists f. split; [reflexivity|]. destruct p; exact LO.
    + destruct p; auto. intros X. apply OK in X. rewrite LF in X. exact X.
    + intros X. destruct (MA X) as (f' & X1 & X2). exists f'. rewrite LF in X1. auto.
  - (* client *)
    assert (GO : forall q ti', (ti' = ti \/ (ti' = false /\ p = SDead)) -> (needs_dead q = true -> p = SDead) -> match q with CStopRet (SOk | SError) | CBegin | CStartSet => ti' = false | _ => True end ->
       (match c, q with CInAsync, _ | _, CInAsync => False | _, _ => True end) -> (quiet c = true -> p = SDead -> ti = false -> quiet q = true) -> inv (Sys cm ti' p q l)).
    { intros q ti' T1 T2 T3 T4 T5. constructor; cbn [commands tid svc client log]; auto.
      - exists f. split; auto. destruct p; try exact LO. unfold life_ok, life_pc in *. destruct c, q; auto; contradiction.
      - intros X. destruct T1 as [->|[_ T1]]; auto.
      - intros X. destruct (ST X) as (X1 & X2 & X3). split; auto. split; [destruct T1 as [->|[-> _]]; auto|]. auto. }
    destruct c; try discriminate; cbn [needs_dead] in DE.
    + (* GetStatus *)
      destruct ti.
      * destruct (dead p) eqn:DP; injection S as <-.
        -- assert (PD : p = SDead) by (destruct p; try discriminate; reflexivity). apply GO; auto.
           ++ destruct k; cbn; auto.
           ++ destruct k; cbn; auto.
           ++ intros _ _ X. discriminate.
        -- apply GO; auto; try discriminate; try (intros X; destruct (ST X) as (X1 & X2 & X3); discriminate).
      * injection S as <-. apply GO; auto.
        -- destruct k; cbn; auto.
        -- destruct k; cbn; auto.
        -- intros Q _ _. destruct k; try discriminate; reflexivity.
    + injection S as <-. apply GO; auto; destruct cm; try (destruct k; cbn; auto; discriminate); cbn; auto; discriminate.
    + injection S as <-. apply GO; auto; destruct cm; try (destruct k, late, fin; cbn; auto; discriminate); cbn; auto; discriminate.
    + injection S as <-. apply GO; auto; destruct cm; destruct k, late, fin; cbn; auto; discriminate.
    + injection S as <-. rewrite DE in * by auto. constructor; cbn [commands tid svc client log]; auto; try discriminate; try (intros X; destruct (ST X) as (X1 & X2 & X3); discriminate).
      * exists f. auto.
    + injection S as <-. rewrite DE in * by auto. constructor; cbn [commands tid svc client log needs_dead life_of stopped]; auto; try discriminate; try (intros X; destruct (ST X) as (X1 & X2 & X3); discriminate).
      * exists LReady. destruct LO as [->|[]]. rewrite LF. split; [reflexivity|]. left. reflexivity.
    + injection S as <-. constructor; cbn [commands tid svc client log needs_dead life_of stopped next]; rewrite ?LF; auto; try discriminate; try (intros X; destruct (ST X) as (X1 & X2 & X3); discriminate).
      * exists f. split; [reflexivity|]. destruct p; exact LO.
      * destruct p; auto. intros X. apply OK in X. rewrite LF in X. exact X.
      * intros X. destruct (MA X) as (f' & X1 & X2). exists f'. rewrite LF in X1. auto.
    + injection S as <-. constructor; cbn [commands tid svc client log needs_dead]; auto; try discriminate; try (intros X; destruct (ST X) as (X1 & X2 & X3); discriminate).
      * exists f. split; auto; destruct p; exact LO.
    + injection S as <-. rewrite DE by auto. cbn [dead]. rewrite DE in * by auto. apply GO; auto; try discriminate.
    + injection S as <-. constructor; cbn [commands tid svc client log needs_dead]; auto; try discriminate; try (intros X; destruct (ST X) as (X1 & X2 & X3); discriminate).
      * exists f. split; auto; destruct p; exact LO.
    + injection S as <-. constructor; cbn [commands tid svc client log needs_dead]; auto; try discriminate; try (intros X; destruct (ST X) as (X1 & X2 & X3); discriminate).
      * exists LDead. split; [|left; reflexivity]. destruct (dead p) eqn:DP.
        -- cbn [app]. rewrite LF. destruct p; try discriminate. destruct LO as [->|[]]. reflexivity.
        -- cbn [app life_of]. rewrite LF. destruct p; try discriminate; destruct LO as [->|LO]; try reflexivity; try contradiction; try (destruct LO as [r0 ->]; reflexivity); try (subst f; reflexivity).
           destruct ok; [subst f; reflexivity|contradiction].
      * intros X. assert (Y : stopped l = true) by (destruct (dead p); exact X). destruct (ST Y) as (X1 & X2 & X3). discriminate.
    + injection S as <-. rewrite DE in * by auto. constructor; cbn [commands tid svc client log needs_dead life_of stopped]; auto; try discriminate; try (intros X; destruct (ST X) as (X1 & X2 & X3); discriminate).
      * exists LAsync. destruct LO as [->|[]]. rewrite LF. split; [reflexivity|]. left. reflexivity.
    + injection S as <-. rewrite DE in * by auto. constructor; cbn [commands tid svc client log needs_dead life_of stopped]; auto; try discriminate; try (intros X; destruct (ST X) as (X1 & X2 & X3); discriminate).
      * exists LDead. destruct LO as [->|[]]. rewrite LF. split; [reflexivity|]. left. reflexivity.
    + injection S as <-. rewrite DE by auto. cbn [dead]. rewrite DE in * by auto. apply GO; auto; try (destruct r0; reflexivity). discriminate.
    + injection S as <-. constructor; cbn [commands tid svc client log needs_dead life_of stopped next]; rewrite ?LF; auto; try discriminate; try (intros X; destruct (ST X) as (X1 & X2 & X3); discriminate).
      * exists f. split; [reflexivity|]. destruct p; exact LO.
      * destruct p; auto. intros X. apply OK in X. rewrite LF in X. exact X.
      * intros X. destruct (MA X) as (f' & X1 & X2). exists f'. rewrite LF in X1. auto.
      * destruct r0; cbn [needs_dead] in DE; intros X; try (rewrite DE in * by auto; auto); destruct (ST X) as (X1 & X2 & X3); auto.
  - (* service *)
    destruct p; cbn [svc_step] in S; try discriminate.
    all: assert (TT : ti = true) by (destruct ti; auto; specialize (TI eq_refl); discriminate).
    all: assert (NS : stopped l = false) by (destruct (stopped l) eqn:X; auto; destruct (ST eq_refl) as (X1 & _); discriminate).
    all: assert (ND : needs_dead c = false) by (destruct (needs_dead c) eqn:X; auto; specialize (DE eq_refl); discriminate).
    all: subst ti.
    + injection S as <-. constructor; cbn [commands tid svc client log app]; rewrite ?NS; try discriminate; auto; try congruence.
      * exists f. split; auto. destruct cm; exact LO.
      * destruct cm; auto.
      * destruct cm; discriminate.
    + injection S as <-. constructor; cbn [commands tid svc client log app]; rewrite ?NS; try discriminate; auto; try congruence. exists f. auto.
    + destruct (is_keep cm); injection S as <-; constructor; cbn [commands tid svc client log app life_of stopped]; rewrite ?NS, ?LF; try discriminate; auto; try congruence; try (solve [exists f; auto]).
      destruct LO as [->|[]]. exists LDead. split; [reflexivity|]. left. destruct c; try reflexivity; discriminate.
    + injection S as <-. constructor; cbn [commands tid svc client log app life_of stopped]; rewrite ?NS, ?LF; try discriminate; auto; try congruence. destruct LO as [->|[]]. exists LStartup. split; [reflexivity|]. left. reflexivity.
    + injection S as <-. constructor; cbn [commands tid svc client log app life_of stopped]; rewrite ?NS, ?LF; try discriminate; auto; try congruence. destruct LO as [->|[]]. exists (LStarted r). split; [reflexivity|]. left. reflexivity.
    + destruct LO as [->|[]]. injection S as <-. constructor; cbn [commands tid svc client log app life_of stopped]; rewrite ?NS, ?LF; try discriminate; auto; try congruence.
      * exists (LStarted r0). split; [reflexivity|]. destruct (is_keep cm); right; reflexivity.
      * destruct (is_keep cm); auto.
      * destruct (is_keep cm); discriminate.
    + injection S as <-. destruct (andb (is_keep cm) ok) eqn:AK.
      * apply andb_prop in AK. destruct AK as [_ ->]. rewrite LF in OK. 
        assert (FF : f = LMained CNone \/ f = LStarted r0). { destruct (OK eq_refl) as [->|X]; [destruct LO as [->| ->]; auto|injection X as ->; auto]. }
        constructor; cbn [commands tid svc client log app life_of stopped]; rewrite ?NS, ?LF; try discriminate; auto; try congruence.
        -- exists f. split; [reflexivity|]. destruct FF as [->| ->]; [left; reflexivity|right; exists r0; reflexivity].
        -- intros _. exists f. split; [reflexivity|]. destruct FF as [->| ->]; eauto.
      * constructor; cbn [commands tid svc client log app life_of stopped]; rewrite ?NS, ?LF; try discriminate; auto; try congruence.
        exists f. split; [reflexivity|]. destruct LO as [->|LO]; [left; reflexivity|]. right. destruct ok; [exact LO|contradiction].
    + injection S as <-. destruct (MA eq_refl) as (f' & X1 & X2). rewrite LF in X1. injection X1 as <-.
      constructor; cbn [commands tid svc client log app life_of stopped]; rewrite ?NS, ?LF; try discriminate; auto; try congruence.
      exists LMain. split; [destruct X2 as [->|[r0 ->]]; reflexivity|left; reflexivity].
    + injection S as <-. destruct LO as [->|[]]. constructor; cbn [commands tid svc client log app life_of stopped]; rewrite ?NS, ?LF; try discriminate; auto; try congruence.
      * exists (LMained r). split; [reflexivity|left; reflexivity].
      * destruct r; auto; discriminate.
    + injection S as <-. constructor; cbn [commands tid svc client log app life_of stopped]; rewrite ?NS, ?LF; try discriminate; auto; try congruence.
      exists LTerm. split; [|left; reflexivity]. destruct LO as [->| ->]; destruct r0; reflexivity.
    + injection S as <-. destruct LO as [->|[]]. constructor; cbn [commands tid svc client log app life_of stopped]; rewrite ?NS, ?LF; try discriminate; auto; try congruence.
      exists LReady. split; [reflexivity|left; reflexivity].
Qed.
Lemma inv_init : inv init.
Proof. constructor; cbn; auto; try discriminate. exists LDead. split; auto. left. reflexivity. Qed.
Lemma inv_exec fin sched s : exec (step fin) init sched = Some s -> inv s.
Proof. apply (exec_inv (step fin) inv (inv_step fin)). exact inv_init. Qed.

(** * The theorems *)
(** Every history follows the protocol of [next]. *)
Theorem C22_protocol fin sched s : exec (step fin) init sched = Some s -> life_of (log s) <> None.
Proof. intros E. destruct (i_life _ (inv_exec fin sched s E)) as (f & F & _). rewrite F. discriminate. Qed.
(** No callback is called between a Stop that succeeded and the next Start. *)
Theorem C22_silent_after_stop fin sched s a s' g : exec (step fin) init sched = Some s -> step fin s a = Some s' -> log s' = ECb g :: log s -> stopped (log s) = false.
Proof.
  intros E S L. destruct (inv_exec fin sched s E) as [_ _ _ _ _ _ ST]. destruct (stopped (log s)) eqn:X; auto. destruct (ST eq_refl) as (X1 & X2 & X3). exfalso.
  assert (NC : forall (x : ev) l, x :: l <> l). { intros x l Z. apply (f_equal (@length _)) in Z. cbn in Z. lia. }
  destruct a as [| |late r|r]; cbn [step] in S.
  - destruct (client s); try discriminate. injection S as <-. discriminate.
  - destruct (client s); try discriminate. injection S as <-. discriminate.
  - destruct (client s); try discriminate; rewrite ?X2 in S; injection S as <-; try discriminate; cbn in L; symmetry in L; exact (NC _ _ L).
  - rewrite X1 in S. discriminate.
Qed.
(** After a Stop that succeeded there is no service thread. *)
Theorem C22_stop_kills fin sched s x r : exec (step fin) init sched = Some s -> log s = ERetStop x :: r -> x = SOk \/ x = SError -> life_of (log s) = Some LDead.
Proof.
  intros E L X. destruct (inv_exec fin sched s E) as [(f & F & O) _ _ _ _ _ ST]. rewrite F. destruct ST as (X1 & X2 & X3); [rewrite L; destruct X as [-> | ->]; reflexivity|].
  rewrite X1 in O. destruct O as [->|[]]. destruct (client s); try discriminate; reflexivity.
Qed.

(** A service thread that has begun to run and finds another command than KeepRunning ends by itself. *)
Definition past (p : spc) : bool := match p with STest | SSet => false | _ => true end.
Definition rank (p : spc) : nat :=
  match p with SDead => 0 | STest => 0 | SSet => 0 | SOuter => 1 | SInTerm => 2 | STerm _ => 3 | SIf _ => 5 | SInner _ _ => 4 | SInStartup => 6 | SStartup => 7 | SInMain => 5 | SMain => 6 end%nat.
Definition is_cb (e : ev) : bool := match e with ECb AsyncTermination => false | ECb _ => true | _ => false end.
Theorem C22_stop_ends fin s r : is_keep (commands s) = false -> past (svc s) = true ->
  (svc s = SDead \/ exists s', step fin s (AService r) = Some s') /\
  (forall s', step fin s (AService r) = Some s' -> (rank (svc s') < rank (svc s))%nat /\ past (svc s') = true).
Proof.
  intros K P. cbn [step]. destruct (svc s) eqn:ES; try discriminate; cbn [svc_step]; rewrite ?K; cbn [andb];
    (split; [first [left; reflexivity|right; eexists; reflexivity]|]); intros s' E; try discriminate; injection E as <-; cbn; auto.
Qed.
(** After the command is set to stop, and as long as no Start is called, the service thread makes at most two more callbacks:
    one that it had decided to make, and the termination. *)
Definition calls_left (p : spc) : nat := match p with SStartup | SMain => 2 | SInStartup | SIf _ | SInner _ _ | SInMain | STerm _ => 1 | _ => 0 end%nat.
Definition starting (c : cpc) : bool := match c with CAlive KStart | CRead1 KStart | CRead2 KStart | CRead3 KStart | CStartSet | CBegin => true | _ => false end.
Lemma starting_after k st : k <> KStart -> starting (after k st) = false.
Proof. destruct k, st; auto; congruence. Qed.
Theorem C22_stop_bounded fin sched : forall s s2, is_keep (commands s) = false -> past (svc s) = true -> starting (client s) = false -> exec (step fin) s sched = Some s2 ->
  exists k, log s2 = k ++ log s /\ (In ECallStart k \/ (length (filter is_cb k) <= calls_left (svc s))%nat).
Proof.
  induction sched as [|a r IH]; intros s s2 K P C E; cbn in E.
  - injection E as <-. exists []. split; auto. right. cbn. lia.
  - destruct (step fin s a) as [s1|] eqn:S; [|discriminate].
    assert (X : exists k1, log s1 = k1 ++ log s /\ (In ECallStart k1 \/ (is_keep (commands s1) = false /\ past (svc s1) = true /\ starting (client s1) = false /\ (length (filter is_cb k1) + calls_left (svc s1) <= calls_left (svc s))%nat))).
    { destruct s as [cm ti p c l]. cbn [commands svc client log tid] in *. destruct a as [| |late r0|r0]; cbn [step commands svc client log tid] in S.
      - destruct c; try discriminate. injection S as <-. exists [ECallStart]. split; auto. left. left. reflexivity.
      - destruct c; try discriminate. injection S as <-. exists [ECallStop]. split; auto.
      - destruct c; try discriminate.
        + destruct ti; [destruct (dead p) eqn:DP|]; injection S as <-; exists []; cbn [app commands svc client log filter length]; split; auto; right; repeat split; auto; destruct k; cbn in *; auto; discriminate.
        + injection S as <-; exists []; cbn [app commands svc client log filter length]; split; auto; right; repeat split; auto; destruct cm, k; cbn in *; auto; discriminate.
        + injection S as <-; exists []; cbn [app commands svc client log filter length]; split; auto; right; repeat split; auto; destruct cm, k, late, fin; cbn in *; auto; discriminate.
        + injection S as <-; exists []; cbn [app commands svc client log filter length]; split; auto; right; repeat split; auto; destruct cm, k, late, fin; cbn in *; auto; discriminate.
        + injection S as <-. exists [ERetStart ok]. cbn. split; auto.
        + injection S as <-. exists []. cbn. split; auto.
        + injection S as <-. exists []. cbn. split; auto.
        + injection S as <-. exists []. cbn. split; auto.
        + injection S as <-. eexists. split; [reflexivity|]. right. cbn. destruct (dead p); cbn; repeat split; auto; lia.
        + injection S as <-. exists [ECb AsyncTermination]. cbn. split; auto.
        + injection S as <-. exists [ECbRet r0]. cbn. split; auto.
        + injection S as <-. exists []. cbn. split; auto.
        + injection S as <-. exists [ERetStop r1]. cbn. split; auto.
      - destruct p; try discriminate; cbn [svc_step] in S; rewrite ?K in S; cbn [andb] in S; injection S as <-; (first [exists []; split; [reflexivity|]|eexists [_]; split; [reflexivity|]]); right; cbn; repeat split; auto.
        destruct r1; cbn; lia. }
    destruct X as (k1 & L1 & X). destruct X as [X|(K1 & P1 & C1 & N1)].
    + assert (LG : exists k2, log s2 = k2 ++ log s1).
      { clear - E. revert s1 E. induction r as [|a r IH]; intros s1 E; cbn in E; [injection E as <-; exists []; reflexivity|].
        destruct (step fin s1 a) as [s3|] eqn:S; [|discriminate]. destruct (IH s3 E) as (k & L). rewrite L.
        assert (Y : exists k', log s3 = k' ++ log s1).
        { clear - S. destruct a as [| |late r0|r0]; cbn [step] in S.
          - destruct (client s1); try discriminate. injection S as <-. exists [ECallStart]. reflexivity.
          - destruct (client s1); try discriminate. injection S as <-. exists [ECallStop]. reflexivity.
          - destruct (client s1); try discriminate; try (destruct (tid s1); [destruct (dead (svc s1))|]); injection S as <-; first [exists []; reflexivity|eexists; reflexivity|eexists [_]; reflexivity].
          - destruct (svc_step (commands s1) (svc s1) r0) as [[[c p] es]|]; [|discriminate]. injection S as <-. exists es. reflexivity. }
        destruct Y as (k' & ->). exists (k ++ k'). rewrite app_assoc. reflexivity. }
      destruct LG as (k2 & L2). exists (k2 ++ k1). rewrite L2, L1, app_assoc. split; auto. left. apply in_or_app. right. exact X.
    + destruct (IH s1 s2 K1 P1 C1 E) as (k2 & L2 & Y). exists (k2 ++ k1). rewrite L2, L1, app_assoc. split; auto. destruct Y as [Y|Y]; [left; apply in_or_app; left; exact Y|].
      right. rewrite filter_app, app_length. lia.
Qed.

(** Stop, called with an infinite timeout while the thread runs, returns only success: it sets the command, waits until the thread is
    gone and does not kill it. *)
Definition no_call (a : action) : Prop := match a with ACallStart | ACallStop => False | _ => True end.
Definition stop_call (s : sys) : Prop :=
  match client s with
  | CIdle => True
  | CAlive KStop | CRead1 KStop | CStopSet => commands s = KeepRunning /\ svc s <> SDead /\ past (svc s) = true
  | CAlive KStopLoop | CRead1 KStopLoop | CRead2 KStopLoop | CRead3 KStopLoop => commands s = Stop /\ past (svc s) = true
  | CAlive KStopEnd => tid s = false
  | CStopReset => True
  | CStopRet x => x = SOk
  | _ => False
  end.
Theorem C22_running_stop_succeeds s sched : client s = CIdle -> commands s = KeepRunning -> svc s <> SDead -> past (svc s) = true -> Forall no_call sched ->
  forall s2, exec (step false) s (ACallStop :: sched) = Some s2 ->
  exists k, log s2 = k ++ ECallStop :: log s /\ ~ List.In EKill k /\ forall x, List.In (ERetStop x) k -> x = SOk.
Proof.
  intros CI CK SD PA FA s2 E. cbn [exec step] in E. rewrite CI in E.
  set (s1 := Sys (commands s) (tid s) (svc s) (CAlive KStop) (ECallStop :: log s)) in *.
  assert (J : stop_call s1) by (cbn; auto).
  assert (G : forall s0, stop_call s0 -> Forall no_call sched -> exec (step false) s0 sched = Some s2 ->
    exists k, log s2 = k ++ log s0 /\ ~ List.In EKill k /\ forall x, List.In (ERetStop x) k -> x = SOk).
  { clear. induction sched as [|a r IH]; intros s0 J FA E; cbn in E.
    - injection E as <-. exists []. split; auto. split; [intros []|intros x []].
    - destruct (step false s0 a) as [s1|] eqn:S; [|discriminate]. inversion_clear FA as [|? ? NA FR].
      assert (X : exists k1, log s1 = k1 ++ log s0 /\ ~ List.In EKill k1 /\ (forall x, List.In (ERetStop x) k1 -> x = SOk) /\ stop_call s1).
      { destruct s0 as [cm ti p c l]. unfold stop_call in J. cbn [commands svc client log tid] in *. destruct a as [| |late r0|r0]; try contradiction NA; cbn [step commands svc client log tid] in S.
        - destruct c; try discriminate; try contradiction J; try (destruct k; try contradiction J).
          + destruct J as (-> & J2 & J3). destruct ti; [destruct p; try contradiction; cbn [dead] in S|]; injection S as <-; exists []; cbn; repeat split; auto; intros x [].
          + destruct J as (-> & J3). destruct ti; [destruct (dead p) eqn:DP|]; injection S as <-; exists []; cbn; repeat split; auto; intros x [].
          + rewrite J in S. injection S as <-; exists []; cbn; repeat split; auto; intros x [].
          + destruct J as (-> & J2 & J3). injection S as <-; exists []; cbn; repeat split; auto; intros x [].
          + destruct J as (-> & J3). injection S as <-; exists []; cbn; repeat split; auto; intros x [].
          + destruct J as (-> & J3). injection S as <-; exists []; cbn; repeat split; auto; intros x [].
          + destruct J as (-> & J3). rewrite Bool.andb_false_r in S. injection S as <-; exists []; cbn; repeat split; auto; intros x [].
          + destruct J as (-> & J2 & J3). injection S as <-; exists []; cbn; repeat split; auto; intros x [].
          + injection S as <-; exists []; cbn; repeat split; auto; intros x [].
          + subst r1. injection S as <-. exists [ERetStop SOk]. cbn; repeat split; auto; [intros [Z|[]]; discriminate|intros x [Z|[]]; congruence].
        - destruct (svc_step cm p r0) as [[[c' p'] es]|] eqn:SS; [|discriminate]. injection S as <-. exists es. cbn [log].
          assert (Y : ~ List.In EKill es /\ (forall x, ~ List.In (ERetStop x) es) /\ (past p = true -> c' = cm /\ past p' = true /\ (is_keep cm = true -> p' <> SDead))).
          { destruct p; try discriminate SS; cbn [svc_step] in SS; try (destruct (is_keep cm) eqn:KK); try (destruct ok); injection SS as <- <- <-; cbn;
              repeat split; auto; try discriminate; try (intros [Z|[]]; discriminate Z); try (intros x [Z|[]]; discriminate Z); try (intros []); try (intros x []). }
          destruct Y as (Y1 & Y2 & Y3). repeat split; auto.
          + intros x Z. contradiction (Y2 x Z).
          + unfold stop_call. cbn [client commands svc tid]. destruct c; auto; try (destruct k; auto).
            all: try (destruct J as (J1 & J2 & J3); destruct (Y3 J3) as (-> & Z2 & Z3); rewrite J1 in *; auto).
            all: destruct J as (J1 & J3); destruct (Y3 J3) as (-> & Z2 & Z3); rewrite J1 in *; auto. }
      destruct X as (k1 & L1 & K1 & X1 & J1). destruct (IH s1 J1 FR E) as (k2 & L2 & K2 & X2). exists (k2 ++ k1). rewrite L2, L1, app_assoc. split; auto.
      split; [intros Z; apply in_app_or in Z; tauto|]. intros x Z. apply in_app_or in Z. destruct Z; auto. }
  destruct (G s1 J FA E) as (k & L & X). exists k. split; auto.
Qed.
Example C22_running_stop_case : exists sched s, exec (step false) init sched = Some s /\ client s = CIdle /\ commands s = KeepRunning /\ svc s <> SDead /\ past (svc s) = true.
Proof.
  exists ([ACallStart] ++ repeat (AClient false CNone) 4 ++ repeat (AService CNone) 7). eexists. split; [vm_compute; reflexivity|]. repeat split. discriminate.
Qed.

(** * What does not hold *)
(** A Stop made between lines 59 and 61 of ThreadLoop is lost: with an infinite timeout, Stop returns at once with a timeout error and the
    thread goes on running. *)
Theorem C22_lost_stop_refuted :
  exists sched s, exec (step false) init sched = Some s /\
    log s = [ECb Main; ECbRet CNone; ECb Main; ECbRet CNone; ECb Startup; ERetStop STimeout; ECallStop; ERetStart true; ECreate; ECallStart] /\ commands s = KeepRunning.
Proof.
  exists ([ACallStart; AClient false CNone; AClient false CNone; AClient false CNone; AClient false CNone; AService CNone;
           ACallStop; AClient false CNone; AClient false CNone; AClient false CNone; AClient false CNone; AService CNone] ++ repeat (AClient false CNone) 5 ++ repeat (AService CNone) 9).
  eexists. split; [vm_compute; reflexivity|]. split; reflexivity.
Qed.
(** A Stop made while the thread changes the command from Start to KeepRunning can be refused as an illegal operation. *)
Theorem C22_refused_stop_refuted :
  exists sched s, exec (step false) init sched = Some s /\ log s = [ERetStop SIllegal; ECallStop; ERetStart true; ECreate; ECallStart].
Proof.
  exists [ACallStart; AClient false CNone; AClient false CNone; AClient false CNone; AClient false CNone; AService CNone;
          ACallStop; AClient false CNone; AClient false CNone; AService CNone; AClient false CNone; AClient false CNone; AClient false CNone].
  eexists. split; [vm_compute; reflexivity|]. reflexivity.
Qed.
(** A thread that is stopped in its main loop without any error terminates with BadTermination. *)
Theorem C22_clean_stop_is_bad_termination :
  exists sched s, exec (step false) init sched = Some s /\
    log s = [ERetStop SOk; EExit; ECbRet CNone; ECb BadTermination; ECbRet CNone; ECb Main; ECallStop; ECbRet CNone; ECb Startup; ERetStart true; ECreate; ECallStart].
Proof.
  exists ([ACallStart; AClient false CNone; AClient false CNone; AClient false CNone; AClient false CNone] ++ repeat (AService CNone) 7 ++
          [ACallStop; AClient false CNone; AClient false CNone; AService CNone; AService CNone; AClient false CNone; AClient false CNone; AClient false CNone; AClient false CNone; AClient false CNone] ++
          repeat (AService CNone) 4 ++ repeat (AClient false CNone) 4).
  eexists. split; [vm_compute; reflexivity|]. reflexivity.
Qed.
(** Two cycles: the first completes, the second fails, then the thread is stopped. *)
Example C22_case :
  exists s, exec (step true) init ([ACallStart; AClient false CNone; AClient false CNone; AClient false CNone; AClient false CNone] ++ repeat (AService CNone) 8 ++ [AService CCompleted] ++ repeat (AService CNone) 9 ++
      [AService CError; AService CNone; AService CNone; ACallStop; AClient false CNone; AClient false CNone; AClient false CNone] ++ repeat (AService CNone) 2 ++ repeat (AClient false CNone) 4) = Some s /\
    log s = [ERetStop SOk; EExit; ECbRet CNone; ECallStop; ECb BadTermination; ECbRet CError; ECb Main; ECbRet CNone; ECb Startup; ECbRet CNone; ECb Termination; ECbRet CCompleted; ECb Main; ECbRet CNone; ECb Startup;
             ERetStart true; ECreate; ECallStart].
Proof. eexists. split; [vm_compute; reflexivity|]. reflexivity. Qed.

Print Assumptions C22_protocol.
Print Assumptions C22_silent_after_stop.
Print Assumptions C22_stop_kills.
Print Assumptions C22_stop_ends.
Print Assumptions C22_stop_bounded.
Print Assumptions C22_running_stop_succeeds.
Print Assumptions C22_lost_stop_refuted.
Print Assumptions C22_refused_stop_refuted.
