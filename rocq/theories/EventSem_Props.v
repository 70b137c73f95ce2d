(** C37: what a wait on the event semaphore returns, for every schedule. *)
From Verif Require Import Base Conc EventSem_Model.

(** * Reading the log (latest event first) *)
Definition is_reset (e : ev) : bool := match e with ECall OReset | ERet OReset _ => true | _ => false end.
Definition is_post (e : ev) : bool := match e with ECall OPost | ERet OPost _ => true | _ => false end.
(** Thread t is inside an operation that satisfies P. *)
Fixpoint inside (P : ev -> bool) (l : list (nat * ev)) (t : nat) : bool :=
  match l with
  | [] => false
  | (u, e) :: r => if Nat.eqb u t then match e with ECall _ => P e | ERet _ _ => false end else inside P r t
  end.
Definition none_inside (P : ev -> bool) (l : list (nat * ev)) : Prop := forall t, inside P l t = false.
(** The last operation o of thread t was called while no operation P was in progress, and no P was called since. *)
Fixpoint undisturbed (P : ev -> bool) (o : op) (l : list (nat * ev)) (t : nat) : Prop :=
  match l with
  | [] => False
  | (u, e) :: r => P e = false /\ ((u = t /\ e = ECall o /\ none_inside P r) \/ (~ (u = t /\ exists o', e = ECall o') /\ undisturbed P o r t))
  end.
(** A Post ran undisturbed by resets and returned, and no reset was called since: the event is posted. *)
Fixpoint posted (l : list (nat * ev)) : Prop :=
  match l with
  | [] => False
  | (u, e) :: r => is_reset e = false /\ (((exists x, e = ERet OPost x) /\ undisturbed is_reset OPost r u) \/ posted r)
  end.
(** The semaphore is new, or a Reset ran undisturbed by posts and returned, and no post was called since. *)
Fixpoint not_posted (l : list (nat * ev)) : Prop :=
  match l with
  | [] => True
  | (u, e) :: r => is_post e = false /\ (((exists x, e = ERet OReset x) /\ undisturbed is_post OReset r u) \/ not_posted r)
  end.
(** The wait that thread t is in began when the event was not posted, and no post was called since. *)
Fixpoint waits_unposted (l : list (nat * ev)) (t : nat) : Prop :=
  match l with
  | [] => False
  | (u, e) :: r => is_post e = false /\ ((u = t /\ (exists b, e = ECall (OWait b)) /\ not_posted r) \/ (~ (u = t /\ exists o', e = ECall o') /\ waits_unposted r t))
  end.

Lemma inside_keep P l t u e : P e = false -> inside P ((u, e) :: l) t = true -> inside P l t = true.
Proof. intros E. cbn. destruct (Nat.eqb u t); auto. destruct e; [congruence|discriminate]. Qed.
Lemma undisturbed_quiet P o l t : undisturbed P o l t -> none_inside P l.
Proof.
  induction l as [|[u e] l IH]; cbn [undisturbed]; [contradiction|]. intros (E & [(-> & -> & N)|(_ & U)]) x; destruct (inside P ((_, _) :: l) x) eqn:I; auto.
  - apply inside_keep in I; auto. rewrite N in I. discriminate I.
  - apply inside_keep in I; auto. rewrite (IH U) in I. discriminate I.
Qed.
Lemma posted_quiet l : posted l -> none_inside is_reset l.
Proof.
  induction l as [|[u e] l IH]; cbn [posted]; [contradiction|]. intros (E & [(_ & U)|U]) x; destruct (inside is_reset ((u, e) :: l) x) eqn:I; auto; apply inside_keep in I; auto.
  - rewrite (undisturbed_quiet _ _ _ _ U) in I. discriminate I.
  - rewrite (IH U) in I. discriminate I.
Qed.
Lemma not_posted_quiet l : not_posted l -> none_inside is_post l.
Proof.
  induction l as [|[u e] l IH]; cbn [not_posted]; [intros _ x; reflexivity|]. intros (E & [(_ & U)|U]) x; destruct (inside is_post ((u, e) :: l) x) eqn:I; auto; apply inside_keep in I; auto.
  - rewrite (undisturbed_quiet _ _ _ _ U) in I. discriminate I.
  - rewrite (IH U) in I. discriminate I.
Qed.

(** * Invariants *)
Definition fits (o : op) (p : espc) : bool :=
  match o, p with
  | OPost, (PostLock | PostStore | PostUnlock | PostBroadcast | EsDone _) => true
  | OReset, (ResetLock | ResetUnlock | ResetStore | EsDone _) => true
  | OWait _, (WaitLock _ | WaitCheck _ | WaitSleep _ | WaitWoken _ | WaitUnlock _ | EsDone _) => true
  | _, _ => false
  end.
Definition owns (p : espc) : bool := match p with PostStore | PostUnlock | ResetUnlock | WaitCheck _ | WaitUnlock _ => true | _ => false end.
Definition asleep (s : sys) (t : nat) : Prop := exists o b, pcs s t = Some (o, WaitSleep b).
Definition sig (o : op) : ev -> bool := match o with OPost => is_post | OReset => is_reset | OWait _ => fun e => match e with ECall (OWait _) => true | _ => false end end.
Record base (s : sys) : Prop := {
  b_fits : forall t o p, pcs s t = Some (o, p) -> fits o p = true;
  b_in : forall t P, inside P (log s) t = match pcs s t with Some (o, _) => P (ECall o) | None => false end;
  b_own : forall t o p, pcs s t = Some (o, p) -> owns p = true -> owner s = Some t;
  b_own2 : forall t, owner s = Some t -> exists o p, pcs s t = Some (o, p) /\ owns p = true
}.

Lemma es_step_facts t ow st p ow' st' q bc : es_step t ow st p = Some (ow', st', q, bc) ->
  (forall o, fits o p = true -> fits o q = true) /\
  (owns p = true -> owns q = true -> ow' = ow) /\ (owns p = true -> owns q = false -> ow' = None) /\
  (owns p = false -> owns q = true -> ow = None /\ ow' = Some t) /\ (owns p = false -> owns q = false -> ow' = ow) /\
  (bc = true -> p = PostBroadcast /\ q = EsDone ROk).
Proof.
  destruct p; cbn [es_step]; try discriminate; try (destruct ow; [discriminate|]); try (destruct st); intros E; injection E as <- <- <- <-; cbn [owns];
    (split; [intros [| |?]; cbn; auto|]); repeat split; intros; try congruence; try discriminate.
Qed.
Lemma owns_wake p : owns (wake p) = owns p. Proof. destruct p; reflexivity. Qed.
Lemma fits_wake o p : fits o p = true -> fits o (wake p) = true. Proof. destruct o, p; auto. Qed.

Lemma base_init : base init.
Proof. constructor; cbn; try discriminate; auto. Qed.
Lemma base_step sp s a s' : base s -> step sp false s a = Some s' -> base s'.
Proof.
  intros [F I O O2] S.
  (* one thread changes its point, no event *)
  assert (MOVE : forall t o p q ow st, pcs s t = Some (o, p) -> fits o q = true ->
    (owns q = true -> ow = Some t) -> (owns q = false -> owns p = true -> ow = None) -> (owns q = owns p -> ow = owner s) -> (owns q = true -> owns p = false -> owner s = None) ->
    base (Sys ow st (upd (pcs s) t (Some (o, q))) (log s))).
  { intros t o p q ow st EP FQ H1 H2 H3 H4. constructor; cbn [pcs log owner].
    - intros x o' p'. destruct (upd_cases (pcs s) t (Some (o, q)) x) as [[-> ->]|[NE ->]]; [intros X; injection X as <- <-; exact FQ|apply F].
    - intros x P. rewrite I. destruct (upd_cases (pcs s) t (Some (o, q)) x) as [[-> ->]|[NE ->]]; [rewrite EP; reflexivity|reflexivity].
    - intros x o' p'. destruct (upd_cases (pcs s) t (Some (o, q)) x) as [[-> ->]|[NE ->]]; [intros X OW; injection X as <- <-; apply H1; exact OW|].
      intros X OW. pose proof (O x o' p' X OW) as OS. destruct (owns q) eqn:EQ, (owns p) eqn:EPP.
      + rewrite (O t o p EP EPP) in OS. congruence.
      + rewrite H4 in OS by auto. discriminate.
      + rewrite (O t o p EP EPP) in OS. congruence.
      + rewrite H3 by auto. exact OS.
    - intros x X. destruct (owns q) eqn:EQ.
      + rewrite H1 in X by auto. injection X as <-. exists o, q. rewrite upd_same. auto.
      + destruct (owns p) eqn:EPP; [rewrite H2 in X by auto; discriminate|]. rewrite H3 in X by auto. destruct (O2 x X) as (o' & p' & Y & Z).
        exists o', p'. rewrite upd_other; auto. intros ->. rewrite EP in Y. injection Y as <- <-. congruence. }
  destruct a as [t o|t|t|t|t]; cbn [step] in S.
  - destruct (pcs s t) eqn:EP; [discriminate|]. injection S as <-. constructor; cbn [pcs log owner].
    + intros x o' p'. destruct (upd_cases (pcs s) t (Some (o, entry o)) x) as [[-> ->]|[NE ->]]; [intros X; injection X as <- <-; destruct o; reflexivity|apply F].
    + intros x P. cbn [inside]. destruct (upd_cases (pcs s) t (Some (o, entry o)) x) as [[-> ->]|[NE ->]]; [rewrite Nat.eqb_refl; reflexivity|].
      rewrite (proj2 (Nat.eqb_neq t x)) by auto. apply I.
    + intros x o' p'. destruct (upd_cases (pcs s) t (Some (o, entry o)) x) as [[-> ->]|[NE ->]]; [intros X; injection X as <- <-; destruct o; discriminate|apply O].
    + intros x X. destruct (O2 x X) as (o' & p' & Y & Z). exists o', p'. rewrite upd_other; auto. intros ->. congruence.
  - destruct (pcs s t) as [[o p]|] eqn:EP; [|discriminate]. destruct (es_step t (owner s) (stop s) p) as [[[[ow st] q] bc]|] eqn:ES.
    + assert (S2 : Some (Sys ow st (upd (if bc then wake_all (pcs s) else pcs s) t (Some (o, q))) (log s)) = Some s') by (destruct p; try exact S; discriminate ES).
      clear S. injection S2 as <-. destruct (es_step_facts _ _ _ _ _ _ _ _ ES) as (A & B & C & D & E & G).
      assert (B' : base (Sys ow st (upd (pcs s) t (Some (o, q))) (log s))).
      { apply (MOVE t o p); auto.
        - apply A. apply (F t). exact EP.
        - intros Q. destruct (owns p) eqn:OP; [rewrite B by auto; apply (O t o p EP OP)|apply D; auto].
        - intros Q. destruct (owns q), (owns p); auto; try discriminate.
        - intros Q P. apply D; auto. }
      destruct bc; [|exact B']. destruct B' as [F' I' O' O2']. constructor; cbn [pcs log owner] in *.
      * intros x o' p' X. destruct (upd_cases (wake_all (pcs s)) t (Some (o, q)) x) as [[-> EE]|[NE EE]]; rewrite EE in X.
        -- apply (F' t). rewrite upd_same. exact X.
        -- unfold wake_all in X. destruct (pcs s x) as [[o1 p1]|] eqn:EX; [|discriminate]. injection X as <- <-. apply fits_wake. apply (F x). exact EX.
      * intros x P. rewrite I. destruct (upd_cases (wake_all (pcs s)) t (Some (o, q)) x) as [[-> EE]|[NE EE]]; rewrite EE; [rewrite EP; reflexivity|].
        unfold wake_all. destruct (pcs s x) as [[o1 p1]|]; reflexivity.
      * intros x o' p' X OW. destruct (upd_cases (wake_all (pcs s)) t (Some (o, q)) x) as [[-> EE]|[NE EE]]; rewrite EE in X.
        -- apply (O' t o' p'); [rewrite upd_same; exact X|exact OW].
        -- unfold wake_all in X. destruct (pcs s x) as [[o1 p1]|] eqn:EX; [|discriminate]. injection X as <- <-. rewrite owns_wake in OW. apply (O' x o1 p1); auto. rewrite upd_other; auto.
      * intros x X. destruct (O2' x X) as (o' & p' & Y & Z). destruct (upd_cases (pcs s) t (Some (o, q)) x) as [[-> EE]|[NE EE]]; rewrite EE in Y.
        -- exists o', p'. rewrite upd_same. auto.
        -- exists o', (wake p'). rewrite upd_other by auto. unfold wake_all. rewrite Y. rewrite owns_wake. auto.
    + assert (S2 : exists r, p = EsDone r) by (destruct p; try discriminate S; eauto). destruct S2 as [r ->]. injection S as <-. constructor; cbn [pcs log owner].
      * intros x o' p'. destruct (upd_cases (pcs s) t None x) as [[-> ->]|[NE ->]]; [discriminate|apply F].
      * intros x P. cbn [inside]. destruct (upd_cases (pcs s) t None x) as [[-> ->]|[NE ->]]; [rewrite Nat.eqb_refl; reflexivity|].
        rewrite (proj2 (Nat.eqb_neq t x)) by auto. apply I.
      * intros x o' p'. destruct (upd_cases (pcs s) t None x) as [[-> ->]|[NE ->]]; [discriminate|apply O].
      * intros x X. destruct (O2 x X) as (o' & p' & Y & Z). exists o', p'. rewrite upd_other; auto. intros ->. rewrite EP in Y. injection Y as <- <-. discriminate.
  - destruct (pcs s t) as [[o p]|] eqn:EP; [|discriminate]. destruct p; try discriminate. destruct timed; [|discriminate]. injection S as <-.
    apply (MOVE t o (WaitSleep true)); auto; try discriminate. specialize (F _ _ _ EP). destruct o; auto.
  - destruct sp; [|discriminate]. destruct (pcs s t) as [[o p]|] eqn:EP; [|discriminate]. destruct p; try discriminate. injection S as <-.
    apply (MOVE t o (WaitSleep timed)); auto; try discriminate. specialize (F _ _ _ EP). destruct o; auto.
  - discriminate.
Qed.

Record inv (s : sys) : Prop := {
  i_base : base s;
  i_post : forall t p, pcs s t = Some (OPost, p) -> undisturbed is_reset OPost (log s) t ->
           (match p with PostUnlock | PostBroadcast => stop s = false | EsDone _ => stop s = false /\ (forall u, ~ asleep s u) | _ => True end);
  i_posted : posted (log s) -> stop s = false /\ forall u, ~ asleep s u
}.
Lemma undisturbed_step P o l t u e : undisturbed P o ((u, e) :: l) t -> (u = t /\ e = ECall o /\ none_inside P l) \/ (~ (u = t /\ exists o', e = ECall o') /\ undisturbed P o l t).
Proof. cbn. tauto. Qed.
(** Once the event is posted (or about to be) only a reset clears the flag, and nobody falls asleep. *)
Lemma inv_step sp s a s' : inv s -> step sp false s a = Some s' -> inv s'.
Proof.
  intros [B IP IO] S. pose proof (base_step _ _ _ _ B S) as B'. destruct B as [F I O O2].
  assert (NR : forall t o, none_inside is_reset (log s) -> ~ (exists p, pcs s t = Some (o, p) /\ o = OReset)).
  { intros t o N (p & EP & ->). specialize (N t). rewrite I, EP in N. discriminate. }
  (* a step that keeps the log: the stop flag stays false once posted, and no new sleeper *)
  assert (KEEP : forall t o p q ow st pc', pcs s t = Some (o, p) ->
     (forall x, x <> t -> pc' x = pcs s x \/ (exists o1 p1, pcs s x = Some (o1, p1) /\ pc' x = Some (o1, wake p1))) -> pc' t = Some (o, q) ->
     (stop s = false -> none_inside is_reset (log s) -> st = false) -> (stop s = false -> forall b, q = WaitSleep b -> p = WaitSleep b) ->
     (o = OPost -> undisturbed is_reset OPost (log s) t -> match q with PostUnlock | PostBroadcast => st = false | EsDone _ => st = false /\ (forall u, ~ asleep (Sys ow st pc' (log s)) u) | _ => True end) ->
     base (Sys ow st pc' (log s)) -> inv (Sys ow st pc' (log s))).
  { intros t o p q ow st pc' EP OTH ET ST SL PO BB.
    assert (AS : stop s = false -> forall u, asleep (Sys ow st pc' (log s)) u -> asleep s u).
    { intros SF u (o' & b & X). cbn [pcs] in X. destruct (Nat.eq_dec u t) as [->|NE].
      - rewrite ET in X. injection X as <- E. exists o, b. rewrite (SL SF b E) in EP. exact EP.
      - destruct (OTH u NE) as [E|(o1 & p1 & E1 & E2)]; [exists o', b; congruence|]. rewrite E2 in X. destruct p1; discriminate. }
    constructor; auto; cbn [pcs log stop].
    - intros u p' X UN. destruct (Nat.eq_dec u t) as [->|NE].
      + rewrite ET in X. injection X as EO EQ. subst o p'. apply PO; auto.
      + assert (exists p0, pcs s u = Some (OPost, p0) /\ p' = wake p0) as (p0 & X0 & ->).
        { destruct (OTH u NE) as [E|(o1 & p1 & E1 & E2)]; [exists p'; split; [congruence|]|exists p1; split; congruence]. rewrite X in E. symmetry in E. specialize (F _ _ _ E). destruct p'; auto; discriminate. }
        pose proof (IP u p0 X0 UN) as Y. destruct p0; cbn [wake]; auto.
        * apply ST; auto. apply (undisturbed_quiet _ _ _ _ UN).
        * apply ST; auto. apply (undisturbed_quiet _ _ _ _ UN).
        * destruct Y as [Y1 Y2]. split; [apply ST; auto; apply (undisturbed_quiet _ _ _ _ UN)|]. intros v V. apply (Y2 v). apply AS; auto.
    - intros P. destruct (IO P) as [Y1 Y2]. split; [apply ST; auto; apply posted_quiet; auto|]. intros v V. apply (Y2 v). apply AS; auto. }
  destruct a as [t o|t|t|t|t]; cbn [step] in S.
  - (* call *)
    destruct (pcs s t) eqn:EP; [discriminate|]. injection S as <-.
    assert (AS : forall u, asleep (Sys (owner s) (stop s) (upd (pcs s) t (Some (o, entry o))) ((t, ECall o) :: log s)) u -> asleep s u).
    { intros u (o' & b & X). cbn [pcs] in X. destruct (upd_cases (pcs s) t (Some (o, entry o)) u) as [[-> EE]|[NE EE]]; rewrite EE in X; [destruct o; discriminate|]. exists o', b. exact X. }
    constructor; auto; cbn [pcs log stop].
    + intros u p X UN. apply undisturbed_step in UN. destruct (upd_cases (pcs s) t (Some (o, entry o)) u) as [[-> EE]|[NE EE]]; rewrite EE in X.
      * injection X as -> <-. exact Logic.I.
      * destruct UN as [(E & _)|(_ & UN)]; [congruence|]. pose proof (IP u p X UN) as Y. destruct p; auto. destruct Y as [Y1 Y2]. split; auto. intros v V. apply (Y2 v). apply AS. exact V.
    + cbn [posted]. intros (_ & [((x & E) & _)|P]); [discriminate|]. destruct (IO P) as [Y1 Y2]. split; auto. intros v V. apply (Y2 v). apply AS. exact V.
  - (* step *)
    destruct (pcs s t) as [[o p]|] eqn:EP; [|discriminate]. pose proof (F _ _ _ EP) as FP.
    destruct (es_step t (owner s) (stop s) p) as [[[[ow st] q] bc]|] eqn:ES.
    + assert (S2 : Some (Sys ow st (upd (if bc then wake_all (pcs s) else pcs s) t (Some (o, q))) (log s)) = Some s') by (destruct p; try exact S; discriminate ES).
      clear S. injection S2 as <-. apply (KEEP t o p q); auto.
      * intros x NE. rewrite upd_other by auto. destruct bc; auto. unfold wake_all. destruct (pcs s x) as [[o1 p1]|]; [right; exists o1, p1; auto|left; auto].
      * apply upd_same.
      * intros SF N. destruct p; cbn [es_step] in ES; try discriminate; try (destruct (owner s); [discriminate|]); try (rewrite SF in ES); injection ES; intros; subst; auto.
        exfalso. apply (NR t o N). exists ResetStore. destruct o; try discriminate. auto.
      * intros SF b ->. destruct p; cbn [es_step] in ES; try discriminate; try (destruct (owner s); discriminate). rewrite SF in ES. discriminate.
      * intros -> UN. destruct p; cbn [fits] in FP; try discriminate; cbn [es_step] in ES; try (destruct (owner s); [discriminate|]); injection ES; intros; subst; auto.
        -- apply (IP t PostUnlock EP UN).
        -- pose proof (IP t PostBroadcast EP UN) as Y. cbn in Y. split; [exact Y|]. intros v (o' & b & X). cbn [pcs] in X.
           destruct (upd_cases (wake_all (pcs s)) t (Some (OPost, EsDone ROk)) v) as [[-> EE]|[NE EE]]; rewrite EE in X; [discriminate|].
           unfold wake_all in X. destruct (pcs s v) as [[o1 p1]|]; [|discriminate]. destruct p1; discriminate.
    + assert (S2 : exists r, p = EsDone r) by (destruct p; try discriminate S; eauto). destruct S2 as [r ->]. injection S as <-.
      assert (AS : forall u, asleep (Sys (owner s) (stop s) (upd (pcs s) t None) ((t, ERet o r) :: log s)) u -> asleep s u).
      { intros u (o' & b & X). cbn [pcs] in X. destruct (upd_cases (pcs s) t None u) as [[-> EE]|[NE EE]]; rewrite EE in X; [discriminate|]. exists o', b. exact X. }
      constructor; auto; cbn [pcs log stop].
      * intros u p X UN. apply undisturbed_step in UN. destruct (upd_cases (pcs s) t None u) as [[-> EE]|[NE EE]]; rewrite EE in X; [discriminate|].
        destruct UN as [(E & _)|(_ & UN)]; [congruence|]. pose proof (IP u p X UN) as Y. destruct p; auto. destruct Y as [Y1 Y2]. split; auto. intros v V. apply (Y2 v). apply AS. exact V.
      * cbn [posted]. intros (_ & [((x & E) & UN)|P]).
        -- injection E as -> ->. destruct (IP t _ EP UN) as [Y1 Y2]. split; auto. intros v V. apply (Y2 v). apply AS. exact V.
        -- destruct (IO P) as [Y1 Y2]. split; auto. intros v V. apply (Y2 v). apply AS. exact V.
  - destruct (pcs s t) as [[o p]|] eqn:EP; [|discriminate]. destruct p; try discriminate. destruct timed; [|discriminate]. injection S as <-. specialize (F _ _ _ EP).
    apply (KEEP t o (WaitSleep true) (WaitWoken RTimeout)); auto; try discriminate; try (intros x NE; left; apply upd_other; auto; fail); try apply upd_same; try (intros ->; discriminate).
  - destruct sp; [|discriminate]. destruct (pcs s t) as [[o p]|] eqn:EP; [|discriminate]. destruct p; try discriminate. injection S as <-. specialize (F _ _ _ EP).
    apply (KEEP t o (WaitSleep timed) (WaitWoken ROk)); auto; try discriminate; try (intros x NE; left; apply upd_other; auto; fail); try apply upd_same; try (intros ->; discriminate).
  - discriminate.
Qed.
Lemma inv_exec sp sched s : exec (step sp false) init sched = Some s -> inv s.
Proof.
  apply (exec_inv (step sp false) inv (inv_step sp)). constructor; [exact base_init| |]; cbn; try discriminate; contradiction.
Qed.

(** As long as the event is posted nobody sleeps: who was waiting has been released, and who starts waiting does not stop. *)
Theorem C37_posted_nobody_sleeps sp sched s t : exec (step sp false) init sched = Some s -> posted (log s) -> ~ asleep s t.
Proof. intros E P. destruct (i_posted _ (inv_exec sp sched s E) P) as [_ A]. apply A. Qed.
(** A post releases every thread that is asleep when it is called: when it returns, such a thread is awake, unless it has returned from
    that wait in the meantime (and waits anew). *)
Definition released (p t : nat) (l0 : list (nat * ev)) (s : sys) : Prop :=
  exists l, log s = l ++ l0 /\
  ((exists b r, In (t, ERet (OWait b) r) l) \/
   (exists b q, pcs s t = Some (OWait b, q) /\ match q with WaitWoken _ | WaitUnlock _ | EsDone _ => True | _ => False end) \/
   (exists b b' q, pcs s t = Some (OWait b, WaitSleep b') /\ pcs s p = Some (OPost, q) /\ match q with EsDone _ => False | _ => True end)).
Lemma released_step sp p t l0 s a s' : base s /\ released p t l0 s -> step sp false s a = Some s' -> base s' /\ released p t l0 s'.
Proof.
  intros [B (l & L & R)] S. split; [exact (base_step _ _ _ _ B S)|]. destruct B as [F _ _ _].
  assert (LG : exists k, log s' = k ++ log s).
  { destruct a as [v o|v|v|v|v]; cbn [step] in S; try discriminate.
    - destruct (pcs s v); [discriminate|]. injection S as <-. exists [(v, ECall o)]. reflexivity.
    - destruct (pcs s v) as [[o q]|]; [|discriminate]. destruct q; cbn [es_step] in S; try (destruct (owner s); try discriminate); try (destruct (stop s)); try discriminate; injection S as <-;
        try (exists []; reflexivity); eexists [_]; reflexivity.
    - destruct (pcs s v) as [[o q]|]; [|discriminate]. destruct q; try discriminate. destruct timed; [|discriminate]. injection S as <-. exists []. reflexivity.
    - destruct sp; [|discriminate]. destruct (pcs s v) as [[o q]|]; [|discriminate]. destruct q; try discriminate. injection S as <-. exists []. reflexivity. }
  destruct LG as (k & LG). exists (k ++ l). split; [rewrite LG, L, app_assoc; reflexivity|].
  destruct R as [(b & r & R)|R]; [left; exists b, r; apply in_or_app; right; exact R|].
  (* a sleeper that times out or wakes spuriously *)
  assert (WK : forall v o b r, pcs s v = Some (o, WaitSleep b) -> 
    (exists b q, upd (pcs s) v (Some (o, WaitWoken r)) t = Some (OWait b, q) /\ match q with WaitWoken _ | WaitUnlock _ | EsDone _ => True | _ => False end) \/
    (exists b b' q, upd (pcs s) v (Some (o, WaitWoken r)) t = Some (OWait b, WaitSleep b') /\ upd (pcs s) v (Some (o, WaitWoken r)) p = Some (OPost, q) /\ match q with EsDone _ => False | _ => True end)).
  { intros v o b0 r EV. destruct R as [(b & q & R & Q)|(b & b' & q & R & R2 & Q)].
    - left. exists b, q. rewrite upd_other; auto. intros ->. rewrite R in EV. injection EV as <- ->. contradiction.
    - destruct (Nat.eq_dec v t) as [->|NE].
      + left. rewrite R in EV. injection EV as <- <-. exists b, (WaitWoken r). rewrite upd_same. auto.
      + right. exists b, b', q. rewrite upd_other by auto. split; auto. rewrite upd_other; auto. intros ->. rewrite R2 in EV. injection EV as <- ->. specialize (F _ _ _ R2). discriminate. }
  destruct a as [v o|v|v|v|v]; cbn [step] in S; try discriminate.
  - right. destruct (pcs s v) eqn:EV; [discriminate|]. injection S as <-. cbn [pcs].
    destruct R as [(b & q & R & Q)|(b & b' & q & R & R2 & Q)].
    + left. exists b, q. rewrite upd_other; auto. intros ->. congruence.
    + right. exists b, b', q. rewrite !upd_other; auto; intros ->; congruence.
  - destruct (pcs s v) as [[o q0]|] eqn:EV; [|discriminate]. pose proof (F _ _ _ EV) as FV.
    destruct (es_step v (owner s) (stop s) q0) as [[[[ow st] q1] bc]|] eqn:ES.
    + assert (S2 : Some (Sys ow st (upd (if bc then wake_all (pcs s) else pcs s) v (Some (o, q1))) (log s)) = Some s') by (destruct q0; try exact S; discriminate ES).
      injection S2 as <-. cbn [pcs]. right. destruct R as [(b & q & R & Q)|(b & b' & q & R & R2 & Q)].
      * left. destruct (Nat.eq_dec v t) as [->|NE].
        -- rewrite R in EV. injection EV as <- <-. exists b, q1. rewrite upd_same. split; auto. destruct q; try contradiction; cbn [es_step] in ES; try (destruct (owner s); try discriminate); try discriminate; injection ES; intros; subst; exact Logic.I.
        -- exists b, (if bc then wake q else q). rewrite upd_other by auto. destruct bc; [unfold wake_all; rewrite R|split; [exact R|exact Q]]. split; [reflexivity|]. destruct q; try contradiction; exact Logic.I.
      * destruct (Nat.eq_dec v t) as [->|NE]; [rewrite R in EV; injection EV as <- <-; discriminate|].
        destruct bc.
        -- left. exists b, (WaitWoken ROk). rewrite upd_other by auto. unfold wake_all. rewrite R. split; [reflexivity|exact Logic.I].
        -- right. destruct (Nat.eq_dec v p) as [->|NP].
           ++ rewrite R2 in EV. injection EV as <- <-. exists b, b', q1. rewrite upd_other, upd_same by auto. split; [exact R|]. split; [reflexivity|].
              destruct q; cbn [fits] in FV; try discriminate; cbn [es_step] in ES; try (destruct (owner s); try discriminate); try discriminate; injection ES; intros; subst; exact Logic.I.
           ++ exists b, b', q. rewrite !upd_other by auto. auto.
    + assert (S2 : exists r, q0 = EsDone r) by (destruct q0; try discriminate S; eauto). destruct S2 as [r ->]. injection S as <-. cbn [pcs log] in *.
      destruct R as [(b & q & R & Q)|(b & b' & q & R & R2 & Q)].
      * destruct (Nat.eq_dec v t) as [->|NE].
        -- rewrite R in EV. injection EV as <- ->. left. exists b, r. apply in_or_app. left. change ((t, ERet (OWait b) r) :: log s) with ([(t, ERet (OWait b) r)] ++ log s) in LG. apply app_inv_tail in LG. rewrite <- LG. left. reflexivity.
        -- right. left. exists b, q. rewrite upd_other by auto. auto.
      * right. right. exists b, b', q. rewrite !upd_other; auto; intros ->; [rewrite R2 in EV; injection EV as <- ->; contradiction|congruence].
  - right. destruct (pcs s v) as [[o q]|] eqn:EV; [|discriminate]. destruct q; try discriminate. destruct timed; [|discriminate]. injection S as <-. apply (WK v o true); exact EV.
  - right. destruct sp; [|discriminate]. destruct (pcs s v) as [[o q]|] eqn:EV; [|discriminate]. destruct q; try discriminate. injection S as <-. apply (WK v o timed); exact EV.
Qed.
Theorem C37_post_releases sp sched s p t s1 sched2 s2 a s3 r : exec (step sp false) init sched = Some s -> asleep s t ->
  step sp false s (ACall p OPost) = Some s1 -> exec (step sp false) s1 sched2 = Some s2 -> step sp false s2 a = Some s3 -> log s3 = (p, ERet OPost r) :: log s2 ->
  exists l, log s3 = l ++ log s1 /\ (asleep s3 t -> exists b r', In (t, ERet (OWait b) r') l).
Proof.
  intros E (o & b & A) S1 E2 S3 L3.
  assert (B : base s) by exact (i_base _ (inv_exec sp sched s E)).
  assert (R1 : base s1 /\ released p t (log s1) s1).
  { split; [exact (base_step _ _ _ _ B S1)|]. cbn [step] in S1. destruct (pcs s p) eqn:EP; [discriminate|]. injection S1 as <-. exists []. split; [reflexivity|]. right. right.
    pose proof (b_fits _ B _ _ _ A) as FA. destruct o; try discriminate. exists timed, b, PostLock. cbn [pcs]. rewrite upd_same, upd_other; auto. intros ->. congruence. }
  pose proof (exec_inv (step sp false) (fun s => base s /\ released p t (log s1) s) (released_step sp p t (log s1)) sched2 s1 s2 R1 E2) as [B2 (l & L & R)].
  exists ((p, ERet OPost r) :: l). split; [rewrite L3, L; reflexivity|]. intros (o' & b' & A').
  assert (R' : pcs s2 p = Some (OPost, EsDone r) /\ s3 = Sys (owner s2) (stop s2) (upd (pcs s2) p None) ((p, ERet OPost r) :: log s2)).
  { assert (NC : forall x, x :: log s2 <> log s2). { intros x Z. apply (f_equal (@length _)) in Z. cbn in Z. lia. }
    destruct a as [v o1|v|v|v|v]; cbn [step] in S3; try discriminate.
    - destruct (pcs s2 v); [discriminate|]. injection S3 as <-. discriminate.
    - destruct (pcs s2 v) as [[o1 q]|] eqn:EP; [|discriminate]. destruct q; cbn [es_step] in S3; try discriminate; try (destruct (owner s2); try discriminate); try (destruct (stop s2)); try discriminate; injection S3 as <-; cbn [log] in L3;
        try (symmetry in L3; exfalso; exact (NC _ L3)); injection L3 as -> -> ->; auto.
    - destruct (pcs s2 v) as [[o1 q]|] eqn:EP; [|discriminate]. destruct q; try discriminate. destruct timed; [|discriminate]. injection S3 as <-. symmetry in L3. exfalso. exact (NC _ L3).
    - destruct sp; [|discriminate]. destruct (pcs s2 v) as [[o1 q]|] eqn:EP; [|discriminate]. destruct q; try discriminate. injection S3 as <-. symmetry in L3. exfalso. exact (NC _ L3). }
  destruct R' as [P3 ->]. cbn [pcs] in A'.
  destruct R as [(b1 & r1 & R)|[(b1 & q & R & Q)|(b1 & b2 & q & R & R2 & Q)]].
  - exists b1, r1. right. exact R.
  - destruct (upd_cases (pcs s2) p None t) as [[-> EE]|[NE EE]]; rewrite EE in A'; [discriminate|]. rewrite R in A'. injection A' as _ ->. contradiction.
  - rewrite P3 in R2. injection R2 as <-. contradiction.
Qed.
(** Nobody else can be blocked: a thread inside an operation that is not asleep can go on, or the owner of the mutex can. *)
Theorem C37_no_deadlock sp sched s t op p : exec (step sp false) init sched = Some s -> pcs s t = Some (op, p) -> ~ asleep s t ->
  exists u s', step sp false s (AStep u) = Some s'.
Proof.
  intros E EP NA. destruct (i_base _ (inv_exec sp sched s E)) as [F I O O2].
  destruct (owner s) as [u|] eqn:EO.
  - exists u. destruct (O2 u eq_refl) as (o & q & EQ & OW). cbn [step]. rewrite EQ. destruct q; try discriminate OW; cbn [es_step]; try (eexists; reflexivity). destruct (stop s); eexists; reflexivity.
  - exists t. cbn [step]. rewrite EP. destruct p; cbn [es_step]; rewrite ?EO; try (eexists; reflexivity).
    + destruct (stop s); eexists; reflexivity.
    + exfalso. apply NA. exists op, timed. exact EP.
Qed.

(** ** No success without a post, when the condition variable has no spurious wake-ups *)
Definition fails_only (p : espc) : bool := match p with WaitLock _ | WaitCheck _ | WaitSleep _ | WaitWoken RTimeout | WaitUnlock RTimeout | EsDone RTimeout => true | _ => false end.
Record ninv (s : sys) : Prop := {
  n_base : base s;
  n_reset : forall t r, pcs s t = Some (OReset, EsDone r) -> undisturbed is_post OReset (log s) t -> stop s = true;
  n_not : not_posted (log s) -> stop s = true;
  n_wait : forall t b p, pcs s t = Some (OWait b, p) -> waits_unposted (log s) t -> stop s = true /\ fails_only p = true
}.
Lemma waits_quiet l t : waits_unposted l t -> none_inside is_post l.
Proof.
  induction l as [|[u e] l IH]; cbn [waits_unposted]; [contradiction|]. intros (E & [(-> & _ & N)|(_ & U)]) x; destruct (inside is_post ((_, e) :: l) x) eqn:I; auto; apply inside_keep in I; auto.
  - rewrite (not_posted_quiet _ N) in I. discriminate I.
  - rewrite (IH U) in I. discriminate I.
Qed.
Lemma ninv_step s a s' : ninv s -> step false false s a = Some s' -> ninv s'.
Proof.
  intros [B NR NN NW] S. pose proof (base_step _ _ _ _ B S) as B'. destruct B as [F I O O2].
  destruct a as [t o|t|t|t|t]; cbn [step] in S; try discriminate.
  - destruct (pcs s t) eqn:EP; [discriminate|]. injection S as <-. constructor; auto; cbn [pcs log stop].
    + intros u r X UN. apply undisturbed_step in UN. destruct (upd_cases (pcs s) t (Some (o, entry o)) u) as [[-> EE]|[NE EE]]; rewrite EE in X; [destruct o; discriminate|].
      destruct UN as [(E & _)|(_ & UN)]; [congruence|]. apply (NR u r); auto.
    + cbn [not_posted]. intros (_ & [((x & E) & _)|P]); [discriminate|auto].
    + intros u b p X. cbn [waits_unposted]. intros (_ & UN). destruct (upd_cases (pcs s) t (Some (o, entry o)) u) as [[-> EE]|[NE EE]]; rewrite EE in X.
      * injection X as -> <-. destruct UN as [(_ & _ & N)|(N & _)]; [split; auto|]. exfalso. apply N. split; auto. eexists; reflexivity.
      * destruct UN as [(E & _)|(_ & UN)]; [congruence|]. apply (NW u b p); auto.
  - destruct (pcs s t) as [[o p]|] eqn:EP; [|discriminate]. pose proof (F _ _ _ EP) as FP.
    destruct (es_step t (owner s) (stop s) p) as [[[[ow st] q] bc]|] eqn:ES.
    + assert (S2 : Some (Sys ow st (upd (if bc then wake_all (pcs s) else pcs s) t (Some (o, q))) (log s)) = Some s') by (destruct p; try exact S; discriminate ES).
      clear S. injection S2 as <-.
      assert (ST : none_inside is_post (log s) -> (stop s = true -> st = true) /\ bc = false).
      { intros N. destruct p; cbn [es_step] in ES; try (destruct (owner s); try discriminate); try (destruct (stop s)); injection ES; intros; subst; auto;
          exfalso; specialize (N t); rewrite I, EP in N; destruct o; discriminate. }
      assert (OTH : none_inside is_post (log s) -> forall u, u <> t -> upd (if bc then wake_all (pcs s) else pcs s) t (Some (o, q)) u = pcs s u).
      { intros N u U. rewrite upd_other by auto. destruct (ST N) as [_ ->]. reflexivity. }
      constructor; auto; cbn [pcs log stop].
      * intros u r X UN. pose proof (undisturbed_quiet _ _ _ _ UN) as N. destruct (Nat.eq_dec u t) as [->|NE].
        -- rewrite upd_same in X. injection X as -> ->. destruct p; cbn in FP; try discriminate; cbn [es_step] in ES; try (destruct (owner s); discriminate); try discriminate. injection ES; intros; subst; auto.
        -- rewrite OTH in X by auto. apply ST; auto. apply (NR u r); auto.
      * intros P. apply ST; auto. apply not_posted_quiet; auto.
      * intros u b p' X UN. pose proof (waits_quiet _ _ UN) as N. destruct (Nat.eq_dec u t) as [->|NE].
        -- rewrite upd_same in X. injection X as -> ->. destruct (NW t b p EP UN) as [W1 W2]. split; [apply ST; auto|].
           destruct p; cbn in W2; try discriminate; cbn [es_step] in ES; try (destruct (owner s); try discriminate); try (rewrite W1 in ES); try discriminate; injection ES; intros; subst; auto.
        -- rewrite OTH in X by auto. destruct (NW u b p' X UN) as [W1 W2]. split; [apply ST; auto|exact W2].
    + assert (S2 : exists r, p = EsDone r) by (destruct p; try discriminate S; eauto). destruct S2 as [r ->]. injection S as <-. constructor; auto; cbn [pcs log stop].
      * intros u r' X UN. apply undisturbed_step in UN. destruct (upd_cases (pcs s) t None u) as [[-> EE]|[NE EE]]; rewrite EE in X; [discriminate|].
        destruct UN as [(E & _)|(_ & UN)]; [congruence|]. apply (NR u r'); auto.
      * cbn [not_posted]. intros (_ & [((x & E) & UN)|P]); [|auto]. injection E as -> ->. apply (NR t x); auto.
      * intros u b p X. cbn [waits_unposted]. intros (_ & UN). destruct (upd_cases (pcs s) t None u) as [[-> EE]|[NE EE]]; rewrite EE in X; [discriminate|].
        destruct UN as [(E & _)|(_ & UN)]; [congruence|]. apply (NW u b p); auto.
  - destruct (pcs s t) as [[o p]|] eqn:EP; [|discriminate]. destruct p; try discriminate. destruct timed; [|discriminate]. injection S as <-. constructor; auto; cbn [pcs log stop].
    + intros u r X UN. destruct (upd_cases (pcs s) t (Some (o, WaitWoken RTimeout)) u) as [[-> EE]|[NE EE]]; rewrite EE in X; [discriminate|]. apply (NR u r); auto.
    + intros u b p X UN. destruct (upd_cases (pcs s) t (Some (o, WaitWoken RTimeout)) u) as [[-> EE]|[NE EE]]; rewrite EE in X.
      * injection X as -> <-. destruct (NW t b _ EP UN) as [W1 W2]. auto.
      * apply (NW u b p); auto.
Qed.
Lemma ninv_exec sched s : exec (step false false) init sched = Some s -> ninv s.
Proof. apply (exec_inv (step false false) ninv ninv_step). constructor; [exact base_init| | |]; cbn; auto; discriminate. Qed.
(** A wait that began while the event was not posted does not return success before a post is called. *)
Theorem C37_no_success_without_post_partial sched s a s' t b r : exec (step false false) init sched = Some s -> step false false s a = Some s' ->
  log s' = (t, ERet (OWait b) r) :: log s -> waits_unposted (log s) t -> r = RTimeout.
Proof.
  intros E S L W. pose proof (ninv_exec sched s E) as N.
  assert (R : pcs s t = Some (OWait b, EsDone r)).
  { assert (NC : forall x, x :: log s <> log s). { intros x Z. apply (f_equal (@length _)) in Z. cbn in Z. lia. }
    destruct a as [v o|v|v|v|v]; cbn [step] in S; try discriminate; destruct (pcs s v) as [[o1 p]|] eqn:EP; try discriminate.
    - injection S as <-. discriminate.
    - destruct p; cbn [es_step] in S; try discriminate; try (destruct (owner s); try discriminate); try (destruct (stop s)); try discriminate; injection S as <-; cbn [log] in L;
        try (symmetry in L; exfalso; exact (NC _ L)); injection L as -> -> ->; exact EP.
    - destruct p; try discriminate. destruct timed; [|discriminate]. injection S as <-. symmetry in L. exfalso. exact (NC _ L). }
  destruct (n_wait _ N t b _ R W) as [_ X]. destruct r; [discriminate|reflexivity].
Qed.

(** * What does not hold *)
(** With a spurious wake-up of the condition variable, a wait returns success although nothing was ever posted. *)
Theorem C37_no_success_without_post_refuted :
  exists sched s, exec (step true false) init sched = Some s /\ log s = [(0%nat, ERet (OWait false) ROk); (0%nat, ECall (OWait false))].
Proof.
  exists [ACall 0%nat (OWait false); AStep 0%nat; AStep 0%nat; ASpurious 0%nat; AStep 0%nat; AStep 0%nat; AStep 0%nat]. eexists. split; [vm_compute; reflexivity|]. reflexivity.
Qed.
(** A wait whose deadline passes while another thread owns the internal mutex also returns success (and releases the other thread's mutex). *)
Theorem C37_lock_timeout_refuted :
  exists sched s, exec (step false true) init sched = Some s /\
    log s = [(0%nat, ERet (OWait true) ROk); (1%nat, ECall (OWait true)); (0%nat, ECall (OWait true))] /\ owner s = None /\ pcs s 1%nat = Some (OWait true, WaitCheck true).
Proof.
  exists [ACall 0%nat (OWait true); ACall 1%nat (OWait true); AStep 1%nat; ALockTimeout 0%nat; AStep 0%nat; AStep 0%nat]. eexists. split; [vm_compute; reflexivity|]. repeat split.
Qed.

(** Two threads wait, one with a timeout that expires; a post releases the other; a later wait returns at once. *)
Example C37_case :
  exists s, exec (step false false) init ([ACall 0%nat (OWait false); AStep 0%nat; AStep 0%nat; ACall 1%nat (OWait true); AStep 1%nat; AStep 1%nat; ATimeout 1%nat; AStep 1%nat; AStep 1%nat; AStep 1%nat;
      ACall 2%nat OPost; AStep 2%nat; AStep 2%nat; AStep 2%nat; AStep 2%nat; AStep 2%nat; AStep 0%nat; AStep 0%nat; AStep 0%nat;
      ACall 1%nat (OWait true); AStep 1%nat; AStep 1%nat; AStep 1%nat; AStep 1%nat]) = Some s /\
    log s = [(1%nat, ERet (OWait true) ROk); (1%nat, ECall (OWait true)); (0%nat, ERet (OWait false) ROk); (2%nat, ERet OPost ROk); (2%nat, ECall OPost);
             (1%nat, ERet (OWait true) RTimeout); (1%nat, ECall (OWait true)); (0%nat, ECall (OWait false))] /\ posted (log s).
Proof.
  eexists. split; [vm_compute; reflexivity|]. split; [reflexivity|]. cbn. do 3 (split; [reflexivity|]; right). split; [reflexivity|]. left. split; [eexists; reflexivity|]. split; [reflexivity|]. left.
  split; [reflexivity|]. split; [reflexivity|]. intros [|[|t]]; reflexivity.
Qed.

Print Assumptions C37_posted_nobody_sleeps.
Print Assumptions C37_post_releases.
Print Assumptions C37_no_deadlock.
Print Assumptions C37_no_success_without_post_partial.
Print Assumptions C37_no_success_without_post_refuted.
Print Assumptions C37_lock_timeout_refuted.
