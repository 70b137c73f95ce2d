(** C21: queued messages are delivered once, in order, and without lost wake-ups, for every schedule. *)
From Verif Require Import Base Conc EventSem_Model QueueFilter_Model.
From Verif Require EventSem_Props.

(** * Reading the log (latest event first) *)
(** The messages accepted by ConsumeMessage and the messages taken by GetMessage, oldest first. *)
Fixpoint puts (l : list (nat * ev)) : list nat := match l with [] => [] | (_, EPut m) :: r => puts r ++ [m] | _ :: r => puts r end.
Fixpoint gets (l : list (nat * ev)) : list nat := match l with [] => [] | (_, EGot m) :: r => gets r ++ [m] | _ :: r => gets r end.
(** What one thread is doing.  Each ConsumeMessage m accepts m exactly once, before it returns; each GetMessage takes at most one
    message, and returns it with no error exactly when it took it. *)
Inductive phase := Out | Putting (m : nat) | Put | Getting | Got (m : nat).
Definition next (f : phase) (e : ev) : option phase :=
  match f, e with
  | Out, ECallPut m => Some (Putting m)
  | Putting m, EPut m' => if Nat.eqb m m' then Some Put else None
  | Put, ERetPut => Some Out
  | Out, ECallGet _ => Some Getting
  | Getting, EGot m => Some (Got m)
  | Getting, ERetGet (GTimeout | GFatal) => Some Out
  | Got m, ERetGet (GOk (Some m')) => if Nat.eqb m m' then Some Out else None
  | _, _ => None
  end.
Fixpoint phase_of (l : list (nat * ev)) (t : nat) : option phase :=
  match l with
  | [] => Some Out
  | (u, e) :: r => if Nat.eqb u t then match phase_of r t with Some f => next f e | None => None end else phase_of r t
  end.

(** * Invariants *)
Definition asleep (p : pc) : bool := match p with GWait (WaitSleep _) => true | _ => false end.
Definition holding (p : pc) : bool :=
  match p with PInsert _ | PSize | PPost _ | PUnlock | GSize _ | GReset _ _ | GUnlock1 _ | GGet | GDelete _ | GUnlock2 _ => true | _ => false end.
Definition sempc (p : pc) : option (op * espc) :=
  match p with PPost e => Some (OPost, e) | GReset _ e => Some (OReset, e) | GWait e => Some (OWait true, e) | _ => None end.
Definition owns (p : pc) : bool := match sempc p with Some (_, e) => EventSem_Props.owns e | None => false end.
Definition shape (p : pc) : bool := match sempc p with Some (o, e) => EventSem_Props.fits o e | None => true end.
Definition pphase (p : pc) : phase :=
  match p with
  | Idle => Out
  | PLock m | PInsert m => Putting m
  | PSize | PPost _ | PUnlock | PRet => Put
  | GUnlock2 (GOk (Some m)) | GRet (GOk (Some m)) => Got m
  | _ => Getting
  end.
Definition okres (p : pc) : bool := match p with GUnlock2 (GOk None) | GRet (GOk None) => false | _ => true end.
(** What the queue is when a thread is at p (that holds mutexSemQ). *)
Definition queue_at (q : list nat) (p : pc) : Prop :=
  match p with
  | GDelete m => exists r, q = m :: r
  | GReset _ _ | GUnlock1 _ => q = []
  | PSize | PPost _ => q <> []
  | _ => True
  end.
Definition loc (h : shared) (t : nat) (p : pc) : Prop :=
  (holding p = true -> qowner h = Some t) /\ (owns p = true -> owner h = Some t) /\ shape p = true /\ okres p = true /\ queue_at (queue h) p.
(** A producer that will post. *)
Definition pre (q : list nat) (p : pc) : bool := match p with PSize => Nat.eqb (length q) 1 | PPost (PostLock | PostStore) => true | _ => false end.
Definition mid (q : list nat) (p : pc) : bool := match p with PPost (PostUnlock | PostBroadcast) => true | p => pre q p end.
Record inv (s : sys) : Prop := {
  i_loc : forall t, loc (sh s) t (pcs s t);
  i_qown : forall t, qowner (sh s) = Some t -> holding (pcs s t) = true;
  i_eown : forall t, owner (sh s) = Some t -> owns (pcs s t) = true;
  i_stop : stop (sh s) = true -> queue (sh s) = [] \/ exists p, pre (queue (sh s)) (pcs s p) = true;
  i_sleep : forall t, asleep (pcs s t) = true -> queue (sh s) = [] \/ exists p, mid (queue (sh s)) (pcs s p) = true;
  i_fifo : puts (log s) = gets (log s) ++ queue (sh s);
  i_phase : forall t, phase_of (log s) t = Some (pphase (pcs s t))
}.

Lemma delete_head m r : delete m (m :: r) = Some r.
Proof. cbn. rewrite Nat.eqb_refl. reflexivity. Qed.
(** The moves of a thread on the semaphore. *)
Lemma sem_move t ow st e ow' st' e' bc : es_step t ow st e = Some (ow', st', e', bc) -> e <> EsDone ROk /\ e <> EsDone RTimeout.
Proof. destruct e; cbn; try discriminate; split; discriminate. Qed.

(** All that one action of thread t does to the shared state, given what holds of t. *)
Lemma lstep_facts t h p h' p' bc es : lstep t h p = Some (h', p', bc, es) -> loc h t p ->
  (forall u, qowner h = Some u -> (holding p = true -> u = t)) ->
  (* mutexSemQ *)
  (holding p = true -> holding p' = true -> qowner h' = qowner h) /\ (holding p = true -> holding p' = false -> qowner h' = None) /\
  (holding p = false -> holding p' = true -> qowner h = None /\ qowner h' = Some t) /\ (holding p = false -> holding p' = false -> qowner h' = qowner h) /\
  (* the semaphore's mutex *)
  (owns p = true -> owns p' = true -> owner h' = owner h) /\ (owns p = true -> owns p' = false -> owner h' = None) /\
  (owns p = false -> owns p' = true -> owner h = None /\ owner h' = Some t) /\ (owns p = false -> owns p' = false -> owner h' = owner h) /\
  (* the rest *)
  shape p' = true /\ okres p' = true /\ queue_at (queue h') p' /\ (holding p = false -> queue h' = queue h) /\
  (stop h' = true -> stop h = true \/ queue h' = []) /\ (asleep p' = true -> stop h = true /\ stop h' = true /\ queue h' = queue h) /\ (bc = true -> asleep p' = false) /\
  (pre (queue h) p = true -> queue h' = queue h /\ (pre (queue h') p' = true \/ (stop h' = false /\ mid (queue h') p' = true))) /\
  (mid (queue h) p = true -> mid (queue h') p' = true \/ bc = true) /\
  (queue h = [] -> queue h' = [] \/ pre (queue h') p' = true) /\
  puts (map (pair t) es) = match es with [EPut m] => [m] | _ => [] end /\
  (match es with [EPut m] => queue h' = queue h ++ [m] | [EGot m] => queue h = m :: queue h' | _ => queue h' = queue h end) /\
  (match es with [] => pphase p' = pphase p | [e] => next (pphase p) e = Some (pphase p') | _ => False end).
Proof.
  intros L (H1 & H2 & SH & OK & QA) _.
  assert (SEM : forall e (w : espc -> pc) o,
     (forall e, sempc (w e) = Some (o, e)) -> (forall e, holding (w e) = holding p) -> (forall e, okres (w e) = true) -> (forall e, queue_at (queue h) (w e)) ->
     (forall e, asleep (w e) = true -> match e with WaitSleep _ => True | _ => False end) ->
     (forall e, pphase (w e) = pphase p) -> p = w e ->
     (o = OReset -> queue h = []) -> (forall q e, pre q (w e) = match o, e with OPost, (PostLock | PostStore) => true | _, _ => false end) ->
     (forall q e, mid q (w e) = match o, e with OPost, (PostLock | PostStore | PostUnlock | PostBroadcast) => true | _, _ => false end) ->
     match es_step t (owner h) (stop h) e with
     | None => None | Some (ow, st, e, bc) => Some (Sh (qowner h) (queue h) ow st, w e, bc, []) end = Some (h', p', bc, es) ->
  (holding p = true -> holding p' = true -> qowner h' = qowner h) /\ (holding p = true -> holding p' = false -> qowner h' = None) /\
  (holding p = false -> holding p' = true -> qowner h = None /\ qowner h' = Some t) /\ (holding p = false -> holding p' = false -> qowner h' = qowner h) /\
  (owns p = true -> owns p' = true -> owner h' = owner h) /\ (owns p = true -> owns p' = false -> owner h' = None) /\
  (owns p = false -> owns p' = true -> owner h = None /\ owner h' = Some t) /\ (owns p = false -> owns p' = false -> owner h' = owner h) /\
  shape p' = true /\ okres p' = true /\ queue_at (queue h') p' /\ (holding p = false -> queue h' = queue h) /\
  (stop h' = true -> stop h = true \/ queue h' = []) /\ (asleep p' = true -> stop h = true /\ stop h' = true /\ queue h' = queue h) /\ (bc = true -> asleep p' = false) /\
  (pre (queue h) p = true -> queue h' = queue h /\ (pre (queue h') p' = true \/ (stop h' = false /\ mid (queue h') p' = true))) /\
  (mid (queue h) p = true -> mid (queue h') p' = true \/ bc = true) /\
  (queue h = [] -> queue h' = [] \/ pre (queue h') p' = true) /\
  puts (map (pair t) es) = match es with [EPut m] => [m] | _ => [] end /\
  (match es with [EPut m] => queue h' = queue h ++ [m] | [EGot m] => queue h = m :: queue h' | _ => queue h' = queue h end) /\
  (match es with [] => pphase p' = pphase p | [e] => next (pphase p) e = Some (pphase p') | _ => False end)).
  { intros e w o W1 W2 W3 W4 W5 W6 EP W7 W8 W9 X. destruct (es_step t (owner h) (stop h) e) as [[[[ow st] e'] bc']|] eqn:ES; [|discriminate]. injection X as <- <- <- <-.
    destruct (EventSem_Props.es_step_facts _ _ _ _ _ _ _ _ ES) as (A & B & C & D & E & G). cbn [qowner queue owner stop map puts].
    assert (OP : owns p = EventSem_Props.owns e) by (rewrite EP; unfold owns; rewrite W1; reflexivity).
    assert (OW : owns (w e') = EventSem_Props.owns e') by (unfold owns; rewrite W1; reflexivity).
    assert (FP : EventSem_Props.fits o e = true) by (rewrite EP in SH; unfold shape in SH; rewrite W1 in SH; exact SH).
    rewrite OP, OW, W2, W3, W6, EP, W8, W8, W9, W9.
    split; [auto|]. split; [intros; congruence|]. split; [intros; congruence|]. split; [auto|]. split; [auto|]. split; [auto|]. split; [auto|]. split; [auto|].
    split. { unfold shape. rewrite W1. apply A. exact FP. }
    split; [auto|]. split; [auto|]. split; [auto|].
    split. { destruct e; cbn [es_step] in ES; try discriminate; try (destruct (owner h); [discriminate|]); try (destruct (stop h) eqn:SE); injection ES; intros; subst; auto. right. apply W7. destruct o; try discriminate. reflexivity. }
    split. { intros AS. apply W5 in AS. destruct e; cbn [es_step] in ES; try discriminate; try (destruct (owner h); [discriminate|]); try (destruct (stop h) eqn:SE); injection ES; intros; subst; auto; contradiction. }
    split. { intros BC. destruct (G BC) as [_ ->]. destruct (asleep (w (EsDone ROk))) eqn:AS; auto. apply W5 in AS. contradiction. }
    split. { destruct o; try discriminate. destruct e; try discriminate; cbn [es_step] in ES; try (destruct (owner h); [discriminate|]); injection ES; intros; subst; auto. }
    split. { destruct o; try discriminate. destruct e; try discriminate; cbn [es_step] in ES; try (destruct (owner h); [discriminate|]); injection ES; intros; subst; auto. }
    auto. }
  assert (LK : forall q, match qowner h with None => Some (Sh (Some t) (queue h) (owner h) (stop h), q, false, []) | Some _ => None end = Some (h', p', bc, es) ->
     qowner h = None /\ h' = Sh (Some t) (queue h) (owner h) (stop h) /\ p' = q /\ bc = false /\ es = []).
  { intros q X. destruct (qowner h); [discriminate|]. injection X as <- <- <- <-. auto. }
  destruct p; cbn [lstep] in L; cbn [queue_at] in QA; try discriminate.
  - apply LK in L. destruct L as (QO & -> & -> & -> & ->). cbn. repeat split; try discriminate; auto.
  - injection L as <- <- <- <-. cbn. rewrite Nat.eqb_refl. repeat split; try discriminate; auto.
    + destruct (queue h); discriminate.
    + intros ->. auto.
  - injection L as <- <- <- <-. cbn. destruct (Nat.eqb (length (queue h)) 1) eqn:E1; cbn; repeat split; try discriminate; auto.
  - destruct e; try (match goal with X : shape (PPost ?e) = true |- _ => apply (SEM e PPost OPost) end; auto; solve [discriminate | intros ? []; reflexivity | intros []; reflexivity | intros []; auto; discriminate]). cbn in L. injection L as <- <- <- <-. cbn. repeat split; try discriminate; auto.
  - injection L as <- <- <- <-. cbn. repeat split; try discriminate; auto.
  - injection L as <- <- <- <-. cbn. repeat split; try discriminate; auto.
  - apply LK in L. destruct L as (QO & -> & -> & -> & ->). cbn. repeat split; try discriminate; auto.
  - injection L as <- <- <- <-. cbn. destruct (queue h) eqn:E1; cbn; repeat split; try discriminate; auto.
  - destruct e; try (match goal with X : shape (GReset timed ?e) = true |- _ => apply (SEM e (GReset timed) OReset) end; auto; solve [discriminate | intros ? []; reflexivity | intros []; reflexivity | intros []; auto; discriminate]). cbn in L. injection L as <- <- <- <-. cbn. repeat split; try discriminate; auto.
  - injection L as <- <- <- <-. cbn. repeat split; try discriminate; auto.
  - destruct e; try (match goal with X : shape (GWait ?e) = true |- _ => apply (SEM e GWait (OWait true)) end; auto; solve [discriminate | intros ? []; reflexivity | intros []; reflexivity | intros []; auto; discriminate]). cbn in L. destruct r; injection L as <- <- <- <-; cbn; repeat split; try discriminate; auto.
  - apply LK in L. destruct L as (QO & -> & -> & -> & ->). cbn. repeat split; try discriminate; auto.
  - injection L as <- <- <- <-. cbn. destruct (queue h) eqn:E1; cbn; repeat split; try discriminate; eauto.
  - destruct QA as (r & EQ). rewrite EQ, delete_head in L. injection L as <- <- <- <-. cbn. rewrite EQ. repeat split; try discriminate; auto.
  - injection L as <- <- <- <-. cbn. repeat split; try discriminate; auto.
  - injection L as <- <- <- <-. cbn. repeat split; try discriminate; auto. destruct r as [[m|]| |]; try reflexivity; [|discriminate]. cbn. rewrite Nat.eqb_refl. reflexivity.
Qed.

Lemma loc_wake h t p : loc h t p -> loc h t (wakeq p).
Proof. destruct p; auto. destruct e; auto. Qed.
Lemma holding_wake p : holding (wakeq p) = holding p. Proof. destruct p; auto. Qed.
Lemma owns_wake p : owns (wakeq p) = owns p. Proof. destruct p; auto. destruct e; auto. Qed.
Lemma pre_wake q p : pre q (wakeq p) = pre q p. Proof. destruct p; auto. Qed.
Lemma mid_wake q p : mid q (wakeq p) = mid q p. Proof. destruct p; auto. Qed.
Lemma pphase_wake p : pphase (wakeq p) = pphase p. Proof. destruct p; auto. Qed.
Lemma asleep_wake p : asleep (wakeq p) = false. Proof. destruct p; auto. destruct e; auto. Qed.
Lemma pre_mid q p : pre q p = true -> mid q p = true. Proof. destruct p; auto. destruct e; auto. Qed.
Lemma mid_holding q p : mid q p = true -> holding p = true. Proof. destruct p; auto; discriminate. Qed.

Lemma puts_app l1 l2 : puts (l1 ++ l2) = puts l2 ++ puts l1.
Proof. induction l1 as [|[u e] l1 IH]; cbn; [rewrite app_nil_r; reflexivity|]. destruct e; auto. rewrite IH, app_assoc. reflexivity. Qed.

Lemma inv_init : inv init.
Proof. constructor; cbn; auto; try discriminate. intros t. repeat split; auto; discriminate. Qed.
Lemma inv_step sp s a s' : inv s -> step sp s a = Some s' -> inv s'.
Proof.
  intros [L QO EO ST SL FI PH] S.
  (* a thread moves without touching the shared state, the mutexes or the producers' part *)
  assert (KEEP : forall t p l, loc (sh s) t p -> holding p = holding (pcs s t) -> owns p = owns (pcs s t) -> asleep p = false ->
     (forall q, mid q (pcs s t) = false) -> puts l = puts (log s) -> gets l = gets (log s) -> phase_of l t = Some (pphase p) -> (forall u, u <> t -> phase_of l u = phase_of (log s) u) ->
     inv (Sys (sh s) (upd (pcs s) t p) l)).
  { intros t p l X1 X2 X3 X4 X5 X6 X7 X8 X9.
    assert (X5' : forall q, pre q (pcs s t) = false). { intros q. destruct (pre q (pcs s t)) eqn:E; auto. apply pre_mid in E. rewrite X5 in E. discriminate. }
    constructor; cbn [sh pcs log].
    - intros u. destruct (upd_cases (pcs s) t p u) as [[-> ->]|[NE ->]]; auto.
    - intros u H. destruct (upd_cases (pcs s) t p u) as [[-> ->]|[NE ->]]; [rewrite X2|]; auto.
    - intros u H. destruct (upd_cases (pcs s) t p u) as [[-> ->]|[NE ->]]; [rewrite X3|]; auto.
    - intros H. destruct (ST H) as [E|(x & E)]; auto. right. exists x. rewrite upd_other; auto. intros ->. rewrite X5' in E. discriminate.
    - intros u H. destruct (upd_cases (pcs s) t p u) as [[-> EE]|[NE EE]]; rewrite EE in H; [congruence|]. destruct (SL u H) as [E|(x & E)]; auto. right. exists x. rewrite upd_other; auto. intros ->. rewrite X5 in E. discriminate.
    - rewrite X6, X7. exact FI.
    - intros u. destruct (upd_cases (pcs s) t p u) as [[-> ->]|[NE ->]]; auto. rewrite X9; auto. }
  destruct a as [t m|t timed|t|t|t]; cbn [step] in S.
  - destruct (pcs s t) eqn:EP; try discriminate. injection S as <-. apply KEEP; rewrite ?EP; auto.
    + repeat split; auto; discriminate.
    + cbn. rewrite Nat.eqb_refl, PH, EP. reflexivity.
    + intros u U. cbn. rewrite (proj2 (Nat.eqb_neq t u)) by auto. reflexivity.
  - destruct (pcs s t) eqn:EP; try discriminate. injection S as <-. apply KEEP; rewrite ?EP; auto.
    + repeat split; auto; discriminate.
    + cbn. rewrite Nat.eqb_refl, PH, EP. reflexivity.
    + intros u U. cbn. rewrite (proj2 (Nat.eqb_neq t u)) by auto. reflexivity.
  - destruct (lstep t (sh s) (pcs s t)) as [[[[h p] bc] es]|] eqn:LS; [|discriminate]. injection S as <-.
    destruct (lstep_facts _ _ _ _ _ _ _ LS (L t)) as (A1 & A2 & A3 & A4 & B1 & B2 & B3 & B4 & C1 & C2 & C3 & C4 & C5 & C6 & C7 & C8 & C9 & C10 & D1 & D2 & D3).
    { intros u U H. apply (L t) in H. congruence. }
    set (f := if bc then fun u => wakeq (pcs s u) else pcs s).
    assert (FH : forall u, holding (f u) = holding (pcs s u)) by (intros u; unfold f; destruct bc; [apply holding_wake|reflexivity]).
    assert (FO : forall u, owns (f u) = owns (pcs s u)) by (intros u; unfold f; destruct bc; [apply owns_wake|reflexivity]).
    assert (FP : forall q u, pre q (f u) = pre q (pcs s u)) by (intros q u; unfold f; destruct bc; [apply pre_wake|reflexivity]).
    assert (FM : forall q u, mid q (f u) = mid q (pcs s u)) by (intros q u; unfold f; destruct bc; [apply mid_wake|reflexivity]).
    assert (FL : forall u, loc (sh s) u (f u)) by (intros u; unfold f; destruct bc; [apply loc_wake|]; apply L).
    (* if some other thread holds the mutex, this one does not *)
    assert (OT : forall u, u <> t -> holding (pcs s u) = true -> holding (pcs s t) = false).
    { intros u NE H. destruct (holding (pcs s t)) eqn:HT; auto. apply (L u) in H. apply (L t) in HT. congruence. }
    constructor; cbn [sh pcs log].
    + intros u. destruct (upd_cases f t p u) as [[-> ->]|[NE ->]].
      * split; [|split; [|split; [|split]]]; auto.
        -- intros H. destruct (holding (pcs s t)) eqn:HT; [rewrite A1 by auto; apply (L t); exact HT|apply A3; auto].
        -- intros H. destruct (owns (pcs s t)) eqn:HT; [rewrite B1 by auto; apply (L t); exact HT|apply B3; auto].
      * destruct (FL u) as (U1 & U2 & U3 & U4 & U5). split; [|split; [|split; [|split]]]; auto.
        -- intros H. specialize (U1 H). rewrite FH in H. pose proof (OT u NE H) as HT. destruct (holding p) eqn:HP; [destruct (A3 HT eq_refl); congruence|]. rewrite A4; auto.
        -- intros H. specialize (U2 H). rewrite FO in H. destruct (owns (pcs s t)) eqn:HT; [apply (L t) in HT; congruence|]. destruct (owns p) eqn:HP; [destruct (B3 eq_refl eq_refl); congruence|]. rewrite B4; auto.
        -- destruct (holding (f u)) eqn:H; [rewrite FH in H; rewrite (C4 (OT u NE H)); exact U5|]. destruct (f u); try discriminate; exact Logic.I.
    + intros u H. destruct (upd_cases f t p u) as [[-> ->]|[NE ->]].
      * destruct (holding p) eqn:HP; auto. destruct (holding (pcs s t)) eqn:HT; [rewrite A2 in H by auto; discriminate|]. rewrite A4 in H by auto. apply QO in H. congruence.
      * rewrite FH. apply QO. destruct (holding (pcs s t)) eqn:HT, (holding p) eqn:HP.
        -- rewrite A1 in H by auto. auto.
        -- rewrite A2 in H by auto. discriminate.
        -- destruct (A3 eq_refl eq_refl). congruence.
        -- rewrite A4 in H by auto. auto.
    + intros u H. destruct (upd_cases f t p u) as [[-> ->]|[NE ->]].
      * destruct (owns p) eqn:HP; auto. destruct (owns (pcs s t)) eqn:HT; [rewrite B2 in H by auto; discriminate|]. rewrite B4 in H by auto. apply EO in H. congruence.
      * rewrite FO. apply EO. destruct (owns (pcs s t)) eqn:HT, (owns p) eqn:HP.
        -- rewrite B1 in H by auto. auto.
        -- rewrite B2 in H by auto. discriminate.
        -- destruct (B3 eq_refl eq_refl). congruence.
        -- rewrite B4 in H by auto. auto.
    + intros H. destruct (C5 H) as [X|X]; [|left; exact X]. destruct (ST X) as [E|(x & E)].
      * destruct (C10 E) as [Y|Y]; auto. right. exists t. rewrite upd_same. exact Y.
      * destruct (Nat.eq_dec x t) as [->|NE].
        -- destruct (C8 E) as (_ & [Y|(Y & _)]); [right; exists t; rewrite upd_same; exact Y|congruence].
        -- right. exists x. rewrite upd_other by auto. rewrite FP. rewrite (C4 (OT x NE (mid_holding _ _ (pre_mid _ _ E)))). exact E.
    + intros u H. assert (SLP : exists v, asleep (pcs s v) = true \/ (stop (sh s) = true /\ stop h = true /\ queue h = queue (sh s))).
      { destruct (upd_cases f t p u) as [[-> EE]|[NE EE]]; rewrite EE in H; [exists t; right; apply C6; exact H|]. exists u. left. unfold f in H. destruct bc; [rewrite asleep_wake in H; discriminate|exact H]. }
      destruct SLP as (v & [V|(V1 & V2 & V3)]).
      * assert (BF : bc = true -> False).
        { intros ->. destruct (upd_cases f t p u) as [[-> EE]|[NE EE]]; rewrite EE in H; [rewrite C7 in H by auto; discriminate|]. unfold f in H. rewrite asleep_wake in H. discriminate. }
        destruct (SL v V) as [E|(x & E)].
        -- destruct (C10 E) as [Y|Y]; auto. right. exists t. rewrite upd_same. apply pre_mid. exact Y.
        -- right. destruct (Nat.eq_dec x t) as [->|NE].
           ++ exists t. rewrite upd_same. destruct (C9 E) as [Y|Y]; [exact Y|contradiction (BF Y)].
           ++ exists x. rewrite upd_other by auto. rewrite FM. rewrite (C4 (OT x NE (mid_holding _ _ E))). exact E.
      * destruct (ST V1) as [E|(x & E)]; [left; congruence|]. right. destruct (Nat.eq_dec x t) as [->|NE].
        -- exists t. rewrite upd_same. destruct (C8 E) as (_ & [Y|(_ & Y)]); [apply pre_mid|]; exact Y.
        -- exists x. rewrite upd_other by auto. rewrite FM, V3. apply pre_mid. exact E.
    + destruct es as [|e [|]]; try contradiction.
      * cbn. rewrite D2. exact FI.
      * cbn [map app puts gets]. destruct e; try (rewrite D2; exact FI).
        -- rewrite D2, FI, app_assoc. reflexivity.
        -- rewrite <- app_assoc. cbn [app]. rewrite FI, D2. reflexivity.
    + intros u. destruct es as [|e [|]]; try contradiction.
      * cbn. rewrite PH. destruct (upd_cases f t p u) as [[-> ->]|[NE ->]]; [rewrite D3; reflexivity|]. unfold f. destruct bc; [rewrite pphase_wake|]; reflexivity.
      * cbn. destruct (upd_cases f t p u) as [[-> ->]|[NE ->]]; [rewrite Nat.eqb_refl, PH; exact D3|]. rewrite (proj2 (Nat.eqb_neq t u)) by auto. rewrite PH. unfold f. destruct bc; [rewrite pphase_wake|]; reflexivity.
  - destruct (pcs s t) as [| | | | | | | | | | |e| | | | |] eqn:EP; try discriminate. destruct e; try discriminate. destruct timed; [|discriminate]. injection S as <-. pose proof (L t) as LT. rewrite EP in LT. pose proof (PH t) as PT. rewrite EP in PT.
    apply KEEP; rewrite ?EP; auto.
  - destruct sp; [|discriminate]. destruct (pcs s t) as [| | | | | | | | | | |e| | | | |] eqn:EP; try discriminate. destruct e; try discriminate. injection S as <-. pose proof (L t) as LT. rewrite EP in LT. pose proof (PH t) as PT. rewrite EP in PT.
    apply KEEP; rewrite ?EP; auto.
Qed.
Lemma inv_exec sp sched s : exec (step sp) init sched = Some s -> inv s.
Proof. apply (exec_inv (step sp) inv (inv_step sp)). exact inv_init. Qed.

(** * The theorems *)
(** The messages taken out, followed by those still queued, are the accepted messages in the order of acceptance. *)
Theorem C21_in_order sp sched s : exec (step sp) init sched = Some s -> puts (log s) = gets (log s) ++ queue (sh s).
Proof. intros E. apply i_fifo. exact (inv_exec sp sched s E). Qed.
(** Each thread accepts each message it is given exactly once, and returns from GetMessage exactly what it took (see [next]). *)
Theorem C21_exactly_once sp sched s t : exec (step sp) init sched = Some s -> phase_of (log s) t <> None.
Proof. intros E. rewrite (i_phase _ (inv_exec sp sched s E)). discriminate. Qed.
(** A consumer is asleep while messages are queued only as long as a producer that has just put its message has not returned. *)
Theorem C21_no_lost_wakeup sp sched s t : exec (step sp) init sched = Some s -> asleep (pcs s t) = true -> queue (sh s) <> [] ->
  exists p, phase_of (log s) p = Some Put.
Proof.
  intros E A Q. pose proof (inv_exec sp sched s E) as I. destruct (i_sleep _ I t A) as [X|(p & P)]; [contradiction|].
  exists p. rewrite (i_phase _ I). destruct (pcs s p); try discriminate P; reflexivity.
Qed.
(** Some thread can always go on, as long as one is in a call and not asleep. *)
Theorem C21_no_deadlock sp sched s t : exec (step sp) init sched = Some s -> pcs s t <> Idle -> asleep (pcs s t) = false ->
  exists u s', step sp s (AStep u) = Some s'.
Proof.
  intros E NI NA. destruct (inv_exec sp sched s E) as [L QO EO ST SL FI PH].
  assert (SEM : forall u o e, EventSem_Props.fits o e = true -> (forall b, e <> WaitSleep b) -> owner (sh s) = None \/ owner (sh s) = Some u ->
     (EventSem_Props.owns e = true \/ owner (sh s) = None) -> (forall r, e <> EsDone r) -> exists x, es_step u (owner (sh s)) (stop (sh s)) e = Some x).
  { intros u o e F N H H2 H3. destruct e; cbn [es_step]; try (eexists; reflexivity); try (destruct H2 as [H2|H2]; [discriminate|rewrite H2; eexists; reflexivity]).
    - destruct (stop (sh s)); eexists; reflexivity.
    - contradiction (N timed eq_refl).
    - contradiction (H3 r eq_refl). }
  (* a thread can move unless it waits for a mutex *)
  assert (MV : forall u, pcs s u <> Idle -> asleep (pcs s u) = false -> (owner (sh s) = None \/ owner (sh s) = Some u) -> (holding (pcs s u) = true \/ qowner (sh s) = None) -> exists s', step sp s (AStep u) = Some s').
  { intros u NIu NAu OWu HU. assert (X : exists x, lstep u (sh s) (pcs s u) = Some x).
    { destruct (L u) as (_ & U2 & U3 & _). unfold owns, shape in *.
      assert (OO : forall e, EventSem_Props.owns e = true \/ owner (sh s) = None \/ (EventSem_Props.owns e = false /\ owner (sh s) = Some u)).
      { intros e. destruct (EventSem_Props.owns e); auto. destruct OWu; auto. }
      destruct (pcs s u) as [| | | |e| | | | |b e| |e| | | | |] eqn:EP; cbn [lstep]; try (eexists; reflexivity); try (destruct HU as [HU|HU]; [discriminate|rewrite HU; eexists; reflexivity]); try contradiction.
      - cbn [sempc] in U2, U3. destruct (OO e) as [O|[O|[O1 O2]]].
        1,2: destruct e; try (eexists; reflexivity); match goal with |- context [es_step _ _ _ ?e] => destruct (SEM u OPost e U3) as [[[[ow st] q] bc] ->]; auto; try discriminate; eexists; reflexivity end.
        apply EO in O2. rewrite EP in O2. unfold owns in O2. cbn in O2. congruence.
      - cbn [sempc] in U2, U3. destruct (OO e) as [O|[O|[O1 O2]]].
        1,2: destruct e; try (eexists; reflexivity); match goal with |- context [es_step _ _ _ ?e] => destruct (SEM u OReset e U3) as [[[[ow st] q] bc] ->]; auto; try discriminate; eexists; reflexivity end.
        apply EO in O2. rewrite EP in O2. unfold owns in O2. cbn in O2. congruence.
      - cbn [sempc] in U2, U3. destruct (OO e) as [O|[O|[O1 O2]]].
        1,2: destruct e; try discriminate NAu; try (destruct r; eexists; reflexivity); match goal with |- context [es_step _ _ _ ?e] => destruct (SEM u (OWait true) e U3) as [[[[ow st] q] bc] ->]; auto; try discriminate; eexists; reflexivity end.
        apply EO in O2. rewrite EP in O2. unfold owns in O2. cbn in O2. congruence.
      - destruct (delete m (queue (sh s))); eexists; reflexivity. }
    destruct X as [[[[h p] bc] es] X]. cbn [step]. rewrite X. eexists. reflexivity. }
  destruct (owner (sh s)) as [u|] eqn:OW.
  - (* the owner of the semaphore's mutex can move: if it were blocked on mutexSemQ it would not be inside the semaphore *)
    exists u. pose proof (EO u eq_refl) as X. unfold owns in X. destruct (sempc (pcs s u)) as [[o e]|] eqn:SP; [|discriminate].
    assert (Y : exists x, lstep u (sh s) (pcs s u) = Some x).
    { pose proof (SEM u o e) as Z. destruct (L u) as (_ & _ & U3 & _). unfold shape in U3. rewrite SP in U3.
      destruct Z as [[[[ow st] q] bc] Z]; auto; try (intros ? ->; discriminate).
      destruct (pcs s u); try discriminate; injection SP as <- <-; cbn [lstep]; rewrite OW; destruct e0; try discriminate; rewrite Z; eexists; reflexivity. }
    destruct Y as [[[[h p] bc] es] Y]. cbn [step]. rewrite Y. eexists. reflexivity.
  - destruct (qowner (sh s)) as [u|] eqn:QW.
    + exists u. pose proof (QO u eq_refl) as X. apply MV; auto; destruct (pcs s u); try discriminate; auto.
    + exists t. apply MV; auto.
Qed.
(** Every call takes a bounded number of actions: each action of a thread in a call brings it closer to its return. *)
Definition erank (e : espc) : nat :=
  match e with PostLock => 4 | PostStore => 3 | PostUnlock => 2 | PostBroadcast => 1 | ResetLock => 3 | ResetUnlock => 2 | ResetStore => 1
             | WaitLock _ => 5 | WaitCheck _ => 4 | WaitSleep _ => 3 | WaitWoken _ => 2 | WaitUnlock _ => 1 | EsDone _ => 0 end%nat.
Definition rank (p : pc) : nat :=
  match p with
  | Idle => 0 | PLock _ => 10 | PInsert _ => 9 | PSize => 8 | PPost e => 3 + erank e | PUnlock => 2 | PRet => 1
  | GLock _ => 20 | GSize _ => 19 | GReset _ e => 15 + erank e | GUnlock1 _ => 14 | GWait e => 7 + erank e | GLock2 => 6 | GGet => 5 | GDelete _ => 3 | GUnlock2 _ => 2 | GRet _ => 1
  end%nat.
Theorem C21_calls_end sp s t s' : step sp s (AStep t) = Some s' -> (rank (pcs s' t) < rank (pcs s t))%nat.
Proof.
  cbn [step]. destruct (lstep t (sh s) (pcs s t)) as [[[[h p] bc] es]|] eqn:LS; [|discriminate]. intros E. injection E as <-. cbn [pcs]. rewrite upd_same.
  destruct (pcs s t) as [| | | |e| | | | |b e| |e| | | | |]; cbn [lstep] in LS; try discriminate.
  all: try (destruct (qowner (sh s)); [discriminate|]).
  all: try (destruct e; cbn [es_step] in LS; try (destruct (owner (sh s)); try discriminate); try (destruct (stop (sh s))); try (destruct r); try discriminate).
  all: try (destruct (delete m (queue (sh s)))).
  all: injection LS as <- <- <- <-; cbn [rank erank]; try lia.
  all: match goal with |- context [if ?c then _ else _] => destruct c | |- context [match ?c with [] => _ | _ => _ end] => destruct c end; cbn [rank erank]; lia.
Qed.
(** When all the calls have gone as far as they can and messages are queued, no thread is in a call (so no consumer sleeps). *)
Theorem C21_quiescent sp sched s : exec (step sp) init sched = Some s -> queue (sh s) <> [] -> (forall u, step sp s (AStep u) = None) -> forall t, pcs s t = Idle.
Proof.
  intros E Q N t. assert (IA : forall u, pcs s u <> Idle -> asleep (pcs s u) = true).
  { intros u U. destruct (asleep (pcs s u)) eqn:A; auto. destruct (C21_no_deadlock sp sched s u E U A) as (v & s' & V). rewrite N in V. discriminate. }
  destruct (asleep (pcs s t)) eqn:A.
  - destruct (C21_no_lost_wakeup sp sched s t E A Q) as (p & P). rewrite (i_phase _ (inv_exec sp sched s E)) in P. specialize (IA p). destruct (pcs s p); try discriminate P; discriminate IA; discriminate.
  - destruct (pcs s t) eqn:EP; auto; specialize (IA t); rewrite EP in IA; rewrite A in IA; discriminate IA; discriminate.
Qed.

(** ** One consumer *)
Definition isget (p : pc) : bool := match p with GLock _ | GSize _ | GReset _ _ | GUnlock1 _ | GWait _ | GLock2 | GGet | GDelete _ | GUnlock2 _ | GRet _ => true | _ => false end.
Definition good (h : shared) (p : pc) : Prop :=
  match p with
  | GReset _ (EsDone _) | GUnlock1 _ => stop h = true
  | GWait (WaitLock _ | WaitCheck _ | WaitSleep _) => stop h = false -> queue h <> []
  | GWait (WaitWoken ROk | WaitUnlock ROk | EsDone ROk) | GLock2 | GGet => queue h <> []
  | GUnlock2 GFatal | GRet GFatal => False
  | _ => True
  end.
(** Only thread c calls GetMessage. *)
Definition only_consumer (c : nat) (l : list (nat * ev)) : Prop := forall t b, In (t, ECallGet b) l -> t = c.
Record inv1 (c : nat) (s : sys) : Prop := {
  j_inv : inv s;
  j_get : only_consumer c (log s) -> forall t, t <> c -> isget (pcs s t) = false;
  j_good : only_consumer c (log s) -> good (sh s) (pcs s c)
}.
Lemma lstep_isget t h p h' p' bc es : lstep t h p = Some (h', p', bc, es) -> isget p = false -> isget p' = false.
Proof.
  destruct p; cbn [lstep isget]; intros L G; try discriminate.
  all: try (destruct (qowner h); [discriminate|]).
  all: try (destruct e; cbn [es_step] in L; try (destruct (owner h); try discriminate); try (destruct (stop h)); try discriminate).
  all: injection L as <- <- <- <-; auto. destruct (Nat.eqb (length (queue h)) 1); auto.
Qed.
(** What a producer does. *)
Lemma lstep_put t h p h' p' bc es : lstep t h p = Some (h', p', bc, es) -> isget p = false -> loc h t p ->
  (queue h <> [] -> queue h' <> []) /\ (bc = true -> queue h' <> []) /\ (stop h' = stop h \/ (stop h' = false /\ queue h' <> [] /\ holding p = true)).
Proof.
  destruct p; cbn [lstep isget]; intros L G (_ & _ & SH & _ & QA); try discriminate.
  all: try (destruct (qowner h); [discriminate|]).
  all: try (destruct e; try discriminate SH; cbn [es_step] in L; try (destruct (owner h); try discriminate); try discriminate).
  all: injection L as <- <- <- <-; cbn [queue stop holding] in *; try (split; [|split]; auto; discriminate).
  split; [|split]; auto; try discriminate. destruct (queue h); discriminate.
Qed.
(** What the consumer does. *)
Lemma lstep_get t h p h' p' bc es : lstep t h p = Some (h', p', bc, es) -> loc h t p -> good h p -> isget p = true -> good h' p'.
Proof.
  destruct p; cbn [lstep isget]; intros L (_ & _ & SH & _ & QA) G IG; try discriminate.
  all: try (destruct (qowner h); [discriminate|]).
  all: try (destruct e; try discriminate SH; cbn [es_step] in L; try (destruct (owner h); try discriminate); try (destruct (stop h) eqn:SE); try (destruct r); try discriminate).
  all: try (destruct (delete m (queue h))).
  all: injection L as <- <- <- <-; cbn [queue stop good] in *; auto; try congruence.
  - destruct (queue h) eqn:EQ; cbn; [auto|congruence].
  - destruct (queue h) eqn:EQ; cbn; auto.
Qed.
Lemma inv1_step c s a s' : inv1 c s -> step false s a = Some s' -> inv1 c s'.
Proof.
  intros [I JG JO] S. pose proof (inv_step _ _ _ _ I S) as I'. destruct a as [t m|t timed|t|t|t]; cbn [step] in S.
  - destruct (pcs s t) eqn:EP; try discriminate. injection S as <-.
    assert (OC : only_consumer c ((t, ECallPut m) :: log s) -> only_consumer c (log s)) by (intros H x b X; apply (H x b); right; exact X).
    constructor; auto; cbn [pcs log sh].
    + intros H u U. destruct (upd_cases (pcs s) t (PLock m) u) as [[-> ->]|[NE ->]]; auto.
    + intros H. destruct (upd_cases (pcs s) t (PLock m) c) as [[-> ->]|[NE ->]]; auto. exact Logic.I.
  - destruct (pcs s t) eqn:EP; try discriminate. injection S as <-.
    assert (OC : only_consumer c ((t, ECallGet timed) :: log s) -> only_consumer c (log s) /\ t = c) by (intros H; split; [intros x b X; apply (H x b); right; exact X|apply (H t timed); left; reflexivity]).
    constructor; auto; cbn [pcs log sh]; intros H; destruct (OC H) as [H1 ->].
    + intros u U. rewrite upd_other by auto. auto.
    + rewrite upd_same. exact Logic.I.
  - destruct (lstep t (sh s) (pcs s t)) as [[[[h p] bc] es]|] eqn:LS; [|discriminate]. injection S as <-.
    assert (OC : only_consumer c (map (pair t) es ++ log s) -> only_consumer c (log s)) by (intros H x b X; apply (H x b); apply in_or_app; right; exact X).
    constructor; auto; cbn [pcs log sh]; intros H; apply OC in H.
    + intros u U. destruct (Nat.eq_dec u t) as [->|NE]; [rewrite upd_same; eapply lstep_isget; eauto|]. rewrite upd_other by auto.
      specialize (JG H u U). destruct bc; auto. destruct (pcs s u); auto.
    + specialize (JO H). destruct (Nat.eq_dec c t) as [->|NE].
      * rewrite upd_same. destruct (isget (pcs s t)) eqn:IG; [eapply lstep_get; eauto; apply I|]. apply (lstep_isget _ _ _ _ _ _ _ LS) in IG. destruct p; try discriminate; exact Logic.I.
      * rewrite upd_other by auto. pose proof (JG H t ltac:(auto)) as PG. destruct (lstep_put _ _ _ _ _ _ _ LS PG (i_loc _ I t)) as (Q1 & Q2 & Q3).
        assert (HB : holding (pcs s t) = true -> holding (pcs s c) = true -> False).
        { intros X Y. apply (i_loc _ I t) in X. apply (i_loc _ I c) in Y. congruence. }
        assert (G' : good h (pcs s c)).
        { destruct (pcs s c) as [| | | | | | | | |b e| |e| | | | |] eqn:EC; cbn [good] in *; auto.
          - destruct e; auto. destruct Q3 as [->|(_ & _ & X)]; try (exfalso; apply HB; auto; fail); auto.
          - destruct Q3 as [->|(_ & _ & X)]; try (exfalso; apply HB; auto; fail); auto.
          - destruct e; auto; try (destruct r; auto); intros X; destruct Q3 as [Q|(Q & Q' & _)]; auto; apply Q1, JO; congruence. }
        destruct bc; auto. destruct (pcs s c) as [| | | | | | | | |b e| |e| | | | |]; auto. destruct e; auto. cbn. apply Q2. reflexivity.
  - destruct (pcs s t) as [| | | | | | | | | | |e| | | | |] eqn:EP; try discriminate. destruct e; try discriminate. destruct timed; [|discriminate]. injection S as <-.
    constructor; auto; cbn [pcs log sh]; intros H.
    + intros u U. destruct (upd_cases (pcs s) t (GWait (WaitWoken RTimeout)) u) as [[-> ->]|[NE ->]]; auto. specialize (JG H t U). rewrite EP in JG. discriminate.
    + destruct (upd_cases (pcs s) t (GWait (WaitWoken RTimeout)) c) as [[-> ->]|[NE ->]]; auto. exact Logic.I.
  - discriminate.
Qed.
(** With one consumer thread, and no spurious wake-ups, GetMessage never fails with fatalError. *)
Theorem C21_single_consumer sched s c : exec (step false) init sched = Some s -> only_consumer c (log s) -> forall t, ~ In (t, ERetGet GFatal) (log s).
Proof.
  intros E OC t X.
  (* look at the state in which that return happened *)
  assert (GEN : forall sched s0 s1, inv1 c s0 -> (forall u, only_consumer c (log s0) -> ~ In (u, ERetGet GFatal) (log s0)) -> exec (step false) s0 sched = Some s1 -> only_consumer c (log s1) -> forall u, ~ In (u, ERetGet GFatal) (log s1)).
  { clear. induction sched as [|a r IH]; intros s0 s1 I N E OC u; cbn in E.
    - injection E as <-. apply N; auto.
    - destruct (step false s0 a) as [s'|] eqn:ES; [|discriminate]. pose proof (inv1_step _ _ _ _ I ES) as I'. apply (IH s' s1); auto.
      intros v OC' X.
      assert (LG : exists k, log s' = k ++ log s0 /\ (In (v, ERetGet GFatal) k -> pcs s0 v = GRet GFatal)).
      { destruct a as [t m|t timed|t|t|t]; cbn [step] in ES.
        - destruct (pcs s0 t); try discriminate. injection ES as <-. exists [(t, ECallPut m)]. split; [reflexivity|]. intros [H|[]]. discriminate.
        - destruct (pcs s0 t); try discriminate. injection ES as <-. exists [(t, ECallGet timed)]. split; [reflexivity|]. intros [H|[]]. discriminate.
        - destruct (lstep t (sh s0) (pcs s0 t)) as [[[[h p] bc] es]|] eqn:LS; [|discriminate]. injection ES as <-. exists (map (pair t) es). split; [reflexivity|].
          intros H. apply in_map_iff in H. destruct H as (e & EE & H). injection EE as <- ->.
          destruct (pcs s0 t); cbn [lstep] in LS; try discriminate;
            repeat match type of LS with context [match ?x with _ => _ end] => destruct x; try discriminate end; injection LS as <- <- <- <-; cbn in H; try contradiction; destruct H as [H|[]]; try discriminate; congruence.
        - destruct (pcs s0 t); try discriminate. destruct e; try discriminate. destruct timed; [|discriminate]. injection ES as <-. exists []. split; [reflexivity|]. intros [].
        - discriminate. }
      destruct LG as (k & LG & K). assert (OC0 : only_consumer c (log s0)) by (intros x b H; apply (OC' x b); rewrite LG; apply in_or_app; right; exact H).
      rewrite LG in X. apply in_app_or in X. destruct X as [X|X]; [|exact (N v OC0 X)]. specialize (K X).
      destruct (Nat.eq_dec v c) as [->|NE]; [pose proof (j_good _ _ I OC0) as G|pose proof (j_get _ _ I OC0 v NE) as G]; rewrite K in G; [exact G|discriminate]. }
  apply (GEN sched init s) with (u := t); auto. constructor; [exact inv_init| |]; cbn; auto.
Qed.

(** * What does not hold *)
(** With two consumers a GetMessage can fail with fatalError: both are released by the same message. *)
Theorem C21_two_consumers_refuted :
  exists sched s, exec (step false) init sched = Some s /\ In (1%nat, ERetGet GFatal) (log s).
Proof.
  set (n := fun t k => repeat (AStep t) k).
  exists (ACallGet 0%nat false :: n 0%nat 9%nat ++ ACallGet 1%nat false :: n 1%nat 9%nat ++ ACallPut 2%nat 7%nat :: n 2%nat 10%nat ++ n 0%nat 8%nat ++ n 1%nat 7%nat).
  eexists. split; [vm_compute; reflexivity|]. left. reflexivity.
Qed.
(** A spurious wake-up of the condition variable has the same effect with one consumer. *)
Theorem C21_spurious_refuted :
  exists sched s, exec (step true) init sched = Some s /\ log s = [(0%nat, ERetGet GFatal); (0%nat, ECallGet false)].
Proof.
  exists (ACallGet 0%nat false :: repeat (AStep 0%nat) 9 ++ ASpurious 0%nat :: repeat (AStep 0%nat) 7). eexists. split; [vm_compute; reflexivity|]. reflexivity.
Qed.

(** A consumer sleeps, two producers put a message each, the consumer takes both in order. *)
Example C21_case :
  exists s, exec (step false) init (ACallGet 0%nat false :: repeat (AStep 0%nat) 9 ++ ACallPut 1%nat 5%nat :: repeat (AStep 1%nat) 10 ++ ACallPut 2%nat 6%nat :: repeat (AStep 2%nat) 5 ++ repeat (AStep 0%nat) 8 ++
       ACallGet 0%nat true :: repeat (AStep 0%nat) 6) = Some s /\
    gets (log s) = [5; 6]%nat /\ only_consumer 0 (log s) /\ hd_error (log s) = Some (0%nat, ERetGet (GOk (Some 6%nat))).
Proof.
  eexists. split; [vm_compute; reflexivity|]. split; [reflexivity|]. split; [|reflexivity]. intros t b H. cbn in H. repeat (destruct H as [H|H]; [try discriminate; congruence|]). contradiction.
Qed.

Print Assumptions C21_in_order.
Print Assumptions C21_exactly_once.
Print Assumptions C21_no_lost_wakeup.
Print Assumptions C21_no_deadlock.
Print Assumptions C21_calls_end.
Print Assumptions C21_quiescent.
Print Assumptions C21_single_consumer.
Print Assumptions C21_two_consumers_refuted.
Print Assumptions C21_spurious_refuted.
