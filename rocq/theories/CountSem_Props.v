(** C23: the counting semaphore is a barrier, for every number of actors and every schedule. *)
From Verif Require Import Base Conc EventSem_Model CountSem_Model.
From Verif Require EventSem_Props.

(** * Reading the log (latest event first) *)
(** What one thread is doing: outside, in call o, in call o after its effect on the counter.  Each WaitForAll arrives exactly once,
    each ForcePass forces once, each ForceReset and each successful Reset clears once. *)
Inductive phase := Out | In (o : op) | Dn (o : op).
Definition next (f : phase) (e : ev) : option phase :=
  match f, e with
  | Out, ECall o => Some (In o)
  | In (OAll b), EArrive => Some (Dn (OAll b))
  | In OForcePass, EForce => Some (Dn OForcePass)
  | In OReset, EClear => Some (Dn OReset)
  | In OForceReset, EClear => Some (Dn OForceReset)
  | In OReset, ERet OReset false => Some Out
  | Dn (OAll b), ERet (OAll b') _ => if Bool.eqb b b' then Some Out else None
  | Dn OForcePass, ERet OForcePass true => Some Out
  | Dn OReset, ERet OReset true => Some Out
  | Dn OForceReset, ERet OForceReset true => Some Out
  | _, _ => None
  end.
Fixpoint phase_of (l : list (nat * ev)) (t : nat) : option phase :=
  match l with
  | [] => Some Out
  | (u, e) :: r => if Nat.eqb u t then match phase_of r t with Some f => next f e | None => None end else phase_of r t
  end.
(** The number of actors that called WaitForAll, and whether a pass was forced, since the semaphore was last cleared. *)
Fixpoint arrived (l : list (nat * ev)) : Z := match l with [] | (_, EClear) :: _ => 0 | (_, EArrive) :: r => 1 + arrived r | _ :: r => arrived r end.
Fixpoint forced (l : list (nat * ev)) : bool := match l with [] | (_, EClear) :: _ => false | (_, EForce) :: r => true | _ :: r => forced r end.
Definition open_for (N : Z) (l : list (nat * ev)) : Prop := N <= arrived l \/ forced l = true.
(** Resets are called when no call is in progress, and no call is made during a reset. *)
Definition reset_call (e : ev) : bool := match e with ECall OReset | ECall OForceReset => true | _ => false end.
Definition is_call (e : ev) : bool := match e with ECall _ => true | _ => false end.
Definition in_reset (f : option phase) : bool := match f with Some (In (OReset | OForceReset) | Dn (OReset | OForceReset)) => true | _ => false end.
Fixpoint disciplined (l : list (nat * ev)) : Prop :=
  match l with
  | [] => True
  | (u, e) :: r => disciplined r /\ (reset_call e = true -> forall t, phase_of r t = Some Out) /\ (is_call e = true -> forall t, in_reset (phase_of r t) = false)
  end.

(** * Invariants that hold in any case *)
Definition asleep (p : pc) : bool := match p with WWait _ (WaitSleep _) => true | _ => false end.
Definition holding (p : pc) : bool :=
  match p with WBody _ | WUnlock _ _ | RBody | RReset _ | RUnlock _ | FBody | FUnlock | PBody | PUnlock => true | _ => false end.
Definition sempc (p : pc) : option (EventSem_Model.op * espc) :=
  match p with WPost _ e | PPost e => Some (EventSem_Model.OPost, e) | RReset e | FReset e => Some (EventSem_Model.OReset, e) | WWait _ e => Some (EventSem_Model.OWait true, e) | _ => None end.
Definition owns (p : pc) : bool := match sempc p with Some (_, e) => EventSem_Props.owns e | None => false end.
Definition shape (p : pc) : bool := match sempc p with Some (o, e) => EventSem_Props.fits o e | None => true end.
Definition pphase (p : pc) : phase :=
  match p with
  | Idle => Out
  | WLock b | WBody b => In (OAll b)
  | WUnlock b _ | WPost b _ | WWait b _ | WRet b _ => Dn (OAll b)
  | RLock | RBody | RUnlock false | RRet false => In OReset
  | RReset _ | RUnlock true | RRet true => Dn OReset
  | FLock | FBody => In OForceReset
  | FUnlock | FReset _ | FRet => Dn OForceReset
  | PLock | PBody => In OForcePass
  | PUnlock | PPost _ | PRet => Dn OForcePass
  end.
Fixpoint cnt (N : Z) (l : list (nat * ev)) : Z :=
  match l with [] => 0 | (_, EClear) :: _ => 0 | (_, EForce) :: _ => N | (_, EArrive) :: r => Z.min N (cnt N r + 1) | _ :: r => cnt N r end.
Record inv (N : Z) (s : sys) : Prop := {
  i_hold : forall t, holding (pcs s t) = true -> qowner (sh s) = Some t;
  i_own : forall t, owns (pcs s t) = true -> owner (sh s) = Some t;
  i_shape : forall t, shape (pcs s t) = true;
  i_hold2 : forall t, qowner (sh s) = Some t -> holding (pcs s t) = true;
  i_own2 : forall t, owner (sh s) = Some t -> owns (pcs s t) = true;
  i_cnt : counter (sh s) = cnt N (log s);
  i_phase : forall t, phase_of (log s) t = Some (pphase (pcs s t))
}.

Ltac lcase p h L SH :=
  destruct p as [|b|b|b cond|b e|b e|b ok| | |e|ok|ok| | | |e| | | | |e| ]; cbn [lstep] in L; try discriminate L;
  try (destruct (qowner h) eqn:QO; [discriminate L|]);
  try (destruct e; try discriminate SH; cbn [es_step] in L; try (destruct (owner h) eqn:OW; try discriminate L); try (destruct (stop h) eqn:ST); try discriminate L);
  try destruct cond; try (destruct ok);
  try (match type of L with context [Z.geb ?x ?y] => destruct (Z.geb x y) eqn:GE end);
  try (match type of L with context [match ?r with ROk => _ | RTimeout => _ end] => destruct r end);
  injection L as <- <- <- <-.

Lemma lstep_mutex N t h p h' p' bc es : lstep N t h p = Some (h', p', bc, es) -> shape p = true ->
  (holding p = true -> holding p' = true -> qowner h' = qowner h) /\ (holding p = true -> holding p' = false -> qowner h' = None) /\
  (holding p = false -> holding p' = true -> qowner h = None /\ qowner h' = Some t) /\ (holding p = false -> holding p' = false -> qowner h' = qowner h).
Proof. intros L SH. lcase p h L SH; cbn; repeat split; intros; try discriminate; auto. Qed.
Lemma lstep_sem N t h p h' p' bc es : lstep N t h p = Some (h', p', bc, es) -> shape p = true ->
  (owns p = true -> owns p' = true -> owner h' = owner h) /\ (owns p = true -> owns p' = false -> owner h' = None) /\
  (owns p = false -> owns p' = true -> owner h = None /\ owner h' = Some t) /\ (owns p = false -> owns p' = false -> owner h' = owner h) /\ shape p' = true.
Proof. intros L SH. lcase p h L SH; cbn; repeat split; intros; try discriminate; auto. Qed.
Lemma cnt_range N l : 0 <= N -> 0 <= cnt N l <= N.
Proof. intros H. induction l as [|[u e] l IH]; cbn; [lia|]. destruct e; lia. Qed.
Lemma lstep_log N t h p h' p' bc es : lstep N t h p = Some (h', p', bc, es) -> shape p = true -> 0 < N < 2 ^ 32 - 1 -> 0 <= counter h <= N ->
  (match es with [] => pphase p' = pphase p /\ counter h' = counter h | [e] => next (pphase p) e = Some (pphase p') /\ counter h' = cnt N ((t, e) :: []) + (match e with EArrive => Z.min N (counter h + 1) - Z.min N 1 | ECall _ | ERet _ _ => counter h | _ => 0 end) | _ => False end).
Proof.
  intros L SH HN HC. lcase p h L SH; cbn; auto; try (split; [|lia]; rewrite ?Bool.eqb_reflx; auto).
  rewrite uwrap_id by lia. destruct (Z.gtb_spec (counter h + 1) N); split; auto; lia.
Qed.

Lemma holding_wake p : holding (wakeq p) = holding p. Proof. destruct p; auto. Qed.
Lemma owns_wake p : owns (wakeq p) = owns p. Proof. destruct p; auto. destruct e; auto. Qed.
Lemma shape_wake p : shape (wakeq p) = shape p. Proof. destruct p; auto. destruct e; auto. Qed.
Lemma pphase_wake p : pphase (wakeq p) = pphase p. Proof. destruct p; auto. Qed.
Lemma asleep_wake p : asleep (wakeq p) = false. Proof. destruct p; auto. destruct e; auto. Qed.

Lemma inv_step N sp s a s' : 0 < N < 2 ^ 32 - 1 -> inv N s -> step N sp s a = Some s' -> inv N s'.
Proof.
  intros HN [H1 H2 H3 H4 H5 H6 H7] S.
  assert (KEEP : forall t p l, holding p = holding (pcs s t) -> owns p = owns (pcs s t) -> shape p = true -> cnt N l = cnt N (log s) ->
     phase_of l t = Some (pphase p) -> (forall u, u <> t -> phase_of l u = phase_of (log s) u) -> inv N (Sys (sh s) (upd (pcs s) t p) l)).
  { intros t p l X1 X2 X3 X4 X5 X6. constructor; cbn [sh pcs log]; try (intros u; destruct (upd_cases (pcs s) t p u) as [[-> ->]|[NE ->]]; rewrite ?X1, ?X2; auto).
    - congruence.
    - rewrite X6; auto. }
  destruct a as [t o|t|t|t]; cbn [step] in S.
  - destruct (pcs s t) eqn:EP; try discriminate. injection S as <-. apply KEEP; rewrite ?EP; try (destruct o; reflexivity).
    + cbn. rewrite Nat.eqb_refl, H7, EP. destruct o; reflexivity.
    + intros u U. cbn. rewrite (proj2 (Nat.eqb_neq t u)) by auto. reflexivity.
  - destruct (lstep N t (sh s) (pcs s t)) as [[[[h p] bc] es]|] eqn:LS; [|discriminate]. injection S as <-.
    destruct (lstep_mutex _ _ _ _ _ _ _ _ LS (H3 t)) as (A1 & A2 & A3 & A4). destruct (lstep_sem _ _ _ _ _ _ _ _ LS (H3 t)) as (B1 & B2 & B3 & B4 & B5).
    assert (HC : 0 <= counter (sh s) <= N) by (rewrite H6; apply cnt_range; lia).
    pose proof (lstep_log _ _ _ _ _ _ _ _ LS (H3 t) HN HC) as D.
    set (f := if bc then fun u => wakeq (pcs s u) else pcs s).
    assert (FH : forall u, holding (f u) = holding (pcs s u)) by (intros u; unfold f; destruct bc; [apply holding_wake|reflexivity]).
    assert (FO : forall u, owns (f u) = owns (pcs s u)) by (intros u; unfold f; destruct bc; [apply owns_wake|reflexivity]).
    assert (FS : forall u, shape (f u) = shape (pcs s u)) by (intros u; unfold f; destruct bc; [apply shape_wake|reflexivity]).
    assert (FP : forall u, pphase (f u) = pphase (pcs s u)) by (intros u; unfold f; destruct bc; [apply pphase_wake|reflexivity]).
    constructor; cbn [sh pcs log].
    + intros u. destruct (upd_cases f t p u) as [[-> ->]|[NE ->]].
      * intros H. destruct (holding (pcs s t)) eqn:HT; [rewrite A1 by auto; auto|apply A3; auto].
      * rewrite FH. intros H. apply H1 in H. destruct (holding (pcs s t)) eqn:HT; [apply H1 in HT; congruence|]. destruct (holding p) eqn:HP; [destruct (A3 eq_refl eq_refl); congruence|]. rewrite A4; auto.
    + intros u. destruct (upd_cases f t p u) as [[-> ->]|[NE ->]].
      * intros H. destruct (owns (pcs s t)) eqn:HT; [rewrite B1 by auto; auto|apply B3; auto].
      * rewrite FO. intros H. apply H2 in H. destruct (owns (pcs s t)) eqn:HT; [apply H2 in HT; congruence|]. destruct (owns p) eqn:HP; [destruct (B3 eq_refl eq_refl); congruence|]. rewrite B4; auto.
    + intros u. destruct (upd_cases f t p u) as [[-> ->]|[NE ->]]; auto. rewrite FS. auto.
    + intros u H. destruct (upd_cases f t p u) as [[-> ->]|[NE ->]].
      * destruct (holding p) eqn:HP; auto. destruct (holding (pcs s t)) eqn:HT; [rewrite A2 in H by auto; discriminate|]. rewrite A4 in H by auto. apply H4 in H. congruence.
      * rewrite FH. apply H4. destruct (holding (pcs s t)) eqn:HT, (holding p) eqn:HP; [rewrite A1 in H by auto; auto|rewrite A2 in H by auto; discriminate|destruct (A3 eq_refl eq_refl); congruence|rewrite A4 in H by auto; auto].
    + intros u H. destruct (upd_cases f t p u) as [[-> ->]|[NE ->]].
      * destruct (owns p) eqn:HP; auto. destruct (owns (pcs s t)) eqn:HT; [rewrite B2 in H by auto; discriminate|]. rewrite B4 in H by auto. apply H5 in H. congruence.
      * rewrite FO. apply H5. destruct (owns (pcs s t)) eqn:HT, (owns p) eqn:HP; [rewrite B1 in H by auto; auto|rewrite B2 in H by auto; discriminate|destruct (B3 eq_refl eq_refl); congruence|rewrite B4 in H by auto; auto].
    + destruct es as [|e [|]]; try contradiction.
      * destruct D as [_ ->]. exact H6.
      * destruct D as [_ ->]. cbn. rewrite <- H6. destruct e; lia.
    + intros u. destruct es as [|e [|]]; try contradiction.
      * destruct D as [D _]. cbn. rewrite H7. destruct (upd_cases f t p u) as [[-> ->]|[NE ->]]; [rewrite D|rewrite FP]; reflexivity.
      * destruct D as [D _]. cbn. destruct (upd_cases f t p u) as [[-> ->]|[NE ->]]; [rewrite Nat.eqb_refl, H7; exact D|]. rewrite (proj2 (Nat.eqb_neq t u)) by auto. rewrite H7, FP. reflexivity.
  - destruct (pcs s t) as [| | | | |b e| | | | | | | | | | | | | | | | ] eqn:EP; try discriminate. destruct e; try discriminate. destruct timed; [|discriminate]. injection S as <-. pose proof (H7 t) as PT. rewrite EP in PT.
    apply KEEP; rewrite ?EP; auto.
  - destruct sp; [|discriminate]. destruct (pcs s t) as [| | | | |b e| | | | | | | | | | | | | | | | ] eqn:EP; try discriminate. destruct e; try discriminate. injection S as <-. pose proof (H7 t) as PT. rewrite EP in PT.
    apply KEEP; rewrite ?EP; auto.
Qed.
Lemma inv_init N : inv N init.
Proof. constructor; cbn; auto; discriminate. Qed.

(** The counter reaches the number of actors exactly when all have arrived or a pass was forced. *)
Lemma cnt_open N l : 0 < N -> (cnt N l = N <-> open_for N l).
Proof.
  intros HN. assert (G : 0 <= arrived l /\ (forced l = true -> cnt N l = N) /\ (forced l = false -> cnt N l = Z.min N (arrived l))).
  { induction l as [|[u e] l (I0 & I1 & I2)]; cbn [arrived forced cnt]; [repeat split; try discriminate; lia|].
    destruct e; (split; [|split]); try exact I0; try exact I1; try exact I2; try lia; try discriminate; intros F; auto; first [rewrite I1 by auto; lia|rewrite I2 by auto; lia]. }
  destruct G as (G0 & G1 & G2). unfold open_for. destruct (forced l); [split; auto|]. rewrite G2 by auto. split; [left; lia|intros [X|X]; [lia|discriminate]].
Qed.

(** * Invariants of disciplined histories *)
Definition isreset (p : pc) : bool := match p with RLock | RBody | RReset _ | RUnlock _ | RRet _ | FLock | FBody | FUnlock | FReset _ | FRet => true | _ => false end.
Lemma isreset_phase p : isreset p = in_reset (Some (pphase p)).
Proof. destruct p; auto; destruct ok; auto. Qed.
Definition clearing (p : pc) : bool := match p with RReset _ | FUnlock | FReset _ => true | _ => false end.
Definition pre (p : pc) : bool := match p with WUnlock _ true | WPost _ (PostLock | PostStore) | PUnlock | PPost (PostLock | PostStore) => true | _ => false end.
Definition mid (p : pc) : bool := match p with WPost _ (PostUnlock | PostBroadcast) | PPost (PostUnlock | PostBroadcast) => true | p => pre p end.
Record dinv (N : Z) (s : sys) : Prop := {
  d_alone : forall t u, isreset (pcs s t) = true -> u <> t -> pcs s u = Idle;
  d_clear : forall t, clearing (pcs s t) = true -> counter (sh s) = 0;
  d_stop : stop (sh s) = true -> counter (sh s) < N \/ exists p, pre (pcs s p) = true;
  d_sleep : forall t, asleep (pcs s t) = true -> counter (sh s) < N \/ exists p, mid (pcs s p) = true
}.
Lemma lstep_wake N t h p h' p' bc es : lstep N t h p = Some (h', p', bc, es) -> shape p = true -> 0 < N < 2 ^ 32 - 1 -> 0 <= counter h <= N ->
  (stop h' = true -> stop h = true \/ (clearing p = true /\ counter h' = counter h)) /\
  (asleep p' = true -> stop h = true /\ counter h' = counter h) /\
  (pre p = true -> pre p' = true \/ (stop h' = false /\ mid p' = true)) /\
  (mid p = true -> mid p' = true \/ bc = true) /\
  (counter h < N -> counter h' < N \/ pre p' = true) /\
  (bc = true -> asleep p' = false) /\
  (clearing p' = true -> (clearing p = true /\ counter h' = counter h) \/ counter h' = 0) /\
  (isreset p' = true -> isreset p = true).
Proof.
  intros L SH HN HC. lcase p h L SH; cbn; repeat split; intros; try discriminate; auto; try (left; lia); try congruence.
  - rewrite uwrap_id by lia. destruct (Z.gtb_spec (counter h + 1) N); [lia|]. destruct (Z.eqb_spec (counter h + 1) N); auto. lia.
Qed.
Lemma pre_mid p : pre p = true -> mid p = true. Proof. destruct p; auto; destruct e; auto. Qed.
Lemma pre_wake p : pre (wakeq p) = pre p. Proof. destruct p; auto. Qed.
Lemma mid_wake p : mid (wakeq p) = mid p. Proof. destruct p; auto. Qed.
Lemma isreset_wake p : isreset (wakeq p) = isreset p. Proof. destruct p; auto. Qed.
Lemma clearing_wake p : clearing (wakeq p) = clearing p. Proof. destruct p; auto. Qed.
Lemma clearing_reset p : clearing p = true -> isreset p = true. Proof. destruct p; auto. Qed.

Lemma dinv_step N sp s a s' : 0 < N < 2 ^ 32 - 1 -> inv N s -> dinv N s -> step N sp s a = Some s' -> disciplined (log s') -> dinv N s'.
Proof.
  intros HN I [DA DC DS DL] S DI.
  assert (HC : 0 <= counter (sh s) <= N) by (rewrite (i_cnt _ _ I); apply cnt_range; lia).
  assert (KEEP : forall t p l, isreset p = false -> isreset (pcs s t) = false -> asleep p = false -> mid (pcs s t) = false -> pcs s t <> Idle \/ (forall u, isreset (pcs s u) = false) -> dinv N (Sys (sh s) (upd (pcs s) t p) l)).
  { intros t p l X1 X2 X3 X4 X5. assert (PT : pre (pcs s t) = false) by (destruct (pre (pcs s t)) eqn:E; auto; apply pre_mid in E; congruence).
    constructor; cbn [sh pcs log].
    - intros x u H NE. destruct (upd_cases (pcs s) t p x) as [[-> EE]|[NX EE]]; rewrite EE in H; [congruence|].
      destruct X5 as [X5|X5]; [|rewrite X5 in H; discriminate]. exfalso. apply X5. apply (DA x); auto.
    - intros x H. destruct (upd_cases (pcs s) t p x) as [[-> EE]|[NX EE]]; rewrite EE in H; [apply clearing_reset in H; congruence|apply (DC x H)].
    - intros H. destruct (DS H) as [E|(x & E)]; auto. right. exists x. rewrite upd_other; auto. intros ->. congruence.
    - intros u H. destruct (upd_cases (pcs s) t p u) as [[-> EE]|[NX EE]]; rewrite EE in H; [congruence|]. destruct (DL u H) as [E|(x & E)]; auto. right. exists x. rewrite upd_other; auto. intros ->. congruence. }
  destruct a as [t o|t|t|t]; cbn [step] in S.
  - destruct (pcs s t) eqn:EP; try discriminate. injection S as <-. cbn [log disciplined] in DI. destruct DI as (_ & D1 & D2).
    assert (NR : forall u, isreset (pcs s u) = false) by (intros u; rewrite isreset_phase, <- (i_phase _ _ I); apply D2; reflexivity).
    destruct (isreset (entry o)) eqn:IR.
    + assert (ID : forall u, pcs s u = Idle).
      { intros u. assert (P : phase_of (log s) u = Some Out) by (apply D1; destruct o; try discriminate; reflexivity). rewrite (i_phase _ _ I) in P. destruct (pcs s u); try discriminate; auto; destruct ok; discriminate. }
      constructor; cbn [sh pcs log].
      * intros x u H NE. destruct (upd_cases (pcs s) t (entry o) x) as [[-> EE]|[NX EE]]; rewrite EE in H; [rewrite upd_other; auto|]. rewrite ID in H. discriminate.
      * intros x H. destruct (upd_cases (pcs s) t (entry o) x) as [[-> EE]|[NX EE]]; rewrite EE in H; [destruct o; discriminate|]. rewrite ID in H. discriminate.
      * intros H. destruct (DS H) as [E|(x & E)]; auto. rewrite ID in E. discriminate.
      * intros u H. destruct (upd_cases (pcs s) t (entry o) u) as [[-> EE]|[NX EE]]; rewrite EE in H; [destruct o; discriminate|]. rewrite ID in H. discriminate.
    + apply KEEP; rewrite ?EP; auto; destruct o; auto.
  - destruct (lstep N t (sh s) (pcs s t)) as [[[[h p] bc] es]|] eqn:LS; [|discriminate]. injection S as <-.
    destruct (lstep_wake _ _ _ _ _ _ _ _ LS (i_shape _ _ I t) HN HC) as (G1 & G2 & G3 & G4 & G5 & G6 & G7 & G8).
    set (f := if bc then fun u => wakeq (pcs s u) else pcs s).
    assert (FR : forall u, isreset (f u) = isreset (pcs s u)) by (intros u; unfold f; destruct bc; [apply isreset_wake|reflexivity]).
    assert (FC : forall u, clearing (f u) = clearing (pcs s u)) by (intros u; unfold f; destruct bc; [apply clearing_wake|reflexivity]).
    assert (FP : forall u, pre (f u) = pre (pcs s u)) by (intros u; unfold f; destruct bc; [apply pre_wake|reflexivity]).
    assert (FM : forall u, mid (f u) = mid (pcs s u)) by (intros u; unfold f; destruct bc; [apply mid_wake|reflexivity]).
    assert (TI : pcs s t <> Idle) by (intros E; rewrite E in LS; discriminate).
    assert (FI : forall u, pcs s u = Idle -> f u = Idle) by (intros u E; unfold f; destruct bc; rewrite E; reflexivity).
    constructor; cbn [sh pcs log].
    + intros x u H NE. destruct (upd_cases f t p x) as [[-> EE]|[NX EE]]; rewrite EE in H.
      * rewrite upd_other by auto. apply FI. apply (DA t); auto.
      * rewrite FR in H. exfalso. apply TI. apply (DA x); auto.
    + intros x H. destruct (upd_cases f t p x) as [[-> EE]|[NX EE]]; rewrite EE in H.
      * destruct (G7 H) as [[X Y]|X]; auto. rewrite Y. apply (DC t X).
      * rewrite FC in H. exfalso. apply TI. apply (DA x); auto. apply clearing_reset. exact H.
    + intros H. destruct (G1 H) as [X|[X Y]].
      * destruct (DS X) as [E|(x & E)].
        -- destruct (G5 E) as [Z|Z]; auto. right. exists t. rewrite upd_same. exact Z.
        -- right. destruct (Nat.eq_dec x t) as [->|NE]; [exists t; rewrite upd_same; destruct (G3 E) as [Z|(Z & _)]; congruence|]. exists x. rewrite upd_other, FP by auto. exact E.
      * left. rewrite Y, (DC t X). exact (proj1 HN).
    + intros u H. assert (SLP : bc = false /\ ((exists v, asleep (pcs s v) = true) \/ (stop (sh s) = true /\ counter h = counter (sh s)))).
      { destruct (upd_cases f t p u) as [[-> EE]|[NE EE]]; rewrite EE in H.
        - split; [destruct bc; auto; rewrite G6 in H by auto; discriminate|]. right. apply G2. exact H.
        - unfold f in H. destruct bc; [rewrite asleep_wake in H; discriminate|]. split; auto. left. exists u. exact H. }
      destruct SLP as (BF & SLP). assert (HP : counter (sh s) < N \/ exists x, mid (pcs s x) = true).
      { destruct SLP as [(v & V)|(V1 & V2)]; [apply (DL v V)|]. destruct (DS V1) as [E|(x & E)]; auto. right. exists x. apply pre_mid. exact E. }
      destruct HP as [E|(x & E)].
      * destruct (G5 E) as [Z|Z]; auto. right. exists t. rewrite upd_same. apply pre_mid. exact Z.
      * right. destruct (Nat.eq_dec x t) as [->|NE]; [exists t; rewrite upd_same; destruct (G4 E) as [Z|Z]; [exact Z|congruence]|]. exists x. rewrite upd_other, FM by auto. exact E.
  - destruct (pcs s t) as [| | | | |b e| | | | | | | | | | | | | | | | ] eqn:EP; try discriminate. destruct e; try discriminate. destruct timed; [|discriminate]. injection S as <-.
    apply KEEP; rewrite ?EP; auto. left. discriminate.
  - destruct sp; [|discriminate]. destruct (pcs s t) as [| | | | |b e| | | | | | | | | | | | | | | | ] eqn:EP; try discriminate. destruct e; try discriminate. injection S as <-.
    apply KEEP; rewrite ?EP; auto. left. discriminate.
Qed.

(** Who is released, without spurious wake-ups. *)
Definition winning (p : pc) : bool := match p with WUnlock _ true | WPost _ _ | WRet _ true | WWait _ (WaitWoken ROk | WaitUnlock ROk | EsDone ROk) | PUnlock | PPost _ => true | _ => false end.
Definition closing (p : pc) : bool := match p with RReset (EsDone _) | FReset (EsDone _) => false | p => clearing p end.
Record winv (N : Z) (s : sys) : Prop := {
  w_win : forall t, winning (pcs s t) = true -> counter (sh s) = N;
  w_stop : stop (sh s) = false -> counter (sh s) = N \/ exists t, closing (pcs s t) = true
}.
Lemma lstep_win N t h p h' p' bc es : lstep N t h p = Some (h', p', bc, es) -> shape p = true -> 0 < N < 2 ^ 32 - 1 -> 0 <= counter h <= N ->
  (winning p' = true -> (winning p = true /\ counter h' = counter h) \/ counter h' = N \/ (stop h = false /\ counter h' = counter h /\ isreset p = false)) /\
  (counter h = N -> isreset p = false -> counter h' = N) /\
  (stop h' = false -> stop h = false \/ (winning p = true /\ counter h' = counter h)) /\
  (bc = true -> winning p = true /\ counter h' = counter h) /\
  (closing p = true -> closing p' = true \/ stop h' = true) /\ (counter h = N -> counter h' = N \/ closing p' = true) /\
  (winning p = true -> isreset p = false).
Proof.
  intros L SH HN HC. lcase p h L SH; cbn [winning closing clearing isreset counter stop setc]; repeat split; intros; try discriminate; auto.
  all: rewrite ?uwrap_id in * by lia.
  all: try (destruct (Z.gtb_spec (counter h + 1) N); try destruct (Z.eqb_spec (counter h + 1) N); auto; try discriminate; try lia; try (left; lia); try (right; left; lia)).
Qed.
Lemma winning_wake p : winning (wakeq p) = true -> winning p = true \/ exists b b', p = WWait b (WaitSleep b').
Proof. destruct p; auto. destruct e; auto. intros _. right. eauto. Qed.
Lemma closing_wake p : closing (wakeq p) = closing p. Proof. destruct p; auto. Qed.
Lemma closing_reset p : closing p = true -> isreset p = true. Proof. destruct p; auto. Qed.
Lemma winv_step N s a s' : 0 < N < 2 ^ 32 - 1 -> inv N s -> dinv N s -> winv N s -> step N false s a = Some s' -> disciplined (log s') -> winv N s'.
Proof.
  intros HN I [DA DC DS DL] [WW WS] S DI.
  assert (HC : 0 <= counter (sh s) <= N) by (rewrite (i_cnt _ _ I); apply cnt_range; lia).
  destruct a as [t o|t|t|t]; cbn [step] in S.
  - destruct (pcs s t) eqn:EP; try discriminate. injection S as <-. constructor; cbn [sh pcs log].
    + intros u H. destruct (upd_cases (pcs s) t (entry o) u) as [[-> EE]|[NX EE]]; rewrite EE in H; [destruct o; discriminate|]. apply (WW u H).
    + intros H. destruct (WS H) as [X|(x & X)]; auto. right. exists x. rewrite upd_other; auto. intros ->. rewrite EP in X. discriminate.
  - destruct (lstep N t (sh s) (pcs s t)) as [[[[h p] bc] es]|] eqn:LS; [|discriminate]. injection S as <-.
    destruct (lstep_win _ _ _ _ _ _ _ _ LS (i_shape _ _ I t) HN HC) as (K1 & K2 & K3 & K4 & K5 & K6 & K7).
    assert (TI : pcs s t <> Idle) by (intros E; rewrite E in LS; discriminate).
    assert (OT : forall x, x <> t -> isreset (pcs s x) = false). { intros x NX. destruct (isreset (pcs s x)) eqn:E; auto. exfalso. apply TI. apply (DA x); auto. }
    set (f := if bc then fun u => wakeq (pcs s u) else pcs s).
    assert (FC : forall u, closing (f u) = closing (pcs s u)) by (intros u; unfold f; destruct bc; [apply closing_wake|reflexivity]).
    assert (TR : forall x, x <> t -> pcs s x <> Idle -> isreset (pcs s t) = false). { intros x NX NI. destruct (isreset (pcs s t)) eqn:E; auto. exfalso. apply NI. apply (DA t); auto. }
    constructor; cbn [sh pcs log].
    + intros u H. destruct (upd_cases f t p u) as [[-> EE]|[NX EE]]; rewrite EE in H.
      * destruct (K1 H) as [[X Y]|[X|(X & Y & Z)]]; auto; rewrite Y; [apply (WW t X)|]. destruct (WS X) as [E|(x & E)]; auto. exfalso.
        destruct (Nat.eq_dec x t) as [->|NE]; [apply closing_reset in E; congruence|]. apply closing_reset in E. rewrite OT in E by auto. discriminate.
      * unfold f in H. destruct bc; [destruct (K4 eq_refl) as [X Y]; rewrite Y; apply (WW t X)|].
        apply K2; [apply (WW u H)|]. apply (TR u); auto. intros E. rewrite E in H. discriminate.
    + intros H. destruct (K3 H) as [X|[X Y]]; [|left; rewrite Y; apply (WW t X)]. destruct (WS X) as [E|(x & E)].
      * destruct (K6 E) as [Z|Z]; auto. right. exists t. rewrite upd_same. exact Z.
      * right. destruct (Nat.eq_dec x t) as [->|NE]; [exists t; rewrite upd_same; destruct (K5 E) as [Z|Z]; [exact Z|congruence]|]. apply closing_reset in E. rewrite OT in E by auto. discriminate.
  - destruct (pcs s t) as [| | | | |b e| | | | | | | | | | | | | | | | ] eqn:EP; try discriminate. destruct e; try discriminate. destruct timed; [|discriminate]. injection S as <-. constructor; cbn [sh pcs log].
    + intros u H. destruct (upd_cases (pcs s) t (WWait b (WaitWoken RTimeout)) u) as [[-> EE]|[NX EE]]; rewrite EE in H; [discriminate|]. apply (WW u H).
    + intros H. destruct (WS H) as [X|(x & X)]; auto. right. exists x. rewrite upd_other; auto. intros ->. rewrite EP in X. discriminate.
  - discriminate.
Qed.

(** * The theorems *)
Lemma disciplined_app k l : disciplined (k ++ l) -> disciplined l.
Proof. induction k as [|[u e] k IH]; cbn; auto. intros (H & _). auto. Qed.
Lemma step_log N sp s a s' : step N sp s a = Some s' -> exists k, log s' = k ++ log s.
Proof.
  destruct a as [t o|t|t|t]; cbn [step].
  - destruct (pcs s t); try discriminate. intros E. injection E as <-. eexists [_]. reflexivity.
  - destruct (lstep N t (sh s) (pcs s t)) as [[[[h p] bc] es]|]; [|discriminate]. intros E. injection E as <-. eexists. reflexivity.
  - destruct (pcs s t); try discriminate. destruct e; try discriminate. destruct timed0; [|discriminate]. intros E. injection E as <-. exists []. reflexivity.
  - destruct sp; [|discriminate]. destruct (pcs s t); try discriminate. destruct e; try discriminate. intros E. injection E as <-. exists []. reflexivity.
Qed.
Lemma all_exec N sp sched s : 0 < N < 2 ^ 32 - 1 -> exec (step N sp) init sched = Some s -> inv N s /\ (disciplined (log s) -> dinv N s /\ (sp = false -> winv N s)).
Proof.
  intros HN. apply (exec_inv (step N sp) (fun s => inv N s /\ (disciplined (log s) -> dinv N s /\ (sp = false -> winv N s)))).
  - intros s0 a s1 (I & D) S. split; [exact (inv_step _ _ _ _ _ HN I S)|]. intros DI. destruct (step_log _ _ _ _ _ S) as (k & LG).
    destruct D as [D W]; [apply (disciplined_app k); rewrite <- LG; exact DI|]. split; [exact (dinv_step _ _ _ _ _ HN I D S DI)|].
    intros ->. exact (winv_step _ _ _ _ HN I D (W eq_refl) S DI).
  - split; [apply inv_init|]. intros _. split; [|intros _]; constructor; cbn; try discriminate; auto. intros _. left. apply HN.
Qed.

(** Each WaitForAll arrives exactly once between its call and its return, and so on (see [next]). *)
Theorem C23_one_arrival N sp sched s t : 0 < N < 2 ^ 32 - 1 -> exec (step N sp) init sched = Some s -> phase_of (log s) t <> None.
Proof. intros HN E. destruct (all_exec N sp sched s HN E) as [I _]. rewrite (i_phase _ _ I). discriminate. Qed.
Lemma lstep_ret_all N t h p h' p' bc es timed : lstep N t h p = Some (h', p', bc, es) -> es = [ERet (OAll timed) true] -> shape p = true -> winning p = true.
Proof. intros L ES SH. lcase p h L SH; try discriminate ES; reflexivity. Qed.
(** No WaitForAll returns success before all the actors have arrived, or a pass was forced. *)
Theorem C23_not_before_all N sched s a s' t b : 0 < N < 2 ^ 32 - 1 -> exec (step N false) init sched = Some s -> disciplined (log s) ->
  step N false s a = Some s' -> log s' = (t, ERet (OAll b) true) :: log s -> open_for N (log s).
Proof.
  intros HN E DI S L. destruct (all_exec N false sched s HN E) as [I D]. destruct (D DI) as [_ W]. specialize (W eq_refl).
  apply cnt_open; [apply HN|]. rewrite <- (i_cnt _ _ I). apply (w_win _ _ W t).
  assert (NC : forall x, x :: log s <> log s). { intros x Z. apply (f_equal (@length _)) in Z. cbn in Z. lia. }
  destruct a as [v o|v|v|v]; cbn [step] in S.
  - destruct (pcs s v); try discriminate. injection S as <-. discriminate.
  - destruct (lstep N v (sh s) (pcs s v)) as [[[[h p] bc] es]|] eqn:LS; [|discriminate]. injection S as <-. cbn [log] in L.
    destruct es as [|e [|e2 es]]; cbn [map app] in L; [symmetry in L; exfalso; exact (NC _ L)| |].
    + injection L as -> ->. pose proof (i_shape _ _ I t) as SH. exact (lstep_ret_all _ _ _ _ _ _ _ _ _ LS eq_refl SH).
    + apply (f_equal (@length _)) in L. cbn in L. rewrite app_length in L. cbn in L. lia.
  - destruct (pcs s v); try discriminate. destruct e; try discriminate. destruct timed0; [|discriminate]. injection S as <-. symmetry in L. exfalso. exact (NC _ L).
  - discriminate.
Qed.
(** Reset does not clear the semaphore before all the actors have arrived, or a pass was forced. *)
Theorem C23_reset_not_before_all N sp sched s a s' t : 0 < N < 2 ^ 32 - 1 -> exec (step N sp) init sched = Some s ->
  step N sp s a = Some s' -> log s' = (t, EClear) :: log s -> phase_of (log s) t = Some (In OReset) -> open_for N (log s).
Proof.
  intros HN E S L PH. destruct (all_exec N sp sched s HN E) as [I _]. rewrite (i_phase _ _ I) in PH.
  apply cnt_open; [apply HN|]. rewrite <- (i_cnt _ _ I).
  assert (NC : forall x, x :: log s <> log s). { intros x Z. apply (f_equal (@length _)) in Z. cbn in Z. lia. }
  destruct a as [v o|v|v|v]; cbn [step] in S.
  - destruct (pcs s v); try discriminate. injection S as <-. discriminate.
  - destruct (lstep N v (sh s) (pcs s v)) as [[[[h p] bc] es]|] eqn:LS; [|discriminate]. injection S as <-. cbn [log] in L.
    destruct es as [|e [|e2 es]]; cbn [map app] in L; [symmetry in L; exfalso; exact (NC _ L)| |].
    + injection L as -> ->. pose proof (i_shape _ _ I t) as SH. injection PH as PH. revert LS SH PH. generalize (pcs s t). intros q LS SH PH.
      remember [EClear] as es eqn:ES. lcase q (sh s) LS SH; try discriminate ES; try discriminate PH. apply Z.geb_le in GE. rewrite (i_cnt _ _ I) in *. pose proof (cnt_range N (log s) ltac:(lia)). lia.
    + apply (f_equal (@length _)) in L. cbn in L. rewrite app_length in L. cbn in L. lia.
  - destruct (pcs s v); try discriminate. destruct e; try discriminate. destruct timed0; [|discriminate]. injection S as <-. symmetry in L. exfalso. exact (NC _ L).
  - destruct sp; [|discriminate]. destruct (pcs s v); try discriminate. destruct e; try discriminate. injection S as <-. symmetry in L. exfalso. exact (NC _ L).
Qed.
(** Some thread can always go on, as long as one is in a call and not asleep. *)
Theorem C23_no_deadlock N sp sched s t : 0 < N < 2 ^ 32 - 1 -> exec (step N sp) init sched = Some s -> pcs s t <> Idle -> asleep (pcs s t) = false ->
  exists u s', step N sp s (AStep u) = Some s'.
Proof.
  intros HN E NI NA. destruct (all_exec N sp sched s HN E) as [I _].
  assert (MV : forall u, pcs s u <> Idle -> asleep (pcs s u) = false -> (owner (sh s) = None \/ owns (pcs s u) = true) -> (holding (pcs s u) = true \/ qowner (sh s) = None \/ owns (pcs s u) = true) -> exists s', step N sp s (AStep u) = Some s').
  { intros u NIu NAu OW QW. assert (X : exists x, lstep N u (sh s) (pcs s u) = Some x).
    { pose proof (i_shape _ _ I u) as SH. revert NIu NAu OW QW SH. generalize (pcs s u). intros p NIu NAu OW QW SH.
      destruct p as [|b|b|b cond|b e|b e|b ok| | |e|ok|ok| | | |e| | | | |e| ]; cbn [lstep]; try (eexists; reflexivity); try contradiction;
        try (destruct QW as [QW|[QW|QW]]; [discriminate|rewrite QW; eexists; reflexivity|discriminate]);
        try (destruct (counter (sh s) >=? N); eexists; reflexivity);
        destruct e; try discriminate SH; try discriminate NAu; cbn [es_step]; try (eexists; reflexivity); try (destruct OW as [OW|OW]; [rewrite OW; eexists; reflexivity|discriminate]); destruct (stop (sh s)); eexists; reflexivity. }
    destruct X as [[[[h p] bc] es] X]. cbn [step]. rewrite X. eexists. reflexivity. }
  destruct (owner (sh s)) as [u|] eqn:OW.
  - exists u. pose proof (i_own2 _ _ I u OW) as X. apply MV; auto; destruct (pcs s u); try discriminate; try (destruct e; try discriminate; reflexivity); reflexivity.
  - destruct (qowner (sh s)) as [u|] eqn:QW.
    + exists u. pose proof (i_hold2 _ _ I u QW) as X. apply MV; auto; destruct (pcs s u); try discriminate; auto.
    + exists t. apply MV; auto.
Qed.
(** Every call takes a bounded number of actions. *)
Definition erank (e : espc) : nat :=
  match e with PostLock => 4 | PostStore => 3 | PostUnlock => 2 | PostBroadcast => 1 | ResetLock => 3 | ResetUnlock => 2 | ResetStore => 1
             | WaitLock _ => 5 | WaitCheck _ => 4 | WaitSleep _ => 3 | WaitWoken _ => 2 | WaitUnlock _ => 1 | EsDone _ => 0 end%nat.
Definition rank (p : pc) : nat :=
  match p with
  | Idle => 0 | WLock _ => 10 | WBody _ => 9 | WUnlock _ _ => 8 | WPost _ e => 2 + erank e | WWait _ e => 2 + erank e | WRet _ _ => 1
  | RLock => 8 | RBody => 7 | RReset e => 3 + erank e | RUnlock _ => 2 | RRet _ => 1
  | FLock => 8 | FBody => 7 | FUnlock => 6 | FReset e => 2 + erank e | FRet => 1
  | PLock => 9 | PBody => 8 | PUnlock => 7 | PPost e => 2 + erank e | PRet => 1
  end%nat.
Theorem C23_calls_end N sp sched s t s' : 0 < N < 2 ^ 32 - 1 -> exec (step N sp) init sched = Some s -> step N sp s (AStep t) = Some s' -> (rank (pcs s' t) < rank (pcs s t))%nat.
Proof.
  intros HN E. destruct (all_exec N sp sched s HN E) as [I _]. cbn [step]. destruct (lstep N t (sh s) (pcs s t)) as [[[[h p] bc] es]|] eqn:LS; [|discriminate]. intros X. injection X as <-. cbn [pcs]. rewrite upd_same.
  pose proof (i_shape _ _ I t) as SH. revert LS SH. generalize (pcs s t). clear. intros q LS SH. lcase q (sh s) LS SH; cbn [rank erank]; lia.
Qed.
(** Once all have arrived (or a pass was forced), a thread is asleep only as long as a thread that has arrived or forced has not returned... *)
Theorem C23_released N sp sched s t : 0 < N < 2 ^ 32 - 1 -> exec (step N sp) init sched = Some s -> disciplined (log s) -> open_for N (log s) -> asleep (pcs s t) = true ->
  exists p, asleep (pcs s p) = false /\ ((exists b, phase_of (log s) p = Some (Dn (OAll b))) \/ phase_of (log s) p = Some (Dn OForcePass)).
Proof.
  intros HN E DI O A. destruct (all_exec N sp sched s HN E) as [I D]. destruct (D DI) as [DD _]. destruct (d_sleep _ _ DD t A) as [X|(p & P)].
  - rewrite (i_cnt _ _ I) in X. apply cnt_open in O; [|apply HN]. lia.
  - exists p. rewrite (i_phase _ _ I). destruct (pcs s p); try discriminate P; cbn; split; eauto.
Qed.
(** ... so when all the calls have gone as far as they can, nobody is left inside. *)
Theorem C23_all_pass N sp sched s : 0 < N < 2 ^ 32 - 1 -> exec (step N sp) init sched = Some s -> disciplined (log s) -> open_for N (log s) ->
  (forall u, step N sp s (AStep u) = None) -> forall t, pcs s t = Idle.
Proof.
  intros HN E DI O Q t. assert (IA : forall u, asleep (pcs s u) = false -> pcs s u = Idle).
  { intros u U. assert (X : pcs s u = Idle \/ pcs s u <> Idle) by (destruct (pcs s u); auto; right; discriminate). destruct X as [X|X]; auto.
    destruct (C23_no_deadlock N sp sched s u HN E X U) as (v & s' & V). rewrite Q in V. discriminate. }
  destruct (asleep (pcs s t)) eqn:A; auto. destruct (C23_released N sp sched s t HN E DI O A) as (p & NA & P).
  destruct (all_exec N sp sched s HN E) as [I _]. rewrite (i_phase _ _ I) in P. rewrite (IA p NA) in P. cbn in P. destruct P as [[b P]|P]; discriminate.
Qed.

(** * What does not hold *)
(** A Reset made when the last actor has arrived but not yet posted succeeds, and the late post releases the first actor of the next
    round alone. *)
Theorem C23_early_release_refuted :
  exists sched s, exec (step 2 false) init sched = Some s /\ hd_error (log s) = Some (2%nat, ERet (OAll false) true) /\ arrived (log s) = 1 /\ forced (log s) = false.
Proof.
  exists (ACall 0%nat (OAll false) :: repeat (AStep 0%nat) 5 ++ ACall 1%nat (OAll false) :: repeat (AStep 1%nat) 3 ++ ACall 3%nat OReset :: repeat (AStep 3%nat) 8 ++
          ACall 2%nat (OAll false) :: repeat (AStep 2%nat) 5 ++ repeat (AStep 1%nat) 4 ++ repeat (AStep 2%nat) 4).
  eexists. split; [vm_compute; reflexivity|]. repeat split.
Qed.
(** A Reset made when all have arrived and the semaphore is posted strands an actor that has not yet looked at the event: everything
    has gone as far as it can, all the actors had arrived, and one of them is asleep. *)
Theorem C23_stranded_refuted :
  exists sched s, exec (step 2 false) init sched = Some s /\ List.In (1%nat, ERet (OAll false) true) (log s) /\ (forall u, step 2 false s (AStep u) = None) /\ asleep (pcs s 0%nat) = true.
Proof.
  exists (ACall 0%nat (OAll false) :: repeat (AStep 0%nat) 3 ++ ACall 1%nat (OAll false) :: repeat (AStep 1%nat) 9 ++ ACall 3%nat OReset :: repeat (AStep 3%nat) 8 ++ repeat (AStep 0%nat) 2).
  eexists. split; [vm_compute; reflexivity|]. split; [vm_compute; auto|]. split; [|vm_compute; reflexivity].
  intros [|[|[|[|u]]]]; vm_compute; reflexivity.
Qed.

(** Three actors; the first two sleep, the third releases them; after a reset made when they are gone the next one sleeps again. *)
Example C23_case :
  exists s, exec (step 3 false) init (ACall 0%nat (OAll false) :: repeat (AStep 0%nat) 5 ++ ACall 1%nat (OAll true) :: repeat (AStep 1%nat) 5 ++ ACall 2%nat (OAll false) :: repeat (AStep 2%nat) 9 ++
        repeat (AStep 0%nat) 4 ++ repeat (AStep 1%nat) 4 ++ ACall 0%nat OReset :: repeat (AStep 0%nat) 8 ++ ACall 2%nat (OAll false) :: repeat (AStep 2%nat) 5) = Some s /\
    disciplined (log s) /\ arrived (log s) = 1 /\ asleep (pcs s 2%nat) = true /\
    firstn 3 (skipn 4 (log s)) = [(0%nat, ECall OReset); (1%nat, ERet (OAll true) true); (0%nat, ERet (OAll false) true)].
Proof.
  eexists. split; [vm_compute; reflexivity|]. split; [|split; [reflexivity|split; reflexivity]].
  cbn -[phase_of]. repeat match goal with |- _ /\ _ => split end; auto; try discriminate; intros _ [|[|[|t]]]; reflexivity.
Qed.

Print Assumptions C23_one_arrival.
Print Assumptions C23_not_before_all.
Print Assumptions C23_reset_not_before_all.
Print Assumptions C23_no_deadlock.
Print Assumptions C23_calls_end.
Print Assumptions C23_released.
Print Assumptions C23_all_pass.
Print Assumptions C23_early_release_refuted.
Print Assumptions C23_stranded_refuted.
