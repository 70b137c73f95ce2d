(** C38: the number of threads of a multi-client service. *)
From Verif Require Import Base Conc ThreadPool_Model.
Open Scope nat_scope.

(** ** Specification *)
(** The thread runs: it was started and is not over. *)
Definition alive (p : pc) : Prop := match p with Off | Dead => False | _ => True end.
Definition running (s : st) (l : list nat) : Prop := NoDup l /\ forall t, In t l <-> alive (pcs s t).
(** The thread is changing the pool: it is in AddThread, or between its decision to leave and the end of RemoveThread. *)
Definition changing (p : pc) : Prop := match p with AddChk | AddStart | AddIns _ | LeaveChk | RemSize _ | RemGet _ | RemDel => True | _ => False end.
(** In no state of the execution are two threads changing the pool. The code does not ensure it. *)
Definition one_at_a_time (c : cfg) (sched : list act) : Prop :=
  forall p q s, sched = p ++ q -> exec (step c) (init c) p = Some s -> forall t u, changing (pcs s t) -> changing (pcs s u) -> t = u.

(** ** Invariant *)
Definition ins (p : pc) (n : nat) : Prop := p = AddIns n.
Record INV (c : cfg) (s : st) : Prop := {
  I_nd : NoDup (pool s);
  I_lo : cmin c <= length (pool s);
  I_hi : length (pool s) <= cmax c;
  I_off : forall t, nxt s <= t -> pcs s t = Off;
  I_pool : forall t, In t (pool s) -> alive (pcs s t);
  I_alive : forall t, alive (pcs s t) -> In t (pool s) \/ exists u, pcs s u = AddIns t;
  I_pc : forall t, match pcs s t with
    | AddStart => length (pool s) < cmax c
    | AddIns n => length (pool s) < cmax c /\ n < nxt s /\ ~ In n (pool s) /\ alive (pcs s n)
    | RemSize i => cmin c < length (pool s) /\ i <= length (pool s) /\ In t (skipn i (pool s))
    | RemGet i => cmin c < length (pool s) /\ i < length (pool s) /\ In t (skipn i (pool s))
    | RemDel => cmin c < length (pool s) /\ In t (pool s)
    | Crash => False
    | _ => True end }.
Definition excl (s : st) : Prop := forall t u, changing (pcs s t) -> changing (pcs s u) -> t = u.

Lemma remove1_in t l : forall x, NoDup l -> (In x (remove1 t l) <-> In x l /\ x <> t).
Proof.
  induction l as [|y l IH]; intros x ND; cbn [remove1 In]; [tauto|]. inversion ND as [|? ? N1 N2]; subst.
  destruct (Nat.eqb_spec y t) as [->|N].
  - split; [intro H; split; [auto|intros ->; auto]|intros [[H|H] K]; [congruence|auto]].
  - cbn [In]. rewrite IH by auto. split; [intros [H|H]; [subst; auto|tauto]|tauto].
Qed.
Lemma remove1_nd t l : NoDup l -> NoDup (remove1 t l).
Proof.
  induction l as [|y l IH]; intro ND; cbn [remove1]; [constructor|]. inversion ND as [|? ? N1 N2]; subst.
  destruct (y =? t); [exact N2|]. constructor; [|auto]. rewrite remove1_in by auto. tauto.
Qed.
Lemma remove1_len t l : In t l -> S (length (remove1 t l)) = length l.
Proof.
  induction l as [|y l IH]; [easy|]. cbn [remove1 In length]. destruct (Nat.eqb_spec y t); [auto|]. intros [H|H]; [congruence|]. cbn [length]. rewrite IH; auto.
Qed.
Lemma skipn_nth (l : list nat) : forall i x, nth_error l i = Some x -> skipn i l = x :: skipn (S i) l.
Proof. induction l as [|y l IH]; intros [|i] x E; try discriminate; cbn in *; [congruence|]. rewrite (IH i x E). reflexivity. Qed.

Lemma NoDup_snoc (x : nat) l : NoDup l -> ~ In x l -> NoDup (l ++ [x]).
Proof.
  induction l as [|y l IH]; intros ND N; cbn [app]; [constructor; [easy|constructor]|]. inversion ND as [|? ? N1 N2]; subst. cbn [In] in N.
  constructor; [|apply IH; tauto]. intro H. apply in_app_or in H. destruct H as [H|[H|[]]]; [auto|]. apply N. auto.
Qed.

Lemma inv_init c : cmin c <= cmax c -> INV c (init c).
Proof.
  intro L. split; unfold init; cbn [pool pcs nxt].
  - apply seq_NoDup.
  - rewrite seq_length. lia.
  - rewrite seq_length. lia.
  - intros t H. destruct (Nat.ltb_spec t (cmin c)); [lia|reflexivity].
  - intros t H. apply in_seq in H. destruct (Nat.ltb_spec t (cmin c)); [exact I|lia].
  - intros t H. left. apply in_seq. destruct (Nat.ltb_spec t (cmin c)); [lia|destruct H].
  - intro t. destruct (t <? cmin c); exact I.
Qed.
Lemma inv_set c s t p : INV c s -> (alive (pcs s t) <-> alive p) -> (forall n, pcs s t <> AddIns n) -> (forall n, p <> AddIns n) -> pcs s t <> Off -> p <> Dead ->
  match p with
    | AddStart => length (pool s) < cmax c
    | AddIns n => False
    | RemSize i => cmin c < length (pool s) /\ i <= length (pool s) /\ In t (skipn i (pool s))
    | RemGet i => cmin c < length (pool s) /\ i < length (pool s) /\ In t (skipn i (pool s))
    | RemDel => cmin c < length (pool s) /\ In t (pool s)
    | Crash => False
    | _ => True end -> INV c (set s t p).
Proof.
  intros V AL NI NI' NO ND HP. destruct V as [V1 V2 V3 V4 V5 V6 V7]. split; unfold set; cbn [pool pcs nxt].
  - exact V1.
  - exact V2.
  - exact V3.
  - intros x H. destruct (upd_cases (pcs s) t p x) as [[-> ->]|[N ->]]; [|auto].
    specialize (V4 t H). contradiction.
  - intros x H. destruct (upd_cases (pcs s) t p x) as [[-> ->]|[N ->]]; [apply AL; auto|auto].
  - intros x H. assert (A : alive (pcs s x)). { destruct (upd_cases (pcs s) t p x) as [[E E']|[N E']]; rewrite E' in H; [subst x; apply AL; auto|auto]. }
    destruct (V6 x A) as [K|(u & K)]; [auto|]. right. exists u. rewrite upd_other; [exact K|]. intros ->. exact (NI _ K).
  - intro x. destruct (upd_cases (pcs s) t p x) as [[-> ->]|[N ->]].
    + destruct p; try exact HP. destruct HP.
    + specialize (V7 x). destruct (pcs s x) eqn:EX; auto. destruct V7 as (A & B & C & D). repeat split; auto.
      destruct (upd_cases (pcs s) t p n) as [[-> ->]|[N' ->]]; [apply AL; auto|auto].
Qed.

Lemma inv_step c s a s' : INV c s -> excl s -> excl s' -> step c s a = Some s' -> INV c s'.
Proof.
  intros V X X' E. destruct a as [t|t|t ok]; cbn [step] in E; destruct (pcs s t) eqn:P; try discriminate; try (injection E as <-).
  - apply inv_set; auto; rewrite ?P; try discriminate; cbn; tauto.
  - apply inv_set; auto; rewrite ?P; try discriminate; cbn; tauto.
  - destruct (Nat.leb_spec (cmax c) (length (pool s))) as [L|L]; apply inv_set; auto; rewrite ?P; try discriminate; cbn; tauto.
  - (* Start *)
    destruct ok; [|injection E as <-; apply inv_set; auto; rewrite ?P; try discriminate; cbn; tauto].
    injection E as <-. assert (NT : nxt s <> t). { intro Q. rewrite (I_off c s V) in P by lia. discriminate. }
    assert (TL : t < nxt s). { destruct (Nat.lt_ge_cases t (nxt s)); [auto|]. rewrite (I_off c s V) in P by auto. discriminate. }
    pose proof (I_off c s V (nxt s) (le_n _)) as O. destruct V as [V1 V2 V3 V4 V5 V6 V7].
    pose proof (V7 t) as K. rewrite P in K.
    assert (G : forall x, x <> t -> x <> nxt s -> upd (upd (pcs s) (nxt s) Run) t (AddIns (nxt s)) x = pcs s x) by (intros; rewrite !upd_other by auto; reflexivity).
    assert (Gn : upd (upd (pcs s) (nxt s) Run) t (AddIns (nxt s)) (nxt s) = Run) by (rewrite upd_other by auto; apply upd_same).
    assert (Gt : upd (upd (pcs s) (nxt s) Run) t (AddIns (nxt s)) t = AddIns (nxt s)) by apply upd_same.
    set (f := upd (upd (pcs s) (nxt s) Run) t (AddIns (nxt s))) in *. clearbody f.
    split; cbn [pool pcs nxt]; auto.
    + intros x H. rewrite G by lia. apply V4. lia.
    + intros x H. destruct (Nat.eq_dec x t) as [->|N]; [rewrite Gt; exact I|]. destruct (Nat.eq_dec x (nxt s)) as [->|N']; [rewrite Gn; exact I|]. rewrite G by auto. auto.
    + intros x H. destruct (Nat.eq_dec x (nxt s)) as [->|N']; [right; exists t; exact Gt|].
      assert (A : alive (pcs s x)). { destruct (Nat.eq_dec x t) as [->|N]; [rewrite P; exact I|]. rewrite G in H by auto. exact H. }
      destruct (V6 x A) as [B|(u & B)]; [auto|]. exfalso. assert (u = t); [|congruence]. apply X; [rewrite B; exact I|rewrite P; exact I].
    + intro x. destruct (Nat.eq_dec x t) as [->|N].
      * rewrite Gt. split; [exact K|]. split; [lia|]. rewrite Gn. split; [|exact I]. intro H. specialize (V5 _ H). rewrite O in V5. exact V5.
      * destruct (Nat.eq_dec x (nxt s)) as [->|N']; [rewrite Gn; exact I|]. rewrite G by auto. specialize (V7 x).
        destruct (pcs s x) eqn:EX; auto. exfalso. apply N. apply X; [rewrite EX; exact I|rewrite P; exact I].
  - (* Insert *)
    destruct V as [V1 V2 V3 V4 V5 V6 V7]. pose proof (V7 t) as K. rewrite P in K. destruct K as (K1 & K2 & K3 & K4).
    split; cbn [pool pcs nxt]; rewrite ?app_length; cbn [length]; try lia.
    + apply NoDup_snoc; auto.
    + intros x H. rewrite upd_other by (intros ->; rewrite V4 in P by auto; discriminate). auto.
    + intros x H. apply in_app_or in H. destruct (upd_cases (pcs s) t Run x) as [[-> ->]|[N ->]]; [exact I|]. destruct H as [H|[<-|[]]]; auto.
    + intros x H. assert (A : alive (pcs s x)). { destruct (upd_cases (pcs s) t Run x) as [[E E']|[N E']]; rewrite E' in H; [subst x; rewrite P; exact I|auto]. }
      destruct (V6 x A) as [B|(u & B)]; [left; apply in_or_app; auto|]. assert (u = t) by (apply X; [rewrite B; exact I|rewrite P; exact I]). subst u.
      rewrite P in B. injection B as ->. left. apply in_or_app. right. left. reflexivity.
    + intro x. destruct (upd_cases (pcs s) t Run x) as [[-> ->]|[N ->]]; [exact I|].
      destruct (pcs s x) eqn:EX; try exact I; try (exfalso; apply N; apply X; [rewrite EX; exact I|rewrite P; exact I]).
      pose proof (V7 x) as Z. rewrite EX in Z. exact Z.
  - destruct (Nat.ltb_spec (cmin c) (length (pool s))) as [L|L]; apply inv_set; auto; rewrite ?P; try discriminate; try (cbn; tauto).
    split; [exact L|]. split; [lia|]. cbn [skipn]. destruct (I_alive c s V t) as [B|(u & B)]; [rewrite P; exact I|exact B|].
    exfalso. assert (u = t); [|congruence]. apply X; [rewrite B; exact I|rewrite P; exact I].
  - pose proof (I_pc c s V t) as K. rewrite P in K. destruct K as (K1 & K2 & K3). destruct (Nat.ltb_spec i (length (pool s))) as [L|L].
    + apply inv_set; auto; rewrite ?P; try discriminate; cbn; tauto.
    + rewrite skipn_all2 in K3 by exact L. destruct K3.
  - pose proof (I_pc c s V t) as K. rewrite P in K. destruct K as (K1 & K2 & K3). destruct (nth_error (pool s) i) as [u|] eqn:EN; [|apply nth_error_None in EN; lia].
    injection E as <-. rewrite (skipn_nth _ _ _ EN) in K3. destruct (Nat.eqb_spec u t) as [Q|N].
    + apply inv_set; auto; rewrite ?P; try discriminate; try (cbn; tauto). split; [exact K1|]. rewrite <- Q. eapply nth_error_In; exact EN.
    + apply inv_set; auto; rewrite ?P; try discriminate; try (cbn; tauto). split; [exact K1|]. split; [lia|]. destruct K3 as [K3|K3]; [contradiction|exact K3].
  - (* Delete *)
    destruct V as [V1 V2 V3 V4 V5 V6 V7]. pose proof (V7 t) as K. rewrite P in K. destruct K as (K1 & K2). pose proof (remove1_len t (pool s) K2) as RL.
    split; cbn [pool pcs nxt]; try lia.
    + apply remove1_nd. exact V1.
    + intros x H. rewrite upd_other by (intros ->; rewrite V4 in P by auto; discriminate). auto.
    + intros x H. apply remove1_in in H; [|exact V1]. rewrite upd_other by tauto. apply V5. tauto.
    + intros x H. destruct (upd_cases (pcs s) t Dead x) as [[-> E']|[N E']]; rewrite E' in H; [destruct H|].
      destruct (V6 x H) as [B|(u & B)]; [left; apply remove1_in; auto|]. exfalso. assert (u = t); [|congruence]. apply X; [rewrite B; exact I|rewrite P; exact I].
    + intro x. destruct (upd_cases (pcs s) t Dead x) as [[-> ->]|[N ->]]; [exact I|].
      destruct (pcs s x) eqn:EX; try exact I; try (exfalso; apply N; apply X; [rewrite EX; exact I|rewrite P; exact I]).
      pose proof (V7 x) as Z. rewrite EX in Z. exact Z.
Qed.
Lemma inv_run c : cmin c <= cmax c -> forall sched, one_at_a_time c sched -> forall s, exec (step c) (init c) sched = Some s -> INV c s.
Proof.
  intro L. induction sched as [|a r IH] using rev_ind; intros O s E.
  - injection E as <-. apply inv_init. exact L.
  - rewrite exec_app in E. destruct (exec (step c) (init c) r) as [s1|] eqn:E1; [|discriminate]. cbn in E. destruct (step c s1 a) as [s2|] eqn:ES; [|discriminate].
    injection E as <-. apply (inv_step c s1 a s2); [| | |exact ES].
    + apply IH; [|reflexivity]. intros p q s -> Ep. apply (O p (q ++ [a]) s); [rewrite app_assoc; reflexivity|exact Ep].
    + exact (O r [a] s1 eq_refl E1).
    + refine (O (r ++ [a]) [] s2 (eq_sym (app_nil_r _)) _). rewrite exec_app, E1. cbn. rewrite ES. reflexivity.
Qed.

(** ** The property, for the executions in which the changes of the pool do not overlap *)
Theorem C38_bounds_partial c sched s : cmin c < cmax c -> one_at_a_time c sched -> exec (step c) (init c) sched = Some s ->
  exists l, running s l /\ cmin c <= length l <= cmax c.
Proof.
  intros L O E. pose proof (inv_run c ltac:(lia) sched O s E) as V. pose proof (O sched [] s (eq_sym (app_nil_r _)) E) as X.
  destruct V as [V1 V2 V3 V4 V5 V6 V7].
  assert (D : (exists u n, pcs s u = AddIns n) \/ forall u n, pcs s u <> AddIns n).
  { assert (G : forall k, (exists u n, pcs s u = AddIns n) \/ forall u n, u < k -> pcs s u <> AddIns n).
    { induction k as [|k [IH|IH]]; [right; intros; lia|auto|]. destruct (pcs s k) eqn:EK;
      try (right; intros u n' H; destruct (Nat.eq_dec u k) as [->|N]; [congruence|apply IH; lia]). left. eauto. }
    destruct (G (nxt s)) as [H|H]; [auto|]. right. intros u n. destruct (Nat.lt_ge_cases u (nxt s)); [auto|]. rewrite V4 by auto. discriminate. }
  destruct D as [(u & n & D)|D].
  - pose proof (V7 u) as K. rewrite D in K. destruct K as (K1 & K2 & K3 & K4). exists (n :: pool s). split; [|cbn [length]; lia]. split; [constructor; auto|].
    intro t. cbn [In]. split; [intros [<-|H]; auto|]. intro A. destruct (V6 t A) as [H|(u' & H)]; [auto|].
    assert (u' = u) by (apply X; [rewrite H; exact I|rewrite D; exact I]). subst u'. left. congruence.
  - exists (pool s). split; [|lia]. split; [exact V1|]. intro t. split; [apply V5|]. intro A. destruct (V6 t A) as [H|(u & H)]; [auto|]. destruct (D _ _ H).
Qed.
(** In these executions a thread that leaves always finds itself in the pool: it never dereferences an invalid reference. *)
Theorem C38_no_crash_partial c sched s t : cmin c < cmax c -> one_at_a_time c sched -> exec (step c) (init c) sched = Some s -> pcs s t <> Crash.
Proof. intros L O E H. pose proof (I_pc c s (inv_run c ltac:(lia) sched O s E) t) as K. rewrite H in K. exact K. Qed.
Theorem C38_pool_partial c sched s : cmin c < cmax c -> one_at_a_time c sched -> exec (step c) (init c) sched = Some s ->
  (forall t, ~ changing (pcs s t)) -> running s (pool s).
Proof.
  intros L O E N. destruct (inv_run c ltac:(lia) sched O s E) as [V1 V2 V3 V4 V5 V6 V7]. split; [exact V1|]. intro t. split; [apply V5|].
  intro A. destruct (V6 t A) as [H|(u & H)]; [auto|]. destruct (N u). rewrite H. exact I.
Qed.

(** ** Without the restriction *)
(** Two threads accept clients at once: min 2, max 3, and four threads in the pool. *)
Theorem C38_above_maximum_refuted : exists sched s, exec (step (Cf 2 3)) (init (Cf 2 3)) sched = Some s /\ running s [0; 1; 2; 3] /\ pool s = [0; 1; 2; 3].
Proof.
  exists [Client 0; Client 1; Next 0 true; Next 1 true; Next 0 true; Next 1 true; Next 0 true; Next 1 true]. eexists. split; [vm_compute; reflexivity|]. split; [|reflexivity]. split.
  - repeat constructor; cbn; intuition discriminate.
  - intro t. destruct t as [|[|[|[|t]]]]; cbn; intuition (try discriminate; try lia).
Qed.
(** A new thread that accepts a client before it is in the pool: no number bounds the threads. *)
Lemma grow c : cmin c < cmax c -> 1 <= cmin c -> forall n, exists sched s t, exec (step c) (init c) sched = Some s /\ pool s = seq 0 (cmin c) /\ pcs s t = Run /\ nxt s = cmin c + n /\ (forall u, u < nxt s -> alive (pcs s u)).
Proof.
  intros L L1. induction n as [|n (sched & s & t & E & A & B & C & D)].
  - exists [], (init c), 0. split; [reflexivity|]. split; [reflexivity|]. split; [cbn [init pcs]; destruct (Nat.ltb_spec 0 (cmin c)); [reflexivity|lia]|]. split; [cbn; lia|].
    intros u H. cbn [init nxt pcs] in *. destruct (Nat.ltb_spec u (cmin c)); [exact I|lia].
  - assert (TL : nxt s <> t \/ nxt s = t) by lia. destruct TL as [TL|TL].
    + exists (sched ++ [Client t; Next t true; Next t true]). eexists. exists (nxt s). rewrite exec_app, E. cbn [exec step]. rewrite B.
      unfold set. cbn [pcs pool nxt]. rewrite upd_same, A, seq_length. destruct (Nat.leb_spec (cmax c) (cmin c)) as [L2|_]; [lia|]. cbn [exec step pcs pool nxt]. rewrite upd_same.
      split; [reflexivity|]. cbn [pcs pool nxt]. split; [reflexivity|]. split; [rewrite upd_other by auto; apply upd_same|]. split; [lia|].
      intros u H. destruct (Nat.eq_dec u t) as [->|N]; [rewrite upd_same; exact I|]. rewrite upd_other by auto. destruct (Nat.eq_dec u (nxt s)) as [->|N']; [rewrite upd_same; exact I|].
      rewrite !upd_other by auto. apply D. lia.
    + exfalso. assert (W : forall a b u, exec (step c) (init c) a = Some b -> nxt b <= u -> pcs b u = Off).
      { intros a b u Ea. revert u. refine (exec_inv (step c) (fun b => forall u, nxt b <= u -> pcs b u = Off) _ a (init c) b _ Ea).
        - intros x y z H ES u. destruct y as [w|w|w ok]; cbn [step] in ES; destruct (pcs x w) eqn:PW; try discriminate;
          try (assert (w < nxt x) by (destruct (Nat.lt_ge_cases w (nxt x)); [auto|rewrite H in PW by auto; discriminate]));
          try (destruct ok); try (destruct (nth_error (pool x) i)); injection ES as <-; unfold set; cbn [pcs nxt]; intro; rewrite ?upd_other by lia; apply H; lia.
        - intro u. cbn [init nxt pcs]. intro H. destruct (Nat.ltb_spec u (cmin c)); [lia|reflexivity]. }
      rewrite (W sched s t E) in B by lia. discriminate.
Qed.
Theorem C38_unbounded_refuted : forall c n, 1 <= cmin c -> cmin c < cmax c -> exists sched s l, exec (step c) (init c) sched = Some s /\ NoDup l /\ (forall t, In t l -> alive (pcs s t)) /\ length l >= n.
Proof.
  intros c n L1 L. destruct (grow c L L1 n) as (sched & s & t & E & A & B & C & D). exists sched, s, (seq 0 (nxt s)). split; [exact E|]. split; [apply seq_NoDup|].
  split; [intros u H; apply in_seq in H; apply D; lia|]. rewrite seq_length. lia.
Qed.
(** Two threads leave at once: min 1 and no thread is left. *)
Theorem C38_below_minimum_refuted : exists sched s, exec (step (Cf 1 3)) (init (Cf 1 3)) sched = Some s /\ running s [] /\ pool s = [].
Proof.
  exists [Client 0; Next 0 true; Next 0 true; Next 0 true; Done 0; Done 1; Next 0 true; Next 1 true; Next 0 true; Next 0 true; Next 0 true; Next 1 true; Next 1 true; Next 1 true].
  eexists. split; [vm_compute; reflexivity|]. split; [|reflexivity]. split; [constructor|]. intro t. destruct t as [|[|t]]; cbn; intuition.
Qed.
(** A thread that looks itself up while another is removed calls a method through an invalid reference. *)
Theorem C38_crash_refuted : exists sched s t, exec (step (Cf 1 3)) (init (Cf 1 3)) sched = Some s /\ pcs s t = Crash.
Proof.
  exists [Client 0; Next 0 true; Next 0 true; Next 0 true; Done 0; Done 1; Next 0 true; Next 1 true; Next 1 true; Next 1 true; Next 1 true; Next 0 true; Next 0 true; Next 0 true; Next 1 true].
  eexists. exists 1. split; [vm_compute; reflexivity|reflexivity].
Qed.
(** A new thread that is over before it is in the pool stays there for ever. *)
Theorem C38_dead_in_pool_refuted : exists sched s t, exec (step (Cf 2 4)) (init (Cf 2 4)) sched = Some s /\ In t (pool s) /\ pcs s t = Dead /\ forall u, ~ changing (pcs s u).
Proof.
  exists [Client 0; Next 0 true; Client 1; Next 1 true; Next 1 true; Next 1 true; Next 0 true; Done 3; Next 3 true; Next 3 true; Next 3 true; Next 3 true; Next 3 true; Next 3 true; Next 3 true; Next 3 true; Next 0 true].
  eexists. exists 3. split; [vm_compute; reflexivity|]. split; [right; right; right; left; reflexivity|]. split; [reflexivity|].
  intro u. destruct u as [|[|[|[|u]]]]; intro H; exact H.
Qed.
(** A client comes and goes: an execution without overlap; two threads, then three, then two. *)
Example C38_case : let sched := [Client 1; Next 1 true; Next 1 true; Next 1 true; Done 0; Next 0 true; Next 0 true; Next 0 true; Next 0 true] in
  one_at_a_time (Cf 2 3) sched /\ exists s, exec (step (Cf 2 3)) (init (Cf 2 3)) sched = Some s /\ pool s = [1; 2].
Proof.
  split; [|eexists; split; reflexivity]. intros p q s E EX.
  do 9 (destruct p as [|a p]; [injection EX as <-; intros t u; destruct t as [|[|[|t]]], u as [|[|[|u]]]; cbn; tauto|injection E as <- E; cbn in EX]).
  destruct p as [|a p]; [|discriminate]. injection EX as <-. intros t u; destruct t as [|[|[|t]]], u as [|[|[|u]]]; cbn; tauto.
Qed.
Print Assumptions C38_bounds_partial.
Print Assumptions C38_no_crash_partial.
Print Assumptions C38_pool_partial.
Print Assumptions C38_above_maximum_refuted.
Print Assumptions C38_unbounded_refuted.
Print Assumptions C38_below_minimum_refuted.
Print Assumptions C38_crash_refuted.
Print Assumptions C38_dead_in_pool_refuted.
