(** C29: references keep objects alive exactly while referenced. *)
From Verif Require Import Base Conc Ref_Model Ref_Proofs.
From Verif Require Pool_Proofs.
Open Scope nat_scope.

(** * Specification *)
(** A reference to o exists: a variable or a member of an existing object. *)
Definition referenced (s : st) (o : nat) : Prop := exists x, slot s x = Some (Some o).
(** The number of references to o. *)
Definition references (s : st) (o : nat) : nat :=
  length (filter (fun x => match slot s x with Some (Some p) => p =? o | _ => false end) (seq 0 (nslot s))).
(** [anchored s d x]: x is a variable, or a member of an object which is referenced, without going through d, by anchored references. *)
Inductive anchored (s : st) (d : nat) : nat -> Prop :=
| an_var x : slot s x <> None -> owner s x = None -> anchored s d x
| an_member x p y : slot s x <> None -> owner s x = Some p -> anchored s d y -> y <> d -> slot s y = Some (Some p) -> anchored s d x.
(** The program uses existing references and pointers, which do not depend on the reference that is overwritten. *)
Definition safe (s : st) (a : op) : Prop :=
  match a with
  | ONew _ | OVar => True
  | OCopy x => slot s x <> None
  | OAssign d x => anchored s d d /\ anchored s d x
  | OAssignT d x _ => anchored s d d /\ anchored s d x
  | OPtr d o => anchored s d d /\ exists y, anchored s d y /\ y <> d /\ slot s y = Some (Some o)
  | ORemove d => anchored s d d
  | ODestroy x => slot s x <> None /\ owner s x = None
  end.

(** * Proofs *)
Lemma filter_num P n : length (filter P (seq 0 n)) = num P n.
Proof.
  induction n as [|n IH]; [reflexivity|]. rewrite seq_S, filter_app, app_length, IH. cbn [num filter Nat.add]. destruct (P n); reflexivity.
Qed.
Lemma anchored_keeps s d : keeps_but s (anchored s d) d.
Proof.
  intros x H. destruct H as [x E O|x p y E O Y N T]; (split; [exact E|]); [auto|]. right. exists p, y. auto.
Qed.

(** * The theorems *)
Theorem C29_alive_iff_referenced ops s o : exec step init ops = Some s -> (live s o = true <-> referenced s o).
Proof.
  intro E. pose proof (exec_I _ _ E) as V. split.
  - intro L. destruct (i_cnt _ _ V o L) as [C P]. rewrite C in P. destruct (num_witness _ _ P) as (x & _ & H). exists x. apply refs_to_true. exact H.
  - intros [x H]. eapply i_live; eauto.
Qed.
Theorem C29_count ops s x o : exec step init ops = Some s -> slot s x = Some (Some o) -> number_of_references s x = references s o.
Proof.
  intros E H. pose proof (exec_I _ _ E) as V. unfold number_of_references. rewrite H. unfold references.
  change (fun x0 => match slot s x0 with Some (Some p) => p =? o | _ => false end) with (refs_to s o). rewrite filter_num.
  apply (i_cnt _ _ V o (i_live _ _ V x o H)).
Qed.
(** Every object that was created and is no longer referenced has been destroyed, once, and no other. *)
Theorem C29_destroyed_once ops s : exec step init ops = Some s -> NoDup (dead s) /\ forall o, In o (dead s) <-> o < nobj s /\ ~ referenced s o.
Proof.
  intro E. pose proof (exec_I _ _ E) as V. destruct (i_dead _ _ V) as [A B]. split; [exact A|]. intro o. rewrite B, <- (C29_alive_iff_referenced ops s o E).
  destruct (live s o); intuition congruence.
Qed.
(** Safe operations do not use freed memory. *)
Theorem C29_defined_partial ops s a : exec step init ops = Some s -> safe s a -> step s a <> None.
Proof.
  intros E SF. pose proof (exec_I _ _ E) as V. destruct a; cbn [step safe] in *; try discriminate.
  - destruct (slot s x) as [p|] eqn:SX; [|congruence]. destruct p as [o|]; [|discriminate]. unfold point, inc. cbn [live add_var].
    rewrite (i_live _ _ V x o SX). discriminate.
  - destruct SF as [D X]. pose proof (anchored_keeps s d) as KP. destruct (KP d D) as [ED _]. destruct (KP x X) as [EX _].
    destruct (slot s d) as [q0|] eqn:SD; [|congruence]. destruct (slot s x) as [p|] eqn:SX; [|congruence]. destruct (Nat.eqb_spec d x) as [|N]; [discriminate|].
    destruct (drop_ok _ s d V KP D) as (s1 & E1 & D1 & K1). rewrite E1, (K1 x X) by auto. rewrite SX.
    destruct (drop_inv s d s1 V E1) as (V1 & _). destruct (point_ok s1 d p V1) as (s2 & E2 & _); [exists x; rewrite (K1 x X) by auto; exact SX|]. congruence.
  - destruct SF as [D X]. pose proof (anchored_keeps s d) as KP. destruct (KP d D) as [ED _]. destruct (KP x X) as [EX _].
    destruct (slot s d) as [q0|] eqn:SD; [|congruence]. destruct (slot s x) as [p|] eqn:SX; [|congruence].
    destruct (drop_ok _ s d V KP D) as (s1 & E1 & D1 & K1). rewrite E1. destruct (drop_inv s d s1 V E1) as (V1 & OW & _).
    destruct (Nat.eq_dec x d) as [->|N]; [rewrite D1; discriminate|]. rewrite (K1 x X) by auto. rewrite SX. destruct p as [o|]; [|discriminate].
    destruct (point_ok s1 d (Some o) V1) as (s2 & E2 & SL2); [exists x; rewrite (K1 x X) by auto; exact SX|]. rewrite E2. destruct cast; [discriminate|].
    pose proof (point_inv _ _ _ _ V1 D1 E2) as V2. assert (OW2 : owner s2 = owner s).
    { rewrite <- OW. clear - E2. unfold point, inc in E2. destruct (live s1 o); [|discriminate]. injection E2 as <-. reflexivity. }
    assert (KP2 : keeps_but s2 (anchored s d) d).
    { intros z H. destruct (KP z H) as (_ & K3). split.
      - rewrite SL2. destruct (upd_cases (slot s1) d (Some (Some o)) z) as [[_ ->]|[Nz ->]]; [discriminate|]. rewrite (K1 z H) by auto. apply (KP z H).
      - rewrite OW2. destruct K3 as [K3|(q & y & B1 & B2 & B3 & B4)]; [auto|]. right. exists q, y. split; [exact B1|]. split; [exact B2|]. split; [exact B3|].
        rewrite SL2, upd_other by auto. rewrite (K1 y B2 B3). exact B4. }
    destruct (drop_ok _ s2 d V2 KP2 D) as (s3 & E3 & _). congruence.
  - destruct SF as [D (y & Y & N & SY)]. pose proof (anchored_keeps s d) as KP. rewrite (i_live _ _ V y o SY).
    destruct (drop_ok _ s d V KP D) as (s1 & E1 & D1 & K1). rewrite E1. destruct (drop_inv s d s1 V E1) as (V1 & _).
    destruct (point_ok s1 d (Some o) V1) as (s2 & E2 & _); [exists y; rewrite (K1 y Y) by auto; exact SY|]. congruence.
  - destruct (drop_ok _ s d V (anchored_keeps s d) SF) as (s1 & E1 & _). congruence.
  - destruct SF as [SX OX]. destruct (slot s x) eqn:Q; [|congruence]. rewrite OX.
    assert (V1 : I s [x]).
    { destruct V as [A1 A2 A3 A4 A5 A6 A7 A8 [A9 A10] A11]. split; auto.
      - intros y p OW. rewrite (A8 y p OW). cbn [In]. split; [tauto|]. intros [H|[H|[]]]; [auto|]. congruence.
      - split; [constructor; [intros []|constructor]|]. intros y [<-|[]]. split; congruence. }
    destruct (release_ok (fun _ => False) (nslot s) [x] s V1 ltac:(intros y []) (num_le _ _)) as (s1 & R & _). congruence.
Qed.
(** Assignment: d refers to the object x referred to, and every other anchored reference is left as it was. *)
Theorem C29_assignment ops s d x s' : exec step init ops = Some s -> safe s (OAssign d x) -> step s (OAssign d x) = Some s' ->
  slot s' d = slot s x /\ forall y, anchored s d y -> y <> d -> slot s' y = slot s y.
Proof.
  intros E [D X] ST. pose proof (exec_I _ _ E) as V. pose proof (anchored_keeps s d) as KP. cbn [step] in ST.
  destruct (slot s d) as [q|] eqn:SD; [|discriminate]. destruct (slot s x) as [p|] eqn:SX; [|discriminate]. destruct (Nat.eqb_spec d x) as [->|N].
  - injection ST as <-. split; [exact SX|auto].
  - destruct (drop_ok _ s d V KP D) as (s1 & E1 & D1 & K1). rewrite E1, (K1 x X), SX in ST by auto. destruct (drop_inv s d s1 V E1) as (V1 & _).
    destruct (point_ok s1 d p V1) as (s2 & E2 & SL); [exists x; rewrite (K1 x X) by auto; exact SX|]. rewrite E2 in ST. injection ST as <-.
    destruct p as [o|].
    + split; [rewrite SL; apply upd_same|]. intros y Y Ny. rewrite SL, upd_other by auto. auto.
    + split; [rewrite SL; exact D1|]. intros y Y Ny. rewrite SL. auto.
Qed.

(** ** Several threads *)
Section Threads.
Variable T : nat.
Definition total (s : cst) : Z := Pool_Proofs.sumn (fun t => Z.of_nat (held s t)) T.
Definition within (a : cact) : bool := match a with CCopy t u => (t <? T) && (u <? T) | CRemove t | CNext t => t <? T end.
Record CI (s : cst) : Prop :=
  { c_cnt : Z.of_nat (counter s) = total s;
    c_del : (0 < deletes s \/ exists t, pcs s t = RDel) -> counter s = 0;
    c_last : counter s = 0 -> 0 < deletes s \/ exists t, t < T /\ pcs s t <> RIdle }.
Lemma total_upd s t n : t < T -> Pool_Proofs.sumn (fun u => Z.of_nat (upd (held s) t n u)) T = (total s + (Z.of_nat n - Z.of_nat (held s t)))%Z.
Proof.
  intro L. unfold total. rewrite (Pool_Proofs.sumn_change (fun u => Z.of_nat (held s u)) _ T t L).
  - rewrite upd_same. reflexivity.
  - intros i N. rewrite upd_other by auto. reflexivity.
Qed.
Lemma held_le s t : t < T -> (Z.of_nat (held s t) <= total s)%Z.
Proof.
  intro L. pose proof (total_upd s t 0 L) as H. pose proof (Pool_Proofs.sumn_nonneg (fun u => Z.of_nat (upd (held s) t 0 u)) T ltac:(intros; cbv beta; lia)). lia.
Qed.
Lemma cstep_inv s a s' : within a = true -> CI s -> cstep s a = Some s' -> CI s'.
Proof.
  intros W [C1 C2 C3] E. destruct a as [t u|t|t]; cbn [cstep within] in *.
  - apply andb_true_iff in W. destruct W as [W1 W2]. apply Nat.ltb_lt in W1, W2.
    destruct (pcs s t) eqn:P; try discriminate. destruct (held s t) as [|h] eqn:H; [discriminate|]. injection E as <-.
    pose proof (held_le s t W1) as HL. assert (NZ : counter s <> 0) by lia.
    split; cbn [counter held pcs deletes].
    + unfold total. cbn [held]. rewrite total_upd by exact W2. lia.
    + intro K. specialize (C2 K). lia.
    + intro K. lia.
  - apply Nat.ltb_lt in W. destruct (pcs s t) eqn:P; try discriminate. destruct (held s t) as [|h] eqn:H; [discriminate|]. injection E as <-.
    pose proof (held_le s t W) as HL. assert (NZ : counter s <> 0) by lia.
    split; cbn [counter held pcs deletes].
    + unfold total. cbn [held]. rewrite total_upd by exact W. lia.
    + intros [K|(u & K)]; [specialize (C2 (or_introl K)); lia|]. destruct (upd_cases (pcs s) t RRead u) as [[-> Q]|[_ Q]]; rewrite Q in K; [discriminate|].
      specialize (C2 (or_intror (ex_intro _ u K))). lia.
    + intros _. right. exists t. rewrite upd_same. split; [exact W|discriminate].
  - apply Nat.ltb_lt in W. destruct (pcs s t) eqn:P; try discriminate; injection E as <-.
    + split; cbn [counter held pcs deletes]; [exact C1| |].
      * intros [K|(u & K)]; [apply C2; auto|]. destruct (upd_cases (pcs s) t (if counter s =? 0 then RDel else RIdle) u) as [[-> Q]|[_ Q]]; rewrite Q in K; [|apply C2; eauto].
        destruct (Nat.eqb_spec (counter s) 0); [auto|discriminate].
      * intro K. right. exists t. rewrite upd_same, K. cbn. split; [exact W|discriminate].
    + split; cbn [counter held pcs deletes]; [exact C1| |intro; left; lia]. intros _. apply C2. right. exists t. exact P.
Qed.
End Threads.

(** All schedules of T threads that copy, pass on and remove references to a shared object: it is not deleted while a reference exists
    anywhere, and when all references are removed and all calls have returned it has been deleted. *)
Theorem C29_threads_partial T start n sched s : Z.of_nat n = total T (cinit start n) -> 0 < n -> forallb (within T) sched = true ->
  exec cstep (cinit start n) sched = Some s ->
  (0 < deletes s -> forall t, t < T -> held s t = 0) /\
  ((forall t, t < T -> held s t = 0 /\ pcs s t = RIdle) -> 0 < deletes s).
Proof.
  intros HN HP W E.
  assert (V : CI T s).
  { assert (V0 : CI T (cinit start n)).
    { split; cbn [counter deletes pcs cinit]; [exact HN| |lia]. intros [H|(t & H)]; [lia|discriminate]. }
    clear HN. revert W E V0. generalize (cinit start n) as s0. induction sched as [|a r IH]; intros s0 W E V0; cbn [exec forallb] in *.
    - injection E as <-. exact V0.
    - apply andb_true_iff in W. destruct (cstep s0 a) as [s1|] eqn:ES; [|discriminate]. apply (IH s1); try tauto. eapply cstep_inv; eauto. tauto. }
  destruct V as [C1 C2 C3]. split.
  - intros D t L. specialize (C2 (or_introl D)). pose proof (held_le T s t L) as H. lia.
  - intro Q. assert (Z0 : counter s = 0).
    { assert (total T s = 0%Z); [|lia]. apply Pool_Proofs.sumn_zero. intros i L. destruct (Q i L) as [-> _]. reflexivity. }
    destruct (C3 Z0) as [D|(t & L & NI)]; [exact D|]. destruct (Q t L). contradiction.
Qed.
(** The counter is decremented and then read: two threads that remove the last two references can both read 0 and both delete. *)
Theorem C29_threads_twice_refuted : exists s, exec cstep (cinit (fun t => if t <? 2 then 1 else 0) 2) [CRemove 0; CRemove 1; CNext 0; CNext 1; CNext 0; CNext 1] = Some s /\ deletes s = 2.
Proof. eexists. split; reflexivity. Qed.

(** * What does not hold for unsafe operations *)
(** list = list->next: the object that holds [next] is deleted before [next] is read. *)
Definition two : list op := [ONew 1; ONew 0; OAssign 1 2].   (* slot 0: object 0 with member slot 1; slot 2: object 1 *)
Theorem C29_next_refuted : exists s, exec step init two = Some s /\ slot s 0 = Some (Some 0) /\ owner s 1 = Some 0 /\ slot s 1 = Some (Some 1) /\ step s (OAssign 0 1) = None.
Proof. eexists. split; [vm_compute; reflexivity|]. repeat split. Qed.
(** reference = pointer to the object that only this reference keeps alive. *)
Theorem C29_own_pointer_refuted : exists s, exec step init [ONew 0] = Some s /\ slot s 0 = Some (Some 0) /\ live s 0 = true /\ step s (OPtr 0 0) = None.
Proof. eexists. split; [vm_compute; reflexivity|]. repeat split. Qed.
(** Assignment of a ReferenceT to itself through Reference: the object is deleted. *)
Theorem C29_typed_self_refuted : exists s s', exec step init [ONew 0] = Some s /\ slot s 0 = Some (Some 0) /\ step s (OAssignT 0 0 true) = Some s' /\ slot s' 0 = Some None /\ dead s' = [0].
Proof. eexists; eexists. split; [vm_compute; reflexivity|]. split; [reflexivity|]. split; [vm_compute; reflexivity|]. split; reflexivity. Qed.

(** A list of three objects, of which the last is shared by two variables: all operations are safe; removing the head destroys two. *)
Example C29_case : exists s s', exec step init [ONew 1; ONew 1; ONew 1; OAssign 1 2; OAssign 3 4; ODestroy 2; OVar] = Some s /\ dead s = [] /\ references s 2 = 2 /\
  safe s (OAssign 6 3) /\ safe s (ORemove 0) /\ step s (ORemove 0) = Some s' /\ dead s' = [1; 0] /\ referenced s' 2.
Proof.
  eexists; eexists. split; [vm_compute; reflexivity|]. split; [reflexivity|]. split; [reflexivity|]. split.
  - assert (A0 : forall s d x, slot s x <> None -> owner s x = None -> anchored s d x) by (intros; apply an_var; assumption).
    split; [apply A0; [discriminate|reflexivity]|].
    eapply (an_member _ _ 3 1 1); [discriminate|reflexivity| |discriminate|reflexivity].
    eapply (an_member _ _ 1 0 0); [discriminate|reflexivity| |discriminate|reflexivity]. apply A0; [discriminate|reflexivity].
  - split; [apply an_var; [discriminate|reflexivity]|]. split; [vm_compute; reflexivity|]. split; [reflexivity|]. exists 4. reflexivity.
Qed.

Print Assumptions C29_alive_iff_referenced.
Print Assumptions C29_count.
Print Assumptions C29_destroyed_once.
Print Assumptions C29_defined_partial.
Print Assumptions C29_assignment.
Print Assumptions C29_threads_partial.
Print Assumptions C29_threads_twice_refuted.
Print Assumptions C29_next_refuted.
Print Assumptions C29_own_pointer_refuted.
Print Assumptions C29_typed_self_refuted.
