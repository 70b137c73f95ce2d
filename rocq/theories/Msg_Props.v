(** C32: dispatch of a message to the filters; C33: waiting for a reply. *)
From Verif Require Import Base Msg_Model.

(** * C32 *)
Section C32.
Context {S M : Type} (beh : nat -> S -> M -> Z * S).
(** The filters [l] are asked in order and none takes the message; the elements that are not filters are not asked. *)
Inductive refused (m : M) : list entry -> S -> list nat -> S -> Prop :=
| ref_nil s : refused m [] s [] s
| ref_skip e l s q s' : fok e = false -> refused m l s q s' -> refused m (e :: l) s q s'
| ref_ask e l s q s' c s1 : fok e = true -> beh (fid e) s m = (c, s1) -> c <> 0 -> c <> not_completed -> refused m l s1 q s' ->
    refused m (e :: l) s (fid e :: q) s'.
(** The specification of the dispatch: [dispatch m l s l' s' result asked]. *)
Inductive dispatch (m : M) (l : list entry) (s : S) : list entry -> S -> bool -> list nat -> Prop :=
| dis_take a e b q s1 s2 : l = a ++ e :: b -> refused m a s q s1 -> fok e = true -> beh (fid e) s1 m = (0, s2) ->
    dispatch m l s (if perm e then l else a ++ b) s2 true (q ++ [fid e])
| dis_part a e b q s1 s2 : l = a ++ e :: b -> refused m a s q s1 -> fok e = true -> beh (fid e) s1 m = (not_completed, s2) ->
    dispatch m l s l s2 true (q ++ [fid e])
| dis_none q s1 : refused m l s q s1 -> dispatch m l s l s1 false q.

Lemma refused_snoc m l : forall s q s1 e c s2, refused m l s q s1 -> fok e = true -> beh (fid e) s1 m = (c, s2) -> c <> 0 -> c <> not_completed ->
  refused m (l ++ [e]) s (q ++ [fid e]) s2.
Proof.
  intros s q s1 e c s2 H. induction H as [s|x l s q s' F H IH|x l s q s' c' s1 F B N1 N2 H IH]; intros E1 E2 E3 E4.
  - eapply ref_ask; eauto. constructor.
  - apply ref_skip; auto.
  - cbn [app]. eapply ref_ask; eauto.
Qed.
Lemma refused_skip m l : forall s q s1 e, refused m l s q s1 -> fok e = false -> refused m (l ++ [e]) s q s1.
Proof.
  intros s q s1 e H F. induction H; cbn [app]; [apply ref_skip; auto; constructor|apply ref_skip; auto|eapply ref_ask; eauto].
Qed.

Lemma scan_spec m l0 s0 : forall l a s err asked o s' err' asked', l0 = a ++ l -> refused m a s0 (rev asked) s -> scan beh l s m err asked = (o, s', err', asked') ->
  match o with
  | Matched e => exists a' b, l0 = a' ++ e :: b /\ fok e = true /\ err' = 0 /\ exists q s1, refused m a' s0 q s1 /\ beh (fid e) s1 m = (0, s') /\ rev asked' = q ++ [fid e]
  | Partial => exists a' e b, l0 = a' ++ e :: b /\ fok e = true /\ err' = not_completed /\ exists q s1, refused m a' s0 q s1 /\ beh (fid e) s1 m = (not_completed, s') /\ rev asked' = q ++ [fid e]
  | NoMatch => refused m l0 s0 (rev asked') s'
  end.
Proof.
  induction l as [|e r IH]; intros a s err asked o s' err' asked' L R E; cbn [scan] in E.
  - injection E as <- <- <- <-. rewrite L, app_nil_r. exact R.
  - destruct (fok e) eqn:F.
    + destruct (beh (fid e) s m) as [c s1] eqn:B. destruct (Z.eqb_spec c 0) as [->|N1].
      * injection E as <- <- <- <-. exists a, r. split; [exact L|]. split; [exact F|]. split; [reflexivity|]. exists (rev asked), s. auto.
      * destruct (Z.eqb_spec c not_completed) as [->|N2].
        -- injection E as <- <- <- <-. exists a, e, r. split; [exact L|]. split; [exact F|]. split; [reflexivity|]. exists (rev asked), s. auto.
        -- apply (IH (a ++ [e]) s1 c (fid e :: asked) o s' err' asked'); [rewrite <- app_assoc; exact L| |exact E].
           cbn [rev]. eapply refused_snoc; eauto.
    + apply (IH (a ++ [e]) s err asked o s' err' asked'); [rewrite <- app_assoc; exact L| |exact E]. apply refused_skip; auto.
Qed.
Lemma delete_mid e a b : NoDup (map fid (a ++ e :: b)) -> delete (fid e) (a ++ e :: b) = (a ++ b, true).
Proof.
  induction a as [|x a IH]; intro ND; cbn [app delete].
  - rewrite Nat.eqb_refl. reflexivity.
  - inversion ND as [|? ? N1 N2]; subst. destruct (Nat.eqb_spec (fid x) (fid e)) as [E|E].
    + destruct N1. rewrite map_app. apply in_or_app. right. left. auto.
    + rewrite IH by exact N2. reflexivity.
Qed.
End C32.

(** ReceiveMessage does what [dispatch] says and returns no error exactly when a filter took the message; else the error contains
    UnsupportedFeature. *)
Theorem C32_dispatch {S M} (beh : nat -> S -> M -> Z * S) l s m l' s' err asked : NoDup (map fid l) -> receive beh l s m = (l', s', err, asked) ->
  dispatch beh m l s l' s' (err =? 0) asked /\ (err <> 0 -> Z.testbit err unsupported_bit = true).
Proof.
  intros ND E. unfold receive in E. destruct (scan beh l s m 0 []) as [[[o s1] err1] ask1] eqn:SC.
  pose proof (scan_spec beh m l s l [] s 0 [] o s1 err1 ask1 eq_refl (ref_nil beh m s) SC) as H. destruct o as [e| |].
  - destruct H as (a & b & L & F & -> & q & s2 & R & B & Q). destruct (perm e) eqn:P.
    + injection E as <- <- <- <-. split; [|congruence]. rewrite Q. pose proof (dis_take beh m l s a e b q s2 s1 L R F B) as D. rewrite P in D. exact D.
    + rewrite L in ND. rewrite L, (delete_mid e a b ND) in E. injection E as <- <- <- <-. split; [|congruence]. rewrite Q.
      pose proof (dis_take beh m l s a e b q s2 s1 L R F B) as D. rewrite P in D. exact D.
  - destruct H as (a & e & b & L & F & -> & q & s2 & R & B & Q). injection E as <- <- <- <-. split; [|intro H; destruct H; reflexivity]. rewrite Q.
    change (Z.clearbit not_completed 18 =? 0) with true. eapply dis_part; eauto.
  - injection E as <- <- <- <-. assert (T : Z.testbit (Z.setbit err1 unsupported_bit) unsupported_bit = true) by (apply Z.setbit_eq; unfold unsupported_bit; lia).
    assert (NZ : Z.setbit err1 unsupported_bit <> 0) by (intro X; rewrite X in T; discriminate).
    split; [|auto]. apply Z.eqb_neq in NZ. rewrite NZ. apply dis_none. exact H.
Qed.
(** A filter that is not permanent and takes a message is no longer installed. *)
Theorem C32_removed {S M} (beh : nat -> S -> M -> Z * S) l s m l' s' err asked e : NoDup (map fid l) -> receive beh l s m = (l', s', err, asked) ->
  In e l -> perm e = false -> ~ In e l' -> last asked 0%nat = fid e /\ err = 0.
Proof.
  intros ND E HI P NI. destruct (C32_dispatch beh l s m l' s' err asked ND E) as [D _]. inversion D; subst.
  - assert (K : e = e0).
    { destruct (perm e0) eqn:P0; [contradiction|]. apply in_app_or in HI. destruct HI as [HI|[HI|HI]]; [destruct NI; apply in_or_app; auto|auto|destruct NI; apply in_or_app; auto]. }
    subst e0. split; [apply last_last|]. apply Z.eqb_eq. auto.
  - contradiction.
  - contradiction.
Qed.
Theorem C32_kept {S M} (beh : nat -> S -> M -> Z * S) l s m l' s' err asked : NoDup (map fid l) -> receive beh l s m = (l', s', err, asked) ->
  NoDup (map fid l') /\ forall e, In e l' -> In e l.
Proof.
  intros ND E. destruct (C32_dispatch beh l s m l' s' err asked ND E) as [D _]. inversion D; subst; auto.
  destruct (perm e); [auto|]. split.
  - rewrite map_app in *. cbn [map] in ND. apply NoDup_remove_1 in ND. exact ND.
  - intros x H0. apply in_app_or in H0. apply in_or_app. cbn [In]. tauto.
Qed.

(** Three filters and an element that is none: the second filter takes the message and is removed. *)
Example C32_case : let beh := fun f (s : nat) (m : Z) => if (f =? 2)%nat then (0, s) else (2, Datatypes.S s) in
  receive beh [En 0 true true; En 1 false true; En 2 true false; En 3 true true] 0%nat 7 = ([En 0 true true; En 1 false true; En 3 true true], 1%nat, 0, [0%nat; 2%nat]).
Proof. reflexivity. Qed.

(** * C33 *)
(** The clock is a counter of 64 bits; [time i] is the time at iteration i, which never goes back and [t0] the time at the start. *)
Definition runs_on (t0 : Z) (time : nat -> Z) : Prop := t0 <= time 0%nat /\ forall i j, (i <= j)%nat -> time i <= time j.
Definition counter (time : nat -> Z) (i : nat) : Z := uwrap 64 (time i).
(** ReplyMessageCatcherMessageFilter::Wait keeps its promise: success when the reply was caught, time-out only after more than the time
    given, and an end in any case once the time is over. *)
Section Wait.
Variables (t0 : Z) (time : nat -> Z) (caught : nat -> bool).
Hypothesis CL : runs_on t0 time.

Lemma delta i : time i - t0 < 2 ^ 64 -> uwrap 64 (counter time i - uwrap 64 t0) = time i - t0.
Proof.
  intro L. unfold counter, uwrap. rewrite <- Zminus_mod. apply Z.mod_small. destruct CL as [A B]. specialize (B 0%nat i ltac:(lia)). lia.
Qed.
Lemma catch_from fuel : forall i ticks b, catch_loop fuel i (uwrap 64 t0) (counter time) caught ticks = Some b ->
  if b then exists t j, ticks = Some t /\ (i <= j)%nat /\ caught j = false /\ (time j - t0 < 2 ^ 64 -> t < time j - t0) else exists j, (i <= j)%nat /\ caught j = true.
Proof.
  induction fuel as [|k IH]; intros i ticks b E; [discriminate|]. cbn [catch_loop] in E. destruct (caught i) eqn:C; [injection E as <-; exists i; auto|].
  destruct ticks as [t|].
  - destruct (Z.ltb_spec t (uwrap 64 (counter time i - uwrap 64 t0))) as [L|L].
    + injection E as <-. exists t, i. split; [reflexivity|]. split; [lia|]. split; [exact C|]. intro H. rewrite delta in L by exact H. exact L.
    + specialize (IH _ _ _ E). destruct b; [destruct IH as (t' & j & A & B & D); exists t', j; split; [exact A|]; split; [lia|exact D]|destruct IH as (j & A & B); exists j; split; [lia|exact B]].
  - specialize (IH _ _ _ E). destruct b; [destruct IH as (t' & j & A & _); discriminate|destruct IH as (j & A & B); exists j; split; [lia|exact B]].
Qed.
Lemma catch_ends ticks n : forall i, caught (i + n) = true -> catch_loop (Datatypes.S n) i (uwrap 64 t0) (counter time) caught ticks <> None.
Proof.
  induction n as [|n IH]; intros i C; cbn [catch_loop].
  - rewrite Nat.add_0_r in C. rewrite C. discriminate.
  - destruct (caught i); [discriminate|]. destruct (match ticks with Some t => _ | None => false end); [discriminate|].
    apply IH. rewrite <- C. f_equal. lia.
Qed.
Lemma catch_over t n : forall i, t < time (i + n)%nat - t0 < 2 ^ 64 -> catch_loop (Datatypes.S n) i (uwrap 64 t0) (counter time) caught (Some t) <> None.
Proof.
  induction n as [|n IH]; intros i C; cbn [catch_loop]; (destruct (caught i); [discriminate|]).
  - rewrite Nat.add_0_r in C. rewrite delta by lia. destruct (Z.ltb_spec t (time i - t0)); [discriminate|lia].
  - destruct (t <? _); [discriminate|]. apply IH. replace (Datatypes.S i + n)%nat with (i + Datatypes.S n)%nat by lia. exact C.
Qed.
End Wait.

Theorem C33_indirect_success t0 time caught ticks fuel : runs_on t0 time ->
  catch_loop fuel 0 (uwrap 64 t0) (counter time) caught ticks = Some false -> exists j, caught j = true.
Proof. intros CL E. pose proof (catch_from t0 time caught CL fuel 0 ticks false E) as (j & _ & H). eauto. Qed.
Theorem C33_indirect_timeout t0 time caught ticks fuel : runs_on t0 time ->
  catch_loop fuel 0 (uwrap 64 t0) (counter time) caught ticks = Some true ->
  exists t j, ticks = Some t /\ caught j = false /\ (time j - t0 < 2 ^ 64 -> t < time j - t0).
Proof. intros CL E. pose proof (catch_from t0 time caught CL fuel 0 ticks true E) as (t & j & A & _ & B & C). eauto. Qed.
(** A reply caught before the time is over is a success. *)
Lemma catch_in_time t0 time caught t n : runs_on t0 time -> t < 2 ^ 64 -> (forall i, (i < n)%nat -> time i - t0 <= t) -> caught n = true ->
  forall k i, (i + k = n)%nat -> catch_loop (Datatypes.S k) i (uwrap 64 t0) (counter time) caught (Some t) = Some false.
Proof.
  intros CL T B C. induction k as [|k IH]; intros i E; cbn [catch_loop].
  - rewrite Nat.add_0_r in E. subst i. rewrite C. reflexivity.
  - destruct (caught i); [reflexivity|]. specialize (B i ltac:(lia)). rewrite (delta t0 time caught CL) by lia.
    destruct (Z.ltb_spec t (time i - t0)) as [L|_]; [lia|]. apply IH. lia.
Qed.
Theorem C33_indirect_in_time t0 time caught t n : runs_on t0 time -> t < 2 ^ 64 -> (forall i, (i < n)%nat -> time i - t0 <= t) -> caught n = true ->
  exists fuel, catch_loop fuel 0 (uwrap 64 t0) (counter time) caught (Some t) = Some false.
Proof. intros CL T B C. exists (Datatypes.S n). apply (catch_in_time t0 time caught t n CL T B C). lia. Qed.
Theorem C33_indirect_ends t0 time caught ticks j : runs_on t0 time ->
  caught j = true \/ (exists t, ticks = Some t /\ t < time j - t0 < 2 ^ 64) ->
  exists fuel b, catch_loop fuel 0 (uwrap 64 t0) (counter time) caught ticks = Some b.
Proof.
  intros CL H. exists (Datatypes.S j).
  assert (N : catch_loop (Datatypes.S j) 0 (uwrap 64 t0) (counter time) caught ticks <> None).
  { destruct H as [H|(t & -> & H)]; [apply catch_ends; exact H|apply (catch_over t0 time caught CL); exact H]. }
  destruct (catch_loop (Datatypes.S j) 0 (uwrap 64 t0) (counter time) caught ticks) as [b|]; [eauto|congruence].
Qed.

(** WaitForReply: with an infinite time-out it returns, with success, exactly when there is a reply. *)
Lemma reply_infinite fuel : forall i start clock replied b, reply_loop fuel i start clock replied None = Some b -> b = false /\ exists j, replied j = true.
Proof.
  induction fuel as [|k IH]; intros i start clock replied b E; [discriminate|]. cbn [reply_loop orb] in E. destruct (replied i) eqn:R; [injection E as <-; eauto|]. eapply IH; eauto.
Qed.
Lemma reply_infinite_ends n : forall i start clock replied, replied (i + n)%nat = true -> reply_loop (Datatypes.S n) i start clock replied None = Some false.
Proof.
  induction n as [|n IH]; intros i start clock replied R; cbn [reply_loop orb].
  - rewrite Nat.add_0_r in R. rewrite R. reflexivity.
  - destruct (replied i); [reflexivity|]. apply IH. rewrite <- R. f_equal. lia.
Qed.
Theorem C33_direct_infinite_partial start clock before replied :
  (forall fuel b, wait_for_reply fuel start clock before replied None = Some b -> b = false /\ (before = true \/ exists j, replied j = true)) /\
  (before = true \/ (exists j, replied j = true) -> exists fuel, wait_for_reply fuel start clock before replied None = Some false).
Proof.
  split.
  - intros fuel b E. unfold wait_for_reply in E. destruct before; [injection E as <-; auto|]. destruct (reply_infinite _ _ _ _ _ _ E); auto.
  - intros [->|(j & R)]; [exists 0%nat; reflexivity|]. unfold wait_for_reply. destruct before; [exists 0%nat; reflexivity|]. exists (Datatypes.S j). apply reply_infinite_ends. exact R.
Qed.
(** ... but with a finite one it reports a time-out at once, although the reply comes after 20 of 1000 ticks ... *)
Theorem C33_early_timeout_refuted : exists time replied, runs_on 0 time /\ time 0%nat = 10 /\ time 1%nat = 20 /\ replied 1%nat = true /\
  wait_for_reply 5 (uwrap 64 0) (counter time) false replied (Some 1000) = Some true.
Proof.
  exists (fun i => 10 * (Z.of_nat i + 1)), (fun i => (1 <=? i)%nat). split; [split; [lia|intros; lia]|]. repeat split.
Qed.
(** ... and waits for ever when the first sleep is not shorter than the time-out and there is no reply. *)
Theorem C33_no_timeout_refuted : forall fuel, wait_for_reply fuel (uwrap 64 0) (counter (fun _ => 10)) false (fun _ => false) (Some 5) = None.
Proof.
  intro fuel. unfold wait_for_reply. generalize 0%nat as i. induction fuel as [|k IH]; intro i; [reflexivity|]. cbn [reply_loop].
  change (uwrap 64 (counter (fun _ => 10) i - uwrap 64 0) <? 5) with false. apply IH.
Qed.
Example C33_case : runs_on 3 (fun i => 5 * Z.of_nat (i + 1)) /\
  catch_loop 50 0 (uwrap 64 3) (counter (fun i => 5 * Z.of_nat (i + 1))) (fun _ => false) (Some 100) = Some true /\
  catch_loop 50 0 (uwrap 64 3) (counter (fun i => 5 * Z.of_nat (i + 1))) (fun i => (7 <=? i)%nat) (Some 100) = Some false.
Proof. split; [split; [cbn; lia|intros; lia]|]. split; reflexivity. Qed.

Print Assumptions C32_dispatch.
Print Assumptions C32_removed.
Print Assumptions C32_kept.
Print Assumptions C33_indirect_success.
Print Assumptions C33_indirect_timeout.
Print Assumptions C33_indirect_in_time.
Print Assumptions C33_indirect_ends.
Print Assumptions C33_direct_infinite_partial.
Print Assumptions C33_early_timeout_refuted.
Print Assumptions C33_no_timeout_refuted.
