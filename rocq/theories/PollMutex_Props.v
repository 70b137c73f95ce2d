(** C19: the polling mutex gives mutual exclusion. *)
From Verif Require Import Base Conc PollMutex_Model.

(** Threads that have the lock: they returned from it, or are about to, or are about to release it. *)
Definition has (s : sys) (t : nat) : Prop :=
  holds (log s) t = true \/ pcs s t = LockRet true \/ pcs s t = TryRet true \/ pcs s t = UnlockStore.
Definition inv (s : sys) : Prop :=
  (flag s = 0 \/ flag s = 1) /\
  (flag s = 0 -> forall t, ~ has s t) /\
  (flag s = 1 -> exists t, has s t) /\
  (forall t u, has s t -> has s u -> t = u) /\
  (forall t, pcs s t = UnlockStore \/ pcs s t = LockRet true \/ pcs s t = TryRet true -> holds (log s) t = false).

Lemma inv_step s a s' : inv s -> step s a = Some s' -> inv s'.
Proof.
  intros (F & N & E & M & U) H.
  (* an action of thread t that changes neither the flag nor who has the lock *)
  assert (KEEP : forall p l, (forall x, has (Sys (flag s) p l) x <-> has s x) ->
    (forall x, p x = UnlockStore \/ p x = LockRet true \/ p x = TryRet true -> holds l x = false) -> inv (Sys (flag s) p l)).
  { intros p l HX HU. split; [exact F|]. split; [intros Z x; rewrite HX; apply N; exact Z|].
    split; [intros Z; destruct (E Z) as [x Hx]; exists x; rewrite HX; exact Hx|]. split; [|exact HU].
    intros t u. rewrite !HX. apply M. }
  destruct a as [t e|t clock]; cbn [step] in H; destruct (pcs s t) eqn:EP; try discriminate.
  - (* calls *)
    destruct e; try discriminate.
    + injection H as <-. apply KEEP; intros x; unfold has; cbn [log pcs flag holds]; destruct (upd_cases (pcs s) t (LockTas stop) x) as [[-> ->]|[NE ->]];
        rewrite ?Nat.eqb_refl; try (replace (Nat.eqb t x) with false by (symmetry; apply Nat.eqb_neq; auto)); auto.
      * rewrite EP. split; intros [X|[X|[X|X]]]; auto; discriminate.
      * tauto.
      * intros [X|[X|X]]; discriminate.
    + injection H as <-. apply KEEP; intros x; unfold has; cbn [log pcs flag holds]; destruct (upd_cases (pcs s) t TryTas x) as [[-> ->]|[NE ->]];
        rewrite ?Nat.eqb_refl; try (replace (Nat.eqb t x) with false by (symmetry; apply Nat.eqb_neq; auto)); auto.
      * rewrite EP. split; intros [X|[X|[X|X]]]; auto; discriminate.
      * tauto.
      * intros [X|[X|X]]; discriminate.
    + destruct (holds (log s) t) eqn:EH; [|discriminate]. injection H as <-.
      apply KEEP; intros x; unfold has; cbn [log pcs flag holds]; destruct (upd_cases (pcs s) t UnlockStore x) as [[-> ->]|[NE ->]];
        rewrite ?Nat.eqb_refl; try (replace (Nat.eqb t x) with false by (symmetry; apply Nat.eqb_neq; auto)); auto; tauto.
  - (* LockTas *)
    cbn [test_and_set] in H. destruct (flag s =? 0) eqn:EF; injection H as <-.
    + apply Z.eqb_eq in EF. specialize (N EF).
      assert (HX : forall x, has (Sys 1 (upd (pcs s) t (LockRet true)) (log s)) x <-> x = t).
      { intros x. unfold has. cbn [log pcs]. destruct (upd_cases (pcs s) t (LockRet true) x) as [[-> ->]|[NE ->]]; [tauto|].
        split; [|tauto]. intros X. exfalso. apply (N x). exact X. }
      split; [cbn; auto|]. split; [cbn; discriminate|]. split; [intros _; exists t; apply HX; auto|]. split.
      * intros x y. rewrite !HX. congruence.
      * intros x _. cbn [log]. destruct (holds (log s) x) eqn:EH; auto. exfalso. apply (N x). left. auto.
    + assert (F1 : flag s = 1) by (apply Z.eqb_neq in EF; destruct F; congruence).
      set (q := match stop with None => LockTas None | Some k => LockClock k end).
      assert (Q : q <> LockRet true /\ q <> TryRet true /\ q <> UnlockStore) by (unfold q; destruct stop; repeat split; discriminate).
      rewrite <- F1. apply KEEP; intros x; unfold has; cbn [log pcs]; destruct (upd_cases (pcs s) t q x) as [[-> ->]|[NE ->]]; auto; try tauto.
      rewrite EP. split; intros [X|[X|[X|X]]]; auto; try discriminate; tauto.
  - (* LockClock *)
    injection H as <-. set (q := if clock >? stop then LockRet false else LockTas (Some stop)).
    assert (Q : q <> LockRet true /\ q <> TryRet true /\ q <> UnlockStore) by (unfold q; destruct (clock >? stop); repeat split; discriminate).
    apply KEEP; intros x; unfold has; cbn [log pcs]; destruct (upd_cases (pcs s) t q x) as [[-> ->]|[NE ->]]; auto; try tauto.
    rewrite EP. split; intros [X|[X|[X|X]]]; auto; try discriminate; tauto.
  - (* LockRet *)
    injection H as <-. apply KEEP; intros x; unfold has; cbn [log pcs holds]; destruct (upd_cases (pcs s) t Idle x) as [[-> ->]|[NE ->]];
      rewrite ?Nat.eqb_refl; try (replace (Nat.eqb t x) with false by (symmetry; apply Nat.eqb_neq; auto)); auto; try tauto.
    + rewrite EP. destruct ok; split; intros [X|[X|[X|X]]]; auto; discriminate.
    + intros [X|[X|X]]; discriminate.
  - (* TryTas *)
    cbn [test_and_set] in H. destruct (flag s =? 0) eqn:EF; injection H as <-.
    + apply Z.eqb_eq in EF. specialize (N EF).
      assert (HX : forall x, has (Sys 1 (upd (pcs s) t (TryRet true)) (log s)) x <-> x = t).
      { intros x. unfold has. cbn [log pcs]. destruct (upd_cases (pcs s) t (TryRet true) x) as [[-> ->]|[NE ->]]; [tauto|].
        split; [|tauto]. intros X. exfalso. apply (N x). exact X. }
      split; [cbn; auto|]. split; [cbn; discriminate|]. split; [intros _; exists t; apply HX; auto|]. split.
      * intros x y. rewrite !HX. congruence.
      * intros x _. cbn [log]. destruct (holds (log s) x) eqn:EH; auto. exfalso. apply (N x). left. auto.
    + assert (F1 : flag s = 1) by (apply Z.eqb_neq in EF; destruct F; congruence).
      rewrite <- F1. apply KEEP; intros x; unfold has; cbn [log pcs]; destruct (upd_cases (pcs s) t (TryRet false) x) as [[-> ->]|[NE ->]]; auto; try tauto.
      * rewrite EP. split; intros [X|[X|[X|X]]]; auto; try discriminate; tauto.
      * intros [X|[X|X]]; discriminate.
  - (* TryRet *)
    injection H as <-. apply KEEP; intros x; unfold has; cbn [log pcs holds]; destruct (upd_cases (pcs s) t Idle x) as [[-> ->]|[NE ->]];
      rewrite ?Nat.eqb_refl; try (replace (Nat.eqb t x) with false by (symmetry; apply Nat.eqb_neq; auto)); auto; try tauto.
    + rewrite EP. destruct ok; split; intros [X|[X|[X|X]]]; auto; discriminate.
    + intros [X|[X|X]]; discriminate.
  - (* UnlockStore *)
    injection H as <-. assert (HT : has s t) by (right; right; right; exact EP).
    assert (HX : forall x, ~ has (Sys 0 (upd (pcs s) t UnlockRet) (log s)) x).
    { intros x. unfold has. cbn [log pcs]. destruct (upd_cases (pcs s) t UnlockRet x) as [[-> ->]|[NE ->]].
      - rewrite (U t (or_introl EP)). intros [X|[X|[X|X]]]; discriminate.
      - intros X. apply NE. apply M; auto. }
    split; [cbn; auto|]. split; [intros _; exact HX|]. split; [cbn; discriminate|]. split.
    + intros x y X. exfalso. exact (HX x X).
    + intros x _. cbn [log]. destruct (holds (log s) x) eqn:EH; auto. exfalso. apply (HX x). left. auto.
  - (* UnlockRet *)
    injection H as <-. apply KEEP; intros x; unfold has; cbn [log pcs holds]; destruct (upd_cases (pcs s) t Idle x) as [[-> ->]|[NE ->]];
      rewrite ?Nat.eqb_refl; try (replace (Nat.eqb t x) with false by (symmetry; apply Nat.eqb_neq; auto)); auto; try tauto.
    + rewrite EP. split; intros [X|[X|[X|X]]]; auto; discriminate.
    + intros [X|[X|X]]; discriminate.
Qed.
Lemma inv_exec sched s : exec step init sched = Some s -> inv s.
Proof.
  apply (exec_inv step inv); [exact inv_step|].
  unfold inv, init, has. cbn. split; [auto|]. split; [|split; [discriminate|split]].
  - intros _ t [X|[X|[X|X]]]; discriminate.
  - intros t u [X|[X|[X|X]]]; discriminate.
  - intros t [X|[X|X]]; discriminate.
Qed.

(** Whatever the schedule and the number of threads, at most one thread is between the return of a successful lock
    (or try-lock) and its call of unlock. *)
Theorem C19_mutual_exclusion sched s t u : exec step init sched = Some s ->
  holds (log s) t = true -> holds (log s) u = true -> t = u.
Proof. intros E Ht Hu. destruct (inv_exec _ _ E) as (_ & _ & _ & M & _). apply M; left; auto. Qed.

(** When every thread is outside the API, the next try-lock succeeds exactly when no thread holds the mutex: in particular
    a lock that timed out left nothing locked, and an unlocked mutex can be taken again. *)
Theorem C19_try_lock_succeeds_iff_free sched s t : exec step init sched = Some s -> (forall u, pcs s u = Idle) ->
  exists s' ok, exec step s [ACall t ECallTry; AStep t 0; AStep t 0] = Some s' /\ log s' = (t, ERetTry ok) :: (t, ECallTry) :: log s /\
    (ok = true <-> forall u, holds (log s) u = false).
Proof.
  intros E I. destruct (inv_exec _ _ E) as (F & N & X & M & U). cbn [exec step]. rewrite I. cbn [pcs flag log]. rewrite upd_same. cbn [test_and_set pcs log]. rewrite upd_same.
  eexists. exists (flag s =? 0). split; [reflexivity|]. split; [reflexivity|]. rewrite Z.eqb_eq. split.
  - intros F0 u. destruct (holds (log s) u) eqn:EH; auto. exfalso. apply (N F0 u). left. auto.
  - intros H. destruct F as [F|F]; auto. destruct (X F) as [u [Y|[Y|[Y|Y]]]]; [rewrite H in Y; discriminate| | |]; rewrite I in Y; discriminate.
Qed.
(** While a thread holds the mutex, no lock or try-lock succeeds. *)
Theorem C19_held_mutex_is_not_given sched s t u a s' ok : exec step init sched = Some s -> holds (log s) t = true ->
  step s a = Some s' -> log s' = (u, ERetLock ok) :: log s \/ log s' = (u, ERetTry ok) :: log s -> ok = false.
Proof.
  intros E H S L. destruct ok; auto. exfalso. pose proof (inv_exec _ _ E) as (F & N & X & M & U).
  assert (R : pcs s u = LockRet true \/ pcs s u = TryRet true).
  { assert (NC : forall e, (u, e) :: log s <> log s). { intros e Z. apply (f_equal (@length _)) in Z. cbn in Z. lia. }
    destruct a as [v e|v clock]; cbn [step] in S; destruct (pcs s v) eqn:EP; try discriminate; try (destruct e; try discriminate);
      cbn [test_and_set] in S; try (destruct (holds (log s) v); [|discriminate]); injection S as <-; cbn [log] in L; destruct L as [L|L]; try discriminate; try (symmetry in L; exfalso; exact (NC _ L));
      injection L as -> ->; auto. }
  assert (t = u) by (apply M; [left; auto|unfold has; tauto]). subst u. rewrite (U t) in H by tauto. discriminate.
Qed.

(** The last call made by a thread. *)
Fixpoint last_call (l : list (nat * ev)) (t : nat) : option ev :=
  match l with
  | [] => None
  | (u, e) :: r => if Nat.eqb u t then match e with ECallLock _ | ECallTry | ECallUnlock => Some e | _ => last_call r t end else last_call r t
  end.
Definition late (sched : list action) (t : nat) (k : Z) : Prop := exists c, In (AStep t c) sched /\ k < c.
Definition inv2 (sched : list action) (s : sys) : Prop :=
  (forall t k, pcs s t = LockTas k -> last_call (log s) t = Some (ECallLock k)) /\
  (forall t k, pcs s t = LockClock k -> last_call (log s) t = Some (ECallLock (Some k))) /\
  (forall t, pcs s t = LockRet false -> exists k, last_call (log s) t = Some (ECallLock (Some k)) /\ late sched t k).
Lemma late_app sched a t k : late sched t k -> late (sched ++ [a]) t k.
Proof. intros (c & A & B). exists c. split; [apply in_or_app; auto|auto]. Qed.
Lemma last_call_ret l t u e : match e with ECallLock _ | ECallTry | ECallUnlock => False | _ => True end -> last_call ((u, e) :: l) t = last_call l t.
Proof. intros H. cbn. destruct (Nat.eqb u t); destruct e; auto; contradiction. Qed.
Lemma last_call_other l t u e : t <> u -> last_call ((u, e) :: l) t = last_call l t.
Proof. intros H. cbn. rewrite (proj2 (Nat.eqb_neq u t)); auto. Qed.
Lemma last_call_same l t e : match e with ECallLock _ | ECallTry | ECallUnlock => True | _ => False end -> last_call ((t, e) :: l) t = Some e.
Proof. intros H. cbn. rewrite Nat.eqb_refl. destruct e; auto; contradiction. Qed.
Lemma inv2_step sched s a s' : inv2 sched s -> step s a = Some s' -> inv2 (sched ++ [a]) s'.
Proof.
  intros (I1 & I2 & I3) S.
  assert (KEEP : forall f v p l, (forall t, t <> v -> last_call l t = last_call (log s) t) ->
    (forall k, p = LockTas k -> last_call l v = Some (ECallLock k)) -> (forall k, p = LockClock k -> last_call l v = Some (ECallLock (Some k))) ->
    (p = LockRet false -> exists k, last_call l v = Some (ECallLock (Some k)) /\ late (sched ++ [a]) v k) ->
    inv2 (sched ++ [a]) (Sys f (upd (pcs s) v p) l)).
  { intros f v p l L P1 P2 P3. split; [|split]; cbn [pcs log].
    - intros t k. destruct (upd_cases (pcs s) v p t) as [[-> ->]|[NE ->]]; auto. rewrite L by auto. apply I1.
    - intros t k. destruct (upd_cases (pcs s) v p t) as [[-> ->]|[NE ->]]; auto. rewrite L by auto. apply I2.
    - intros t. destruct (upd_cases (pcs s) v p t) as [[-> ->]|[NE ->]]; auto. rewrite L by auto. intros X.
      destruct (I3 t X) as (k & A & B). exists k. split; auto. apply late_app; auto. }
  destruct a as [v e|v clock]; cbn [step] in S; destruct (pcs s v) eqn:EP; try discriminate.
  - destruct e; try discriminate; [| |destruct (holds (log s) v); [|discriminate]]; injection S as <-; apply KEEP; try discriminate;
      try (intros t NE; apply last_call_other; auto). intros k H. injection H as ->. apply last_call_same. exact I.
  - cbn [test_and_set] in S. injection S as <-. apply KEEP; auto.
    + intros k. destruct (flag s =? 0); [discriminate|]. destruct stop; [discriminate|]. intros H. injection H as <-. apply I1. auto.
    + intros k. destruct (flag s =? 0); [discriminate|]. destruct stop; [|discriminate]. intros H. injection H as <-. apply I1. auto.
    + destruct (flag s =? 0); [discriminate|]. destruct stop; discriminate.
  - injection S as <-. apply KEEP; auto.
    + intros k. destruct (clock >? stop); [discriminate|]. intros H. injection H as <-. apply I2. auto.
    + intros k. destruct (clock >? stop); discriminate.
    + destruct (clock >? stop) eqn:EC; [|discriminate]. intros _. exists stop. split; [apply I2; auto|]. exists clock. split; [apply in_or_app; right; left; auto|].
      rewrite Z.gtb_lt in EC. exact EC.
  - injection S as <-. apply KEEP; try discriminate. intros t NE. apply last_call_ret. exact I.
  - cbn [test_and_set] in S. injection S as <-. apply KEEP; auto; destruct (flag s =? 0); discriminate.
  - injection S as <-. apply KEEP; try discriminate. intros t NE. apply last_call_ret. exact I.
  - injection S as <-. apply KEEP; auto; discriminate.
  - injection S as <-. apply KEEP; try discriminate. intros t NE. apply last_call_ret. exact I.
Qed.
Lemma inv2_exec sched s : exec step init sched = Some s -> inv2 sched s.
Proof.
  revert s. induction sched as [|a l IH] using rev_ind; intros s E.
  - injection E as <-. repeat split; cbn; discriminate.
  - rewrite exec_app in E. destruct (exec step init l) as [m|] eqn:EM; [|discriminate]. cbn [exec] in E.
    destruct (step m a) as [s1|] eqn:ES; [|discriminate]. injection E as <-. eapply inv2_step; eauto.
Qed.
(** A lock fails only if it was given a finite timeout and the counter was read past its end; a lock with an infinite
    timeout never fails. *)
Theorem C19_timeout_only_when_late sched a s s' t : exec step init sched = Some s -> step s a = Some s' ->
  log s' = (t, ERetLock false) :: log s ->
  exists k c, last_call (log s) t = Some (ECallLock (Some k)) /\ In (AStep t c) sched /\ k < c.
Proof.
  intros E S L. pose proof (inv2_exec _ _ E) as (_ & _ & I3).
  assert (R : pcs s t = LockRet false).
  { assert (NC : forall e, (t, e) :: log s <> log s). { intros e Z. apply (f_equal (@length _)) in Z. cbn in Z. lia. }
    destruct a as [v e|v clock]; cbn [step] in S; destruct (pcs s v) eqn:EP; try discriminate; try (destruct e; try discriminate);
      cbn [test_and_set] in S; try (destruct (holds (log s) v); [|discriminate]); injection S as <-; cbn [log] in L; try discriminate; try (symmetry in L; exfalso; exact (NC _ L));
      injection L as -> ->; auto. }
  destruct (I3 t R) as (k & A & c & B & C). exists k, c. auto.
Qed.

(** Three threads: 0 locks; 1 waits, times out; 2 fails a try-lock; 0 unlocks; 2 locks. *)
Example C19_case :
  match exec step init [ACall 0%nat (ECallLock None); ACall 1%nat (ECallLock (Some 100)); AStep 0%nat 0; AStep 1%nat 0; AStep 0%nat 0; AStep 1%nat 99; AStep 1%nat 0;
                        ACall 2%nat ECallTry; AStep 2%nat 0; AStep 1%nat 101; AStep 2%nat 0; AStep 1%nat 0; ACall 0%nat ECallUnlock; AStep 0%nat 0;
                        ACall 2%nat (ECallLock None); AStep 2%nat 0; AStep 0%nat 0; AStep 2%nat 0] with
  | Some s => log s = [(2%nat, ERetLock true); (0%nat, ERetUnlock); (2%nat, ECallLock None); (0%nat, ECallUnlock); (1%nat, ERetLock false); (2%nat, ERetTry false);
                       (2%nat, ECallTry); (0%nat, ERetLock true); (1%nat, ECallLock (Some 100)); (0%nat, ECallLock None)] /\
              holds (log s) 2 = true /\ holds (log s) 0 = false /\ holds (log s) 1 = false
  | None => False
  end.
Proof. vm_compute. repeat split. Qed.

Print Assumptions C19_mutual_exclusion.
Print Assumptions C19_try_lock_succeeds_iff_free.
Print Assumptions C19_held_mutex_is_not_given.
Print Assumptions C19_timeout_only_when_late.
