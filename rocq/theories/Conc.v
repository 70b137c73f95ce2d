(** Executions of a system of threads under an explicit schedule: a schedule is the list of the actions taken. *)
From Verif Require Import Base.

Section Exec.
Context {St Act : Type} (step : St -> Act -> option St).
(** None: the schedule asks for an action that is not possible at that point. *)
Fixpoint exec (s : St) (sched : list Act) : option St :=
  match sched with
  | [] => Some s
  | a :: r => match step s a with None => None | Some s => exec s r end
  end.
Lemma exec_inv (P : St -> Prop) : (forall s a s', P s -> step s a = Some s' -> P s') ->
  forall sched s s', P s -> exec s sched = Some s' -> P s'.
Proof.
  intros HS. induction sched as [|a r IH]; intros s s' HP E; cbn in E.
  - injection E as <-. exact HP.
  - destruct (step s a) eqn:ES; [|discriminate]. eapply IH; [|exact E]. eapply HS; eauto.
Qed.
Lemma exec_app l1 : forall s l2, exec s (l1 ++ l2) = match exec s l1 with None => None | Some s' => exec s' l2 end.
Proof. induction l1 as [|a l1 IH]; intros s l2; cbn; [reflexivity|]. destruct (step s a); auto. Qed.
End Exec.

(** Functions on threads, changed at one thread. *)
Definition upd {A} (f : nat -> A) (t : nat) (x : A) : nat -> A := fun u => if Nat.eqb u t then x else f u.
Lemma upd_same {A} (f : nat -> A) t x : upd f t x t = x.
Proof. unfold upd. rewrite Nat.eqb_refl. reflexivity. Qed.
Lemma upd_other {A} (f : nat -> A) t x u : u <> t -> upd f t x u = f u.
Proof. intros H. unfold upd. apply Nat.eqb_neq in H. rewrite H. reflexivity. Qed.
Lemma upd_cases {A} (f : nat -> A) t x u : (u = t /\ upd f t x u = x) \/ (u <> t /\ upd f t x u = f u).
Proof. destruct (Nat.eq_dec u t) as [->|N]; [left; rewrite upd_same; auto|right; rewrite upd_other by auto; auto]. Qed.
