(** C75: the polling event releases its waiters when it is open, and only then. *)
From Verif Require Import Fpe_Model Fpe_Spec Fpe_Proofs.
From Coq Require Import List ZArith Lia Bool Arith.
Import ListNotations.
Open Scope Z_scope.

(** A wait that returned NoError tested the flag, after it was entered, at a moment at which the event was open *)
Theorem C75_released_partial : forall c h s t, run (start c) h = Some s -> thread s t = Returned true ->
  exists h0 ticks inf a b, h = h0 ++ Begin t ticks inf :: a ++ Check t :: b /\ no_begin t a /\ no_begin t b /\ is_open (h0 ++ Begin t ticks inf :: a).
Proof. intros c h s t R E. destruct (run_inv _ _ _ R) as (_ & _ & _ & K). specialize (K t). rewrite E in K. exact K. Qed.
Print Assumptions C75_released_partial.

(** A wait that returned Timeout was not infinite, and more than its ticks passed between its entry and its last look at the clock; the last time that it tested the flag the event was closed *)
Theorem C75_timeout_partial : forall c h s t, run (start c) h = Some s -> thread s t = Returned false ->
  exists h0 ticks a b d, h = h0 ++ Begin t ticks false :: a ++ Check t :: b ++ Clock t :: d /\ no_begin t a /\ no_begin t b /\ no_begin t d /\
    ~ is_open (h0 ++ Begin t ticks false :: a) /\ elapsed (a ++ Check t :: b) > ticks.
Proof. intros c h s t R E. destruct (run_inv _ _ _ R) as (_ & _ & _ & K). specialize (K t). rewrite E in K. exact K. Qed.
Print Assumptions C75_timeout_partial.

(** Once the event is open, and as long as nobody closes it, every thread that is about to test the flag is released by its next test, whatever the others do and however
    many they are; it does not time out *)
Theorem C75_prompt_partial : forall c h h' s s' t stop inf, run (start c) h = Some s -> is_open h -> thread s t = AtFlag stop inf ->
  run s h' = Some s' -> (forall e, In e h' -> closes e = false) -> no_begin t h' ->
  (In (Check t) h' -> thread s' t = Returned true) /\ (~ In (Check t) h' -> thread s' t = AtFlag stop inf).
Proof. intros c h h' s s' t stop inf R O P Q C N. exact (prompt c h t h' s s' stop inf R O P Q C N). Qed.
Print Assumptions C75_prompt_partial.

(** A thread in a wait can always do its next step: the wait never blocks on another thread *)
Theorem C75_never_stuck : forall c h s t, run (start c) h = Some s ->
  match thread s t with
  | AtFlag _ _ => exists s', step s (Check t) = Some s'
  | AtClock _ => exists s', step s (Clock t) = Some s'
  | _ => forall ticks inf, exists s', step s (Begin t ticks inf) = Some s'
  end /\ (exists s', step s Post = Some s' /\ flag s' <> 0) /\ (exists s', step s Reset = Some s' /\ flag s' = 0).
Proof.
  intros c h s t _. split; [|split; eexists; split; try reflexivity; discriminate].
  cbn [step]. destruct (thread s t); try (intros; eexists; reflexivity); eexists; reflexivity.
Qed.
Print Assumptions C75_never_stuck.

(** Two threads wait; the event is posted; both are released *)
Definition before : list event := [Create true; Begin 0 5 false; Begin 1 0 true; Check 0; Check 1; Elapse 3; Clock 0; Post].
Definition after : list event := [Check 1; Elapse 9; Begin 2 1 false; Check 0].
Example before_open : is_open before /\ (forall e, In e after -> closes e = false) /\ no_begin 0 after /\ no_begin 1 after.
Proof.
  split; [exists [Create true; Begin 0 5 false; Begin 1 0 true; Check 0; Check 1; Elapse 3; Clock 0], Post, []; repeat split; intros x []|].
  split; [intros e [<-|[<-|[<-|[<-|[]]]]]; reflexivity|]. split; intros k i [E|[E|[E|[E|[]]]]]; discriminate.
Qed.
Example two_waiters : match run (start 100) before with
  | Some s => thread s 0%nat = AtFlag 105 false /\ thread s 1%nat = AtFlag 100 true /\
              match run s after with Some s' => thread s' 0%nat = Returned true /\ thread s' 1%nat = Returned true | None => False end
  | None => False end.
Proof. vm_compute. repeat split. Qed.
Example one_timeout : exists s, run (start 100) [Begin 0 5 false; Check 0; Elapse 6; Clock 0] = Some s /\ thread s 0%nat = Returned false.
Proof. eexists. split; reflexivity. Qed.

(** Finding: a wait can report Timeout although the event was opened before the time was over and stayed open: the post falls between the test of the flag and the test of the clock *)
Theorem C75_late_refuted : ~ (forall c h s t h0 ticks a d, run (start c) h = Some s -> thread s t = Returned false ->
  h = h0 ++ Begin t ticks false :: a ++ Post :: d -> no_begin t (a ++ d) -> (forall e, In e d -> closes e = false) -> elapsed a > ticks).
Proof.
  intros H. assert (X := H 100 [Begin 0 5 false; Check 0; Post; Elapse 6; Clock 0] _ 0%nat [] 5 [Check 0] [Elapse 6; Clock 0] eq_refl eq_refl eq_refl).
  assert (Y : elapsed [Check 0] > 5); [|vm_compute in Y; discriminate]. apply X.
  - intros k i [E|[E|[E|[]]]]; discriminate.
  - intros e [<-|[<-|[]]]; reflexivity.
Qed.
Print Assumptions C75_late_refuted.

(** Finding: a post that is followed by a reset may release no one who is waiting *)
Theorem C75_pulse_refuted : ~ (forall c h s t h0 ticks inf a d, run (start c) h = Some s ->
  h = h0 ++ Begin t ticks inf :: a ++ Post :: d -> no_begin t (a ++ d) -> In (Check t) d -> thread s t = Returned true).
Proof.
  intros H. assert (X := H 100 [Begin 0 5 true; Check 0; Post; Reset; Check 0] _ 0%nat [] 5 true [Check 0] [Reset; Check 0] eq_refl eq_refl).
  assert (Y : AtFlag 105 true = Returned true); [|discriminate Y]. apply X.
  - intros k i [E|[E|[E|[]]]]; discriminate.
  - right. left. reflexivity.
Qed.
Print Assumptions C75_pulse_refuted.
