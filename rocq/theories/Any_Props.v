(** C69: the object that stores a copy of a value. *)
From Verif Require Import Any_Model Any_Spec Any_Proofs Any_Proofs2.
From Coq Require Import List Arith ZArith Lia Bool.
Import ListNotations.
Open Scope nat_scope.

(** After any history each object holds the last value that was stored in it, whatever became of the source: its type, its dimensions and its contents. *)
Theorem C69_stored_partial l w a k s : history l w a -> a k = Some s -> holds w k s.
Proof. apply held. Qed.
Print Assumptions C69_stored_partial.

Lemma clean_kind h d h' d' : kd d <> Str -> clean_up h d = Some (h', d') -> kd d' <> Str.
Proof.
  intros H E. assert (X : d' = d \/ d' = void).
  { unfold clean_up in E. repeat match type of E with context [match ?x with _ => _ end] => destruct x; try discriminate E end; injection E as _ <-; auto. }
  destruct X as [-> | ->]; [exact H|discriminate].
Qed.
Lemma serialise_kind h own src b h' d' : kd own <> Str -> serialise h own src = Some (b, h', d') -> kd d' <> Str.
Proof.
  intros H E. unfold serialise in E. destruct (clean_up h own) as [[h1 own1]|] eqn:C; [|discriminate]. pose proof (clean_kind _ _ _ _ H C) as K.
  match type of E with match ?x with _ => _ end = _ => destruct x as [[[ok h2] c]|]; [|discriminate] end. injection E as _ _ <-.
  unfold new_type. destruct (_ && _); [exact K|]. cbn [kd]. unfold stored_kind. destruct (kd src); discriminate.
Qed.
Lemma step_kind w o b w' : (forall k, kd (objs w k) <> Str) -> step w o = Some (b, w') -> forall k, kd (objs w' k) <> Str.
Proof.
  intros H E k. destruct o as [j src|j|bs|i bs|i]; cbn [step] in E.
  - destruct (serialise (mem w) (objs w j) src) as [[[ok h] d]|] eqn:S; [|discriminate]. injection E as _ <-. cbn [objs]. unfold upd.
    destruct (Nat.eqb_spec k j); [apply (serialise_kind _ _ _ _ _ _ (H j) S)|apply H].
  - destruct (clean_up (mem w) (objs w j)) as [[h d]|] eqn:S; [|discriminate]. injection E as _ <-. cbn [objs]. unfold upd.
    destruct (Nat.eqb_spec k j); [apply (clean_kind _ _ _ _ (H j) S)|apply H].
  - destruct (alloc (mem w) bs). injection E as _ <-. apply H.
  - destruct (mine w i); injection E as _ <-; apply H.
  - destruct (mine w i); [|injection E as _ <-; apply H]. destruct (free (mem w) i); [|discriminate]. injection E as _ <-. apply H.
Qed.
(** The type that the object reports is the one of the value: a StreamString has become a C string, so nobody reads the copy as a StreamString. *)
Theorem C69_type_partial l w a k s : history l w a -> a k = Some s ->
  kd (objs w k) = s_kind s /\ (nd (objs w k), n0 (objs w k), n1 (objs w k), n2 (objs w k)) = s_dims s /\ kd (objs w k) <> Str.
Proof.
  intros H A. assert (N : forall k, kd (objs w k) <> Str).
  { clear A. induction H as [|l w a j src v w' _ IH _ S|l w a j src w' _ IH _ _ S|l w a j w' _ IH S|l w a o b w' _ IH _ S]; try apply (step_kind _ _ _ _ IH S). discriminate. }
  destruct (C69_stored_partial _ _ _ _ _ H A) as (v & _ & ->). cbn [as_stored s_kind s_dims]. specialize (N k). split; [|split; [reflexivity|exact N]].
  destruct (kd (objs w k)); congruence.
Qed.
Print Assumptions C69_type_partial.

(** Storing a value that can be read succeeds, a form that is not supported is refused, CleanUp works, and the program can use its own blocks:
    nothing is undefined. *)
Theorem C69_defined_partial l w a : history l w a -> run start l = Some w
  /\ (forall k src v, good_source w k src v -> exists w', step w (Serialise k src) = Some (true, w'))
  /\ (forall k src, sized src -> refused src -> exists w', step w (Serialise k src) = Some (false, w'))
  /\ (forall k, exists w', step w (CleanUp k) = Some (true, w') /\ ptr (objs w' k) = Null)
  /\ (forall o, match o with Serialise _ _ | CleanUp _ => False | _ => True end -> exists b w', step w o = Some (b, w')).
Proof.
  intros H. pose proof (history_inv _ _ _ H) as I. split; [apply (history_run _ _ _ H)|]. split; [|split; [|split]].
  - intros k src v G. destruct (step_store w a k src v I G) as (w' & S & _). eauto.
  - intros k src Z R. destruct (step_refuse w a k src I Z R) as (w' & S & _). eauto.
  - intros k. destruct (step_clean w a k I) as (w' & S & _ & P & _). eauto.
  - intros o O. destruct (step_client w a o I O) as (b & w' & S & _). eauto.
Qed.
Print Assumptions C69_defined_partial.

(** When the objects that hold something have been cleaned, every block that they took is free again, and those of the program are all there. *)
Theorem C69_no_leak_partial l w a ks : history l w a -> (forall k, ~ In k ks -> ptr (objs w k) = Null) ->
  exists w', run w (map CleanUp ks) = Some w' /\ client w' = client w /\ forall i, get (mem w') i <> None <-> In i (client w).
Proof. apply no_leak. Qed.
Print Assumptions C69_no_leak_partial.

(** The blocks of the program are never changed by an object. *)
Theorem C69_client_partial l w a k i : history l w a -> In i (client w) ->
  (forall src v w', good_source w k src v -> step w (Serialise k src) = Some (true, w') -> get (mem w') i = get (mem w) i)
  /\ (forall w', step w (CleanUp k) = Some (true, w') -> get (mem w') i = get (mem w) i).
Proof.
  intros H J. pose proof (history_inv _ _ _ H) as I. destruct (Inv_clean w a k I) as (h1 & d1 & C). destruct (Inv_replace w a k h1 d1 I C) as (B1 & _ & _).
  destruct I as (lo & hi & I1 & I2 & I3 & I4 & I5 & I6). destruct (I3 i J) as [L N].
  destruct (clean_ok (mem w) (objs w k) (lo k) (hi k) (Shape_ext _ _ _ _ _ (ext_restr _ _ _) (I1 k))) as (h2 & d2 & C2 & [N2 G2] & P2).
  rewrite C in C2. injection C2 as <- <-. assert (K : get h1 i = get (mem w) i).
  { rewrite G2. destruct (inr (lo k) (hi k) i) eqn:E; [apply inr_true in E; exfalso; apply (N k E)|reflexivity]. }
  split.
  - intros src v w' (Z & h2 & d2 & CC & V) S. rewrite C in CC. injection CC as <- <-. destruct (serialise_ok _ _ _ _ _ _ C B1 Z V) as (h' & d' & E & G & _).
    cbn [step] in S. rewrite E in S. injection S as <-. cbn [mem]. rewrite (g_old _ _ G); [exact K|]. rewrite N2. apply I5. exact L.
  - intros w' S. cbn [step] in S. rewrite C in S. injection S as <-. exact K.
Qed.
Print Assumptions C69_client_partial.

(** A case that meets the hypotheses: two strings, in a vector of StreamString, are stored; then one is overwritten and the other is freed. *)
Definition table : desc := Desc Str 1 2 1 1 true (Addr 2).
Definition story : list op := [Make [Byte 65; Byte 0]; Make [Byte 66; Byte 67; Byte 0]; Make [Addr 0; Addr 1]; Serialise 7 table; Write 0 [Byte 90; Byte 0]; Drop 1].
Definition texts : content := Texts [[[65%Z]; [66%Z; 67%Z]]].
Lemma story_history : exists w, history story w (upd (fun _ => None) 7 (Some (Stored CStr (1, 2, 1, 1) true texts))).
Proof.
  eexists. change story with (((((([] ++ [Make [Byte 65; Byte 0]]) ++ [Make [Byte 66; Byte 67; Byte 0]]) ++ [Make [Addr 0; Addr 1]]) ++ [Serialise 7 table]) ++ [Write 0 [Byte 90; Byte 0]]) ++ [Drop 1]).
  eapply H_client; [eapply H_client; [change (Stored CStr (1, 2, 1, 1) true texts) with (as_stored table texts); eapply H_store|..]|..].
  - eapply H_client; [eapply H_client; [eapply H_client; [apply H_start|..]|..]|..]; try exact Logic.I; vm_compute; reflexivity.
  - split; [repeat split; cbn; lia|]. eexists. eexists. split; vm_compute; reflexivity.
  - vm_compute; reflexivity.
  - exact Logic.I.
  - vm_compute; reflexivity.
  - exact Logic.I.
  - vm_compute; reflexivity.
Qed.
Example C69_case : exists w, history story w (upd (fun _ => None) 7 (Some (Stored CStr (1, 2, 1, 1) true texts))) /\ value (mem w) (objs w 7) = Some texts
  /\ value (mem w) table = None /\ client w = [2; 0] /\ length (blocks (mem w)) > 2.
Proof.
  destruct story_history as [w H]. exists w. split; [exact H|]. pose proof (history_run _ _ _ H) as R. vm_compute in R. injection R as <-. repeat split; cbn; lia.
Qed.
(** A matrix of strings whose rows are on the heap, stored and cleaned: nothing is left. *)
Example C69_rows : exists w, run start [Make [Byte 65; Byte 0]; Make [Addr 0; Addr 0]; Make [Addr 1; Addr 1; Addr 1]; Serialise 0 (Desc CStr 2 2 3 1 false (Addr 2))] = Some w
  /\ value (mem w) (objs w 0) = Some (Texts [[[65%Z]; [65%Z]]; [[65%Z]; [65%Z]]; [[65%Z]; [65%Z]]]) /\ next (mem w) = 13
  /\ exists w', run w [CleanUp 0] = Some w' /\ map fst (blocks (mem w')) = [2; 1; 0].
Proof. eexists. split; [vm_compute; reflexivity|]. split; [vm_compute; reflexivity|]. split; [reflexivity|]. eexists. split; vm_compute; reflexivity. Qed.

(** A table of strings with a NULL in it is not merely refused: the next CleanUp (or the destruction of the object) frees pointers that were never written. *)
Theorem C69_null_string_refuted : ~ (forall l w k src w', run start l = Some w -> sized src -> nd src = 1 -> kd src = CStr ->
  (exists cs, load (mem w) (ptr src) (n0 src) = Some cs /\ Forall (fun c => c = Null \/ text_at (mem w) c <> None) cs) ->
  step w (Serialise k src) = Some (false, w') -> step w' (CleanUp k) <> None).
Proof.
  intros H. refine (H [Make [Byte 65; Byte 0]; Make [Addr 0; Null; Addr 0]] _ 0 (Desc CStr 1 3 1 1 true (Addr 1)) _ eq_refl _ eq_refl eq_refl _ eq_refl eq_refl).
  - repeat split; cbn; lia.
  - exists [Addr 0; Null; Addr 0]. split; [reflexivity|]. apply Forall_forall. intros c [<-|[<-|[<-|[]]]]; [right; discriminate|left; reflexivity|right; discriminate].
Qed.
Print Assumptions C69_null_string_refuted.
(** A vector of pointers is stored, but its block is never freed. *)
Theorem C69_pointers_refuted : ~ (forall l w k src w1 w2, run start l = Some w -> sized src -> load (mem w) (ptr src) (n0 src) <> None ->
  step w (Serialise k src) = Some (true, w1) -> step w1 (CleanUp k) = Some (true, w2) -> forall i, get (mem w2) i <> None -> In i (client w2)).
Proof.
  intros H. assert (X := H [Make [Addr 0; Addr 0]] _ 0 (Desc Pointer 1 2 1 1 true (Addr 0)) _ _ eq_refl ltac:(repeat split; cbn; lia) ltac:(discriminate) eq_refl eq_refl 1 ltac:(discriminate)).
  cbn in X. intuition congruence.
Qed.
Print Assumptions C69_pointers_refuted.
(** The value of an object, stored in the same object, is freed before it is read. *)
Theorem C69_own_value_refuted : ~ (forall l w a k v, history l w a -> value (mem w) (objs w k) = Some v -> step w (Serialise k (objs w k)) <> None).
Proof.
  intros H. destruct story_history as [w S]. pose proof (history_run _ _ _ S) as R. apply (H story w _ 7 texts S); vm_compute in R; injection R as <-; vm_compute; reflexivity.
Qed.
Print Assumptions C69_own_value_refuted.
(** A refused value takes with it the one that was held. *)
Theorem C69_atomic_refuted : ~ (forall l w a k src s w', history l w a -> a k = Some s -> sized src -> refused src -> step w (Serialise k src) = Some (false, w') -> holds w' k s).
Proof.
  intros H. destruct story_history as [w S]. pose proof (history_run _ _ _ S) as R. vm_compute in R. injection R as <-.
  destruct (H story _ _ 7 (Desc CStr 3 1 1 1 true (Addr 2)) _ _ S eq_refl ltac:(repeat split; cbn; lia) ltac:(right; split; [reflexivity|right; reflexivity]) eq_refl) as (v & V & _).
  vm_compute in V. discriminate.
Qed.
Print Assumptions C69_atomic_refuted.
