(** The two ways of configuring agree when the threads list GAMs; and one
    signal to wait for. *)
From Coq Require Import ZArith List Bool String Lia PeanoNat.
From Verif Require Import Base Broker_Model SigMem_Model Prod_Model Prod_Spec Prod_Proofs.
Import ListNotations.
Open Scope string_scope. Open Scope nat_scope. Open Scope list_scope.

Lemma append_length a b : String.length (a ++ b)%string = String.length a + String.length b.
Proof. induction a as [|c a IH]; cbn; [reflexivity|now rewrite IH]. Qed.
Lemma inner_within names p n : In n (inner names p) -> In n names /\ within p n /\ n <> p.
Proof.
  unfold inner. rewrite filter_In, prefix_iff. intros [I (r & ->)]. split; [exact I|]. split.
  - right. exists r. symmetry. apply append_assoc.
  - intro H. apply (f_equal String.length) in H. rewrite !append_length in H. cbn in H. lia.
Qed.

Lemma expand_one names p : NoDup names -> (forall n, In n names -> within p n -> n = p) ->
  expand names p = if existsb (String.eqb p) names then [p] else [].
Proof.
  intros ND H. induction ND as [|n names NI ND IH]; [reflexivity|].
  unfold expand in *. cbn [filter existsb].
  change (String.eqb p n || String.prefix (p ++ ".") n) with (belongs p n).
  specialize (IH (fun m I => H m (or_intror I))).
  destruct (belongs p n) eqn:B.
  - apply belongs_iff in B. pose proof (H n (or_introl eq_refl) B) as ->. rewrite String.eqb_refl. cbn [orb].
    f_equal. rewrite IH. destruct (existsb (String.eqb p) names) eqn:E; [|reflexivity].
    apply existsb_exists in E. destruct E as (m & I & E). apply String.eqb_eq in E. subst m. contradiction.
  - destruct (String.eqb_spec p n) as [->|NE]; [|exact IH]. exfalso.
    assert (belongs n n = true) by (apply belongs_iff; now left). congruence.
Qed.

Section Same.
Variable a : rtapp.
Hypothesis ND : NoDup (names_of a).

Definition plain (T : thread) : Prop :=
  forall p n, In p (t_functions T) -> In n (names_of a) -> within p n -> n = p.

Lemma functions_same c st t ps : (forall p n, In p ps -> In n (names_of a) -> within p n -> n = p) -> forall N k,
  fold_opt (one_function a st t) ps (c, (N, k)) =
  match thread_gams (names_of a) ps with
  | Some ns => match gams (x_functions a) c (x_same a) st t (N, k) ns with Some y => Some (c, y) | None => None end
  | None => None
  end.
Proof.
  induction ps as [|p ps IH]; intros H N k; cbn [fold_opt thread_gams]; [reflexivity|].
  specialize (IH (fun q n I => H q n (or_intror I))).
  unfold one_function at 1. cbn [fst snd].
  assert (IN : inner (names_of a) p = []).
  { destruct (inner (names_of a) p) as [|n l] eqn:E; [reflexivity|]. exfalso.
    destruct (inner_within (names_of a) p n) as (I & W & NE); [rewrite E; now left|].
    apply NE. apply (H p n); auto. now left. }
  rewrite IN, (expand_one _ _ ND) by (intros n; apply H; now left).
  destruct (existsb (String.eqb p) (names_of a)); [|reflexivity].
  destruct (one_gam (x_functions a) c (x_same a) st t (N, k) p) as [[N1 k1]|] eqn:E.
  - rewrite IH. destruct (thread_gams (names_of a) ps) as [ns|]; [|reflexivity].
    change ([p] ++ ns) with (p :: ns). cbn [gams]. now rewrite E.
  - destruct (thread_gams (names_of a) ps) as [ns|]; [|reflexivity].
    change ([p] ++ ns) with (p :: ns). cbn [gams]. now rewrite E.
Qed.
Lemma thread_same c st N T : plain T ->
  thread_before a st (c, N) T = match thread_after a c st N T with Some N' => Some (c, N') | None => None end.
Proof.
  intro P. unfold thread_before, thread_after. cbn [fst snd]. rewrite functions_same by exact P.
  destruct (thread_gams (names_of a) (t_functions T)) as [ns|]; [|reflexivity].
  destruct (gams (x_functions a) c (x_same a) st (t_name T) (N, 0) ns) as [[N' k]|]; [|reflexivity].
  destruct (k <=? 1); reflexivity.
Qed.
Lemma threads_same c st Ts : Forall plain Ts -> forall N,
  fold_opt (thread_before a st) Ts (c, N) = match fold_opt (thread_after a c st) Ts N with Some N' => Some (c, N') | None => None end.
Proof.
  induction 1 as [|T Ts P F IH]; intro N; cbn [fold_opt]; [reflexivity|]. rewrite thread_same by exact P.
  destruct (thread_after a c st N T); [apply IH|reflexivity].
Qed.
Lemma states_same c ss : Forall (fun s => s_before s < x_children a /\ Forall plain (s_threads s)) ss -> forall N,
  fold_opt (state_before a) ss (c, N) = match fold_opt (state_after a c) ss N with Some N' => Some (c, N') | None => None end.
Proof.
  induction 1 as [|s ss [L P] F IH]; intro N; cbn [fold_opt]; [reflexivity|].
  unfold state_before at 1, state_after at 1. destruct (Nat.ltb_spec (s_before s) (x_children a)); [|lia].
  rewrite threads_same by exact P. destruct (fold_opt (thread_after a c (s_name s)) (s_threads s) N); [apply IH|reflexivity].
Qed.
End Same.

Lemma before_after a : distinct_names a -> no_groups a -> threads_near a -> configure_before a = configure_after a.
Proof.
  intros (ND & _ & _) G NR. change (NoDup (names_of a)) in ND. unfold configure_before, configure_after. f_equal.
  unfold states_before, states_after. rewrite (states_same a ND).
  - destruct (fold_opt _ _ _); reflexivity.
  - apply Forall_forall. intros s I. split; [apply NR, I|]. apply Forall_forall. intros T IT p n Ip In' W.
    exact (G s T p n I IT Ip In' W).
Qed.

(** One signal to wait for. *)
Lemma sum_in l x : In x l -> x <= list_sum l.
Proof.
  induction l as [|y l IH]; [intros []|]. change (list_sum (y :: l)) with (y + list_sum l).
  intros [->|I]; [lia|]. specialize (IH I). lia.
Qed.
Lemma sum_two {A} (g : A -> nat) l x y : In x l -> In y l -> x <> y -> g x + g y <= list_sum (map g l).
Proof.
  induction l as [|z l IH]; [intros []|]. cbn [map]. change (list_sum (g z :: map g l)) with (g z + list_sum (map g l)).
  intros [->|I] [->|J] NE.
  - congruence.
  - pose proof (sum_in (map g l) (g y) (in_map g l y J)). lia.
  - pose proof (sum_in (map g l) (g x) (in_map g l x I)). lia.
  - specialize (IH I J NE). lia.
Qed.
Lemma filter_one {A} (f : A -> bool) l i x : nth_error l i = Some x -> f x = true -> 1 <= List.length (filter f l).
Proof.
  intros H F. assert (I : In x (filter f l)) by (apply filter_In; split; [eapply nth_error_In; eauto|exact F]).
  destruct (filter f l); [destruct I|cbn; lia].
Qed.
Lemma filter_two {A} (f : A -> bool) l : forall i j x y, nth_error l i = Some x -> nth_error l j = Some y ->
  f x = true -> f y = true -> i <> j -> 2 <= List.length (filter f l).
Proof.
  induction l as [|z l IH]; intros i j x y Hi Hj Fx Fy NE; [destruct i; discriminate|].
  destruct i as [|i], j as [|j]; cbn [nth_error] in Hi, Hj; cbn [filter].
  - congruence.
  - injection Hi as ->. rewrite Fx. cbn [List.length]. pose proof (filter_one f l j y Hj Fy). lia.
  - injection Hj as ->. rewrite Fy. cbn [List.length]. pose proof (filter_one f l i x Hi Fx). lia.
  - assert (2 <= List.length (filter f l)) by (eapply (IH i j); eauto). destruct (f z); cbn [List.length]; lia.
Qed.

Lemma flat_map_map {A B C} (g : B -> C) (h : A -> list B) l : flat_map (fun p => map g (h p)) l = map g (flat_map h l).
Proof. induction l as [|x l IH]; cbn; [reflexivity|]. now rewrite map_app, IH. Qed.

Lemma one_wait a s T i1 o1 j1 i2 o2 j2 : NoDup (names_of a) -> cycle_waits a T <= 1 ->
  runs a s T i1 -> sync_signal a i1 o1 j1 -> runs a s T i2 -> sync_signal a i2 o2 j2 ->
  i1 = i2 /\ o1 = o2 /\ j1 = j2.
Proof.
  intros ND W R1 (f1 & x1 & F1 & X1 & Y1) R2 (f2 & x2 & F2 & X2 & Y2).
  unfold cycle_waits in W. rewrite flat_map_map in W.
  set (L := flat_map (fun p => filter (fun f => belongs p (f_name f)) (x_functions a)) (t_functions T)) in W.
  assert (IL : forall i f, runs a s T i -> nth_error (x_functions a) i = Some f -> In f L).
  { intros i f (_ & _ & p & g & Ip & Hg & Wp) Hf. assert (g = f) by congruence. subst g.
    apply in_flat_map. exists p. split; [exact Ip|]. apply filter_In. split; [eapply nth_error_In; eauto|].
    now apply belongs_iff. }
  pose proof (IL _ _ R1 F1) as L1. pose proof (IL _ _ R2 F2) as L2.
  assert (P : forall f (o : bool) j x, nth_error (if o then f_out f else f_in f) j = Some x ->
    nth_error (f_in f ++ f_out f) (if o then List.length (f_in f) + j else j) = Some x).
  { intros f o j x H. destruct o.
    - rewrite nth_error_app2 by lia. rewrite <- H. f_equal. lia.
    - rewrite nth_error_app1; [exact H|]. apply nth_error_Some. congruence. }
  assert (W1 : 1 <= waits f1) by (eapply filter_one; [apply P, X1|exact Y1]).
  assert (W2 : 1 <= waits f2) by (eapply filter_one; [apply P, X2|exact Y2]).
  destruct (Nat.eq_dec i1 i2) as [<-|NE].
  - assert (f2 = f1) by congruence. subst f2. split; [reflexivity|].
    pose proof (sum_in (map waits L) (waits f1) (in_map waits L f1 L1)) as U.
    destruct (Nat.eq_dec (if o1 then List.length (f_in f1) + j1 else j1) (if o2 then List.length (f_in f1) + j2 else j2)) as [E|NE].
    + destruct o1, o2; try (split; [reflexivity|lia]); exfalso.
      * assert (j2 < List.length (f_in f1)) by (apply nth_error_Some; congruence). lia.
      * assert (j1 < List.length (f_in f1)) by (apply nth_error_Some; congruence). lia.
    + exfalso. pose proof (filter_two g_sync _ _ _ _ _ (P _ _ _ _ X1) (P _ _ _ _ X2) Y1 Y2 NE) as V.
      change (2 <= waits f1) in V. lia.
  - exfalso. assert (f1 <> f2).
    { intros ->. apply NE. eapply nth_inj; eauto. }
    pose proof (sum_two waits L f1 f2 L1 L2 H). lia.
Qed.
