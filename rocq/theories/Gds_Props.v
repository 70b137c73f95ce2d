(** C57: the memory shared by functions, and what a change of state does to it. *)
From Verif Require Import Base Gds_Model Gds_Spec Gds_Proofs Gds_Proofs2.

(** Every declaration that can be served gets a zeroed block in which each signal has its own bytes:
    inside the block and apart from the ones of the other signals. *)
Theorem C57_layout d : servable d ->
  exists o, allocate d = Some o /\ total o = needs d (signals d) /\ (forall a, mem o a = 0)
    /\ (forall k s, nth_error (signals d) k = Some s ->
          buffer d o k 0 = Some (place d k) /\ 0 <= place d k /\ place d k + need d s <= total o
          /\ forall j t, nth_error (signals d) j = Some t -> j <> k ->
               place d j + need d t <= place d k \/ place d k + need d s <= place d j)
    /\ (forall k buf, (List.length (signals d) <= k)%nat \/ buf <> 0%nat -> buffer d o k buf = None).
Proof.
  intros SV. destruct (allocate_spec d SV) as [o [E [[T O] [F M]]]]. exists o.
  pose proof (proj2 (proj2 SV) : positive d (signals d)) as P.
  split; [exact E|]. split; [exact T|]. split; [exact M|]. split.
  - intros k s Hk. assert ((k < List.length (signals d))%nat) as L by (apply nth_error_Some; congruence).
    split; [|split; [|split]].
    + unfold buffer. change (Nat.ltb 0 1) with true. cbn iota.
      destruct (Nat.ltb k (List.length (signals d))) eqn:E2; [|apply Nat.ltb_ge in E2; lia]. rewrite O by exact L. reflexivity.
    + apply place_nonneg; exact P.
    + rewrite T. apply place_end; assumption.
    + intros j t Hj N. apply (places_apart d j k t s P Hj Hk N).
  - intros k buf H. unfold buffer. destruct (Nat.ltb buf 1) eqn:B; [|reflexivity]. apply Nat.ltb_lt in B.
    destruct (Nat.ltb k (List.length (signals d))) eqn:E2; [|reflexivity]. apply Nat.ltb_lt in E2. lia.
Qed.
Print Assumptions C57_layout.

(** Nothing is allocated when there is no signal, or when one of them has no bytes. *)
Theorem C57_refused d : signals d = [] \/ (exists s, In s (signals d) /\ multiple d = false /\ bytes s <= 0) -> allocate d = None.
Proof.
  unfold allocate. intros [H|[s [Hs [M B]]]].
  - rewrite H. reflexivity.
  - assert (forall l size, In s l -> offsets_from d l size = None) as A.
    { induction l as [|x r IH]; intros size; [intros []|]. cbn [offsets_from]. unfold reserved. rewrite M.
      intros [->|H].
      - destruct (0 <? bytes s) eqn:E; [lia|reflexivity].
      - destruct (0 <? bytes x); [|reflexivity]. rewrite (IH _ H). reflexivity. }
    rewrite (A _ 0 Hs). destruct (signals d); reflexivity.
Qed.
Print Assumptions C57_refused.

(** PrepareNextState: a signal that some function reads and that no function produces in the current
    state goes back to its default (to zero without one), the first time and when the option asks for
    it; every other byte of the memory stays as it is.  It never writes outside the block.
    Partial: only the first sample of a signal with several samples goes back, see C57_samples_refuted. *)
Theorem C57_change_partial d o0 o cur : servable d -> wellformed d ->
  allocate d = Some o0 -> offs o = offs o0 -> total o = total o0 ->
  match prepare d o cur with
  | Done o' =>
      force o' = false /\ offs o' = offs o /\ total o' = total o
      /\ (forall k s, nth_error (signals d) k = Some s -> forall i, 0 <= i < need d s ->
            mem o' (place d k + i) =
              if (reset_unused d || force o) && consumed d k && (producers s cur =? 0) && (i <? bytes s)
              then nth (Z.to_nat i) (initial s) 0 else mem o (place d k + i))
      /\ (forall a, a < 0 \/ needs d (signals d) <= a -> mem o' a = mem o a)
  | Failed => True
  | Bad => False
  end.
Proof.
  intros SV WF E O T. destruct (allocate_spec d SV) as [o1 [E1 [LO _]]]. rewrite E in E1. injection E1 as <-.
  assert (laid_out d o) as L by (unfold laid_out; rewrite O, T; exact LO).
  pose proof (prepare_spec d o cur SV WF L) as H. destruct (prepare d o cur) as [o'| |]; [|exact I|exact H].
  destruct H as [H1 [H2 [H3 [_ [H5 H6]]]]]. split; [exact H3|]. split; [exact H1|]. split; [exact H2|]. split; [|exact H6].
  intros k s Hk i Hi. rewrite (H5 k s Hk i Hi). unfold must. rewrite Hk. reflexivity.
Qed.
Print Assumptions C57_change_partial.

(** It returns true exactly when it has nothing to reset or when what it has to reset can be: each
    input names a signal, of a known type, whose default has its shape and converts to its type. *)
Theorem C57_accepted d o0 o cur : servable d -> wellformed d ->
  allocate d = Some o0 -> offs o = offs o0 -> total o = total o0 ->
  (exists o', prepare d o cur = Done o') <-> (reset_unused d || force o = true -> resettable d cur).
Proof.
  intros SV WF E O T. destruct (allocate_spec d SV) as [o1 [E1 [LO _]]]. rewrite E in E1. injection E1 as <-.
  assert (laid_out d o) as L by (unfold laid_out; rewrite O, T; exact LO).
  pose proof (prepare_spec d o cur SV WF L) as H. destruct (prepare d o cur) as [o'| |].
  - split; [intros _; apply H|]. intros _. exists o'. reflexivity.
  - destruct H as [H1 H2]. split; [intros [o' E2]; discriminate|]. intros H. exfalso. apply H2, H, H1.
  - destruct H.
Qed.
Print Assumptions C57_accepted.

(** Over any history - producers writing in their states, before and after the next state is prepared,
    and any number of changes - a function that starts reading in a new state sees for each signal the
    value of the plain store of Gds_Spec.v: what its producers last wrote, or the initial value if the
    previous state did not produce it.  Partial: the first sample of each signal. *)
Theorem C57_history_partial d o0 l n : servable d -> wellformed d -> allocate d = Some o0 ->
  proper d 0%nat false (l ++ [Change n]) ->
  match run d (o0, 0%nat) (l ++ [Change n]) with
  | Done (o, cur) => cur = n /\ forall k s, nth_error (signals d) k = Some s ->
      content d (mem o) k = life d true 0%nat (fun j => match nth_error (signals d) j with Some t => zeros (bytes t) | None => [] end) (l ++ [Change n]) k
  | Failed => exists c, ~ resettable d c
  | Bad => False
  end.
Proof.
  intros SV WF E Pr. destruct (allocate_spec d SV) as [o1 [E1 [LO [F M]]]]. rewrite E in E1. injection E1 as <-.
  set (v := fun j => match nth_error (signals d) j with Some t => zeros (bytes t) | None => [] end).
  assert (inv d 0%nat true false o0 v) as I0.
  { split; [exact LO|]. split; [rewrite F; reflexivity|]. split; [intros H; discriminate|].
    intros k s Hk. unfold v. rewrite Hk. pose proof (proj2 (proj2 SV) s (nth_error_In _ _ Hk)) as [B _].
    split; [apply zeros_length; lia|]. cbn [andb].
    apply (content_is d _ k s _ Hk); [lia|apply zeros_length; lia|].
    intros i _. rewrite M. unfold zeros. symmetry. apply nth_repeat. }
  pose proof (run_inv d SV WF (l ++ [Change n]) 0%nat true false o0 v I0 Pr) as H.
  pose proof (run_change d l n o0) as RC. unfold state in *. destruct (run d (o0, 0%nat) (l ++ [Change n])) as [[o cur]| |]; [|exact H|exact H].
  split; [apply (RC o cur); reflexivity|]. intros k s Hk.
  destruct H as [_ [_ [_ V]]]. rewrite (final_change l n) in V. destruct (V k s Hk) as [_ V2]. cbn [snd andb] in V2. exact V2.
Qed.
Print Assumptions C57_history_partial.

(** Such a history goes through when the inputs are in order in every state. *)
Theorem C57_history_runs d o0 l n : servable d -> wellformed d -> allocate d = Some o0 ->
  (forall c, resettable d c) -> proper d 0%nat false (l ++ [Change n]) ->
  exists o, run d (o0, 0%nat) (l ++ [Change n]) = Done (o, n).
Proof.
  intros SV WF E R Pr. pose proof (C57_history_partial d o0 l n SV WF E Pr) as H.
  destruct (run d (o0, 0%nat) (l ++ [Change n])) as [[o cur]| |].
  - destruct H as [-> _]. exists o. reflexivity.
  - destruct H as [c H]. contradiction (H (R c)).
  - destruct H.
Qed.
Print Assumptions C57_history_runs.

(** ** A case: a signal with a default, produced in state 1 only, and one without, produced in 2 *)
Definition gain : signal := Signal 4 (Some 1) 0 1 true (Some (Default 0 [1; 1; 1] (Some [7; 0; 0; 0]))) (fun s => if Nat.eqb s 1 then 1 else 0).
Definition pulse : signal := Signal 2 (Some 1) 1 2 true None (fun s => if Nat.eqb s 2 then 1 else 0).
Definition shared : source := Source [gain; pulse] [Some [Some 0%nat]; Some [Some 1%nat; Some 0%nat]] false true.
Definition story : list event :=
  [Prepare; Change 1%nat; Produce 0 0 [1; 2; 3; 4]; Prepare; Produce 0 2 [9]; Change 2%nat; Produce 1 1 [5]; Prepare].

Example C57_case : servable shared /\ wellformed shared /\ (forall c, resettable shared c) /\ proper shared 0%nat false (story ++ [Change 1%nat])
  /\ match allocate shared with
     | Some o0 =>
       match run shared (o0, 0%nat) (story ++ [Change 1%nat]) with
       | Done (o, cur) => cur = 1%nat /\ content shared (mem o) 0 = [7; 0; 0; 0] /\ content shared (mem o) 1 = [0; 5]
       | _ => False
       end
     | None => False
     end.
Proof.
  split; [|split; [|split; [|split]]].
  - split; [discriminate|]. split; [reflexivity|].
    intros s [<-|[<-|[]]]; (split; [reflexivity|discriminate]).
  - intros s v [<-|[<-|[]]] Hv; cbn in Hv; [|discriminate]. injection Hv as <-.
    split; [intros e [<-|[<-|[<-|[]]]]; reflexivity|]. split; [reflexivity|]. intros l H. injection H as <-. reflexivity.
  - assert (forall c k s, nth_error (signals shared) k = Some s -> producers s c = 0 ->
      known s = true /\ forall v, dflt s = Some v -> same_shape s v /\ exists b, dbytes v = Some b) as K.
    { intros c k s Hk _. destruct k as [|[|k]]; cbn in Hk; [injection Hk as <-|injection Hk as <-|destruct k; discriminate].
      - split; [reflexivity|]. intros v Hv. injection Hv as <-. split; [split; [left; reflexivity|reflexivity]|eexists; reflexivity].
      - split; [reflexivity|]. intros v Hv. discriminate. }
    intros c f [<-|[<-|[]]]; eexists; (split; [reflexivity|]).
    + intros i [<-|[]]. exists 0%nat, gain. split; [reflexivity|]. split; [reflexivity|]. apply (K c 0%nat). reflexivity.
    + intros i [<-|[<-|[]]].
      * exists 1%nat, pulse. split; [reflexivity|]. split; [reflexivity|]. apply (K c 1%nat). reflexivity.
      * exists 0%nat, gain. split; [reflexivity|]. split; [reflexivity|]. apply (K c 0%nat). reflexivity.
  - cbn [story app proper].
    split; [reflexivity|].
    split; [exists gain; split; [reflexivity|]; split; [reflexivity|]; split; [lia|vm_compute; discriminate]|].
    split; [exists gain; split; [reflexivity|]; split; [reflexivity|]; split; [lia|vm_compute; discriminate]|].
    split; [reflexivity|].
    split; [exists pulse; split; [reflexivity|]; split; [reflexivity|]; split; [lia|vm_compute; discriminate]|].
    split; [reflexivity|]. exact I.
  - vm_compute. auto.
Qed.
Print Assumptions C57_case.

(** A change of state with the values after the first one: the default is back. *)
Example C57_change_case :
  match allocate shared with
  | Some o0 =>
    match run shared (o0, 0%nat) [Prepare; Change 1%nat; Produce 0 0 [1; 2; 3; 4]; Prepare; Change 2%nat] with
    | Done (o, cur) => content shared (mem o) 0 = [1; 2; 3; 4]
        /\ match prepare shared o cur with Done o' => content shared (mem o') 0 = [7; 0; 0; 0] | _ => False end
    | _ => False
    end
  | None => False
  end.
Proof. vm_compute. auto. Qed.

(** ** Findings *)

(** The whole memory of an unproduced signal should go back to its initial value.  With
    AllowMultipleSamples the samples after the first keep what an earlier state wrote. *)
Definition burst : signal := Signal 1 (Some 2) 0 1 true None (fun s => if Nat.eqb s 1 then 1 else 0).
Definition bursts : source := Source [burst] [Some [Some 0%nat]] true true.

Theorem C57_samples_refuted :
  ~ (forall d o0 l n o cur k s, servable d -> wellformed d -> (forall c, resettable d c) -> allocate d = Some o0 ->
       reset_unused d = true -> run d (o0, 0%nat) (l ++ [Prepare; Change n]) = Done (o, cur) ->
       nth_error (signals d) k = Some s -> consumed d k = true ->
       (exists o1 c1, run d (o0, 0%nat) l = Done (o1, c1) /\ producers s c1 = 0) ->
       dflt s = None -> forall i, 0 <= i < need d s -> mem o (place d k + i) = 0).
Proof.
  intros H.
  destruct (allocate bursts) as [o0|] eqn:E0; [|vm_compute in E0; discriminate].
  set (l := [Prepare; Change 1%nat; Produce 0 0 [8; 9]; Prepare; Change 2%nat]).
  destruct (run bursts (o0, 0%nat) (l ++ [Prepare; Change 3%nat])) as [[o cur]| |] eqn:E1.
  2,3: vm_compute in E0; injection E0 as <-; vm_compute in E1; discriminate.
  specialize (H bursts o0 l 3%nat o cur 0%nat burst).
  assert (mem o (place bursts 0 + 1) = 0) as C.
  { apply H; clear H.
    - split; [discriminate|]. split; [reflexivity|]. intros s [<-|[]]. split; [reflexivity|]. intros _. exists 2. split; reflexivity.
    - intros s v [<-|[]] Hv. discriminate.
    - intros c f [<-|[]]. eexists. split; [reflexivity|]. intros i [<-|[]]. exists 0%nat, burst.
      split; [reflexivity|]. split; [reflexivity|]. intros _. split; [reflexivity|]. intros v Hv. discriminate.
    - exact E0.
    - reflexivity.
    - exact E1.
    - reflexivity.
    - reflexivity.
    - destruct (run bursts (o0, 0%nat) l) as [[o1 c1]| |] eqn:E2.
      + exists o1, c1. split; [reflexivity|]. vm_compute in E0. injection E0 as <-. vm_compute in E2. injection E2 as _ <-. reflexivity.
      + vm_compute in E0. injection E0 as <-. vm_compute in E2. discriminate.
      + vm_compute in E0. injection E0 as <-. vm_compute in E2. discriminate.
    - reflexivity.
    - change (need bursts burst) with 2. lia. }
  vm_compute in E0. injection E0 as <-. vm_compute in E1. injection E1 as <- _. vm_compute in C. discriminate.
Qed.
Print Assumptions C57_samples_refuted.

(** AllocateMemory adds the sizes in 32 bits: it accepts signals that need more, with a block too small
    for them, and the next change of state writes outside it. *)
Definition big : signal := Signal (2 ^ 32 - 2) (Some 1) 1 (2 ^ 32 - 2) true None (fun _ => 1).
Definition small : signal := Signal 4 (Some 1) 0 1 true None (fun _ => 0).
Definition oversized : source := Source [big; small] [Some [Some 1%nat]] false true.

Theorem C57_overflow_refuted :
  ~ (forall d o cur, (forall s, In s (signals d) -> 0 < bytes s < 2 ^ 32) -> allocate d = Some o ->
       needs d (signals d) <= total o /\ prepare d o cur <> Bad).
Proof.
  intros H. destruct (allocate oversized) as [o|] eqn:E; [|vm_compute in E; discriminate].
  destruct (H oversized o 0%nat) as [H1 _]; [| exact E |].
  - intros s [<-|[<-|[]]]; split; reflexivity.
  - vm_compute in E. injection E as <-. vm_compute in H1. apply H1. reflexivity.
Qed.
Print Assumptions C57_overflow_refuted.

Example C57_overflow_write : match allocate oversized with Some o => total o = 2 /\ prepare oversized o 0%nat = Bad | None => False end.
Proof. vm_compute. auto. Qed.

(** A vector whose Default is a single value is refused, and so stops every change of state, although
    the configuration was accepted. *)
Definition ramp : signal := Signal 8 (Some 1) 1 2 true (Some (Default 0 [1; 1; 1] (Some [3; 0; 0; 0]))) (fun _ => 0).

Example C57_scalar_default : match allocate (Source [ramp] [Some [Some 0%nat]] false true) with
  Some o => prepare (Source [ramp] [Some [Some 0%nat]] false true) o 0%nat = Failed | None => False end.
Proof. vm_compute. reflexivity. Qed.
