(** Proofs about the memory of a GAMDataSource. *)
From Verif Require Import Base Gds_Model Gds_Spec.

Lemma needs_app d a b : needs d (a ++ b) = needs d a + needs d b.
Proof. induction a as [|x r IH]; cbn [app needs fold_right]; [reflexivity|]. fold (needs d (r ++ b)) (needs d r). rewrite IH. lia. Qed.

Lemma needs_cons d s l : needs d (s :: l) = need d s + needs d l.
Proof. reflexivity. Qed.

Definition positive (d : source) (l : list signal) : Prop :=
  forall s, In s l -> 0 < bytes s /\ (multiple d = true -> exists n, samples s = Some n /\ 0 < n).

Lemma need_pos d l s : positive d l -> In s l -> 0 < bytes s /\ bytes s <= need d s.
Proof.
  intros P H. destruct (P s H) as [B S]. split; [exact B|]. unfold need. destruct (multiple d).
  - destruct (S eq_refl) as [n [-> N]]. nia.
  - lia.
Qed.

Lemma needs_nonneg d l : positive d l -> 0 <= needs d l.
Proof.
  induction l as [|s r IH]; intros P; [cbn; lia|]. rewrite needs_cons.
  pose proof (need_pos d _ s P (or_introl eq_refl)).
  assert (positive d r) as Pr by (intros x Hx; apply P; right; exact Hx).
  specialize (IH Pr). lia.
Qed.

Lemma reserved_need d l s : positive d l -> In s l -> need d s < 2 ^ 32 -> reserved d s = Some (need d s).
Proof.
  intros P H L. destruct (P s H) as [B Sm]. unfold reserved. pose proof (need_pos d l s P H) as N. unfold need in *.
  destruct (multiple d).
  - destruct (Sm eq_refl) as [n [E Hn]]. rewrite E in *. f_equal. apply uwrap_id. lia.
  - f_equal. lia.
Qed.

Lemma offsets_spec d l : forall size, positive d l -> 0 <= size -> size + needs d l < 2 ^ 32 ->
  exists o, offsets_from d l size = Some (o, size + needs d l) /\ List.length o = List.length l
    /\ forall k, (k < List.length l)%nat -> nth k o 0 = size + needs d (firstn k l).
Proof.
  induction l as [|s r IH]; intros size P Z0 L.
  - exists []. cbn. rewrite Z.add_0_r. split; [reflexivity|]. split; [reflexivity|]. intros k Hk. lia.
  - rewrite needs_cons in L. pose proof (need_pos d _ s P (or_introl eq_refl)) as [B N].
    assert (positive d r) as Pr by (intros x Hx; apply P; right; exact Hx).
    pose proof (needs_nonneg d r Pr) as Nr.
    cbn [offsets_from]. rewrite (reserved_need d (s :: r) s P (or_introl eq_refl)) by lia.
    destruct (0 <? need d s) eqn:E; [|lia].
    rewrite (uwrap_id 32 (size + need d s)) by lia.
    destruct (IH (size + need d s) Pr ltac:(lia) ltac:(lia)) as [o [E2 [Lo Ho]]].
    rewrite E2. exists (size :: o). rewrite needs_cons, Z.add_assoc. split; [reflexivity|].
    split; [cbn; lia|]. intros k Hk. destruct k as [|k].
    + cbn. lia.
    + cbn [nth firstn]. rewrite needs_cons, Ho by (cbn in Hk; lia). lia.
Qed.

(** The offsets of an allocated object are the places. *)
Definition laid_out (d : source) (o : object) : Prop :=
  total o = needs d (signals d) /\ forall k, (k < List.length (signals d))%nat -> nth k (offs o) 0 = place d k.

Lemma allocate_spec d : servable d -> exists o, allocate d = Some o /\ laid_out d o /\ force o = true /\ forall a, mem o a = 0.
Proof.
  intros [NE [L P]]. unfold allocate.
  destruct (offsets_spec d (signals d) 0 P ltac:(lia) ltac:(lia)) as [o [E [_ H]]].
  rewrite E. destruct (signals d) as [|s r] eqn:Es; [contradiction|].
  eexists; split; [reflexivity|]. split.
  - split; [cbn [total]; rewrite Es; lia|]. rewrite Es. intros k Hk. cbn [offs]. rewrite H by exact Hk. unfold place. rewrite Es. lia.
  - split; [reflexivity|]. intros a. cbn [mem]. unfold write, zeros.
    destruct (_ && _); [|reflexivity]. apply nth_repeat.
Qed.

Lemma place_after d j : positive d (signals d) -> forall k s, nth_error (signals d) j = Some s -> (j < k)%nat ->
  place d j + need d s <= place d k.
Proof.
  intros P k s Hj Hk. unfold place.
  assert (firstn k (signals d) = firstn j (signals d) ++ s :: firstn (k - j - 1) (skipn (S j) (signals d))) as E.
  { clear P. revert j k Hj Hk. induction (signals d) as [|x r IH]; intros j k Hj Hk; [destruct j; discriminate|].
    destruct j as [|j].
    - cbn in Hj. injection Hj as ->. destruct k as [|k]; [lia|]. cbn [firstn skipn app]. do 2 f_equal. lia.
    - destruct k as [|k]; [lia|]. cbn [firstn app]. f_equal. cbn in Hj. rewrite (IH j k Hj) by lia. reflexivity. }
  rewrite E, needs_app, needs_cons.
  assert (0 <= needs d (firstn (k - j - 1) (skipn (S j) (signals d)))); [|lia].
  apply needs_nonneg. intros x Hx. apply P.
  assert (In x (skipn (S j) (signals d))) as Hin by (rewrite <- (firstn_skipn (k - j - 1)); apply in_or_app; left; exact Hx).
  rewrite <- (firstn_skipn (S j) (signals d)). apply in_or_app. right. exact Hin.
Qed.

Lemma place_nonneg d k : positive d (signals d) -> 0 <= place d k.
Proof.
  intros P. unfold place. apply needs_nonneg. intros x Hx. apply P.
  rewrite <- (firstn_skipn k). apply in_or_app. left. exact Hx.
Qed.

Lemma place_end d k s : positive d (signals d) -> nth_error (signals d) k = Some s -> place d k + need d s <= needs d (signals d).
Proof.
  intros P H. pose proof (place_after d k P (List.length (signals d)) s H) as A.
  assert ((k < List.length (signals d))%nat) as L by (apply nth_error_Some; congruence).
  specialize (A L). unfold place in A at 2. rewrite firstn_all in A. exact A.
Qed.

Lemma places_apart d j k s t : positive d (signals d) -> nth_error (signals d) j = Some s -> nth_error (signals d) k = Some t ->
  j <> k -> place d j + need d s <= place d k \/ place d k + need d t <= place d j.
Proof.
  intros P Hj Hk N. destruct (Nat.lt_ge_cases j k) as [L|L].
  - left. apply place_after; assumption.
  - right. apply place_after; [assumption..|lia].
Qed.

(** ** One reset *)
Lemma zeros_length n : 0 <= n -> Z.of_nat (List.length (zeros n)) = n.
Proof. intros H. unfold zeros. rewrite repeat_length. lia. Qed.

Lemma product_from l : forall a, 0 < a -> (forall e, In e l -> 0 < e) -> a * fold_right Z.mul 1 l < 2 ^ 32 ->
  fold_left (fun a e => uwrap 32 (a * e)) l a = a * fold_right Z.mul 1 l.
Proof.
  induction l as [|x r IH]; intros a A P L; [cbn; lia|].
  cbn [fold_left fold_right] in *.
  assert (0 < x) as X by (apply P; left; reflexivity).
  assert (forall e, In e r -> 0 < e) as Pr by (intros e He; apply P; right; exact He).
  assert (0 < fold_right Z.mul 1 r) as F.
  { clear - Pr. induction r as [|y q IH]; [cbn; lia|]. cbn. assert (0 < y) by (apply Pr; left; reflexivity).
    assert (0 < fold_right Z.mul 1 q) by (apply IH; intros e He; apply Pr; right; exact He). nia. }
  assert (0 < a * x) by nia.
  rewrite (uwrap_id 32 (a * x)); [|split; [lia|]].
  - rewrite IH; [lia|lia|exact Pr|]. lia.
  - assert (a * x * 1 <= a * x * fold_right Z.mul 1 r) by (apply Z.mul_le_mono_nonneg_l; lia). lia.
Qed.

Lemma shape_iff d s v : wellformed d -> In s (signals d) -> dflt s = Some v -> shape_ok s v = true <-> same_shape s v.
Proof.
  intros W Hs Hv. destruct (W s v Hs Hv) as [E [L _]].
  assert (product (dims s) (delems v) = fold_right Z.mul 1 (firstn (Z.to_nat (dims s)) (delems v))) as P.
  { unfold product. rewrite product_from; [lia|lia| |lia].
    intros e He. apply E. rewrite <- (firstn_skipn (Z.to_nat (dims s))). apply in_or_app. left. exact He. }
  unfold shape_ok, same_shape. rewrite P.
  rewrite andb_true_iff, orb_true_iff, !andb_true_iff, !Z.eqb_eq. intuition.
Qed.

Definition must (d : source) (cur : state) (k : nat) : bool :=
  match nth_error (signals d) k with Some s => producers s cur =? 0 | None => false end.

(** The memory after the signals in [l] that must be reset have been. *)
Definition after (d : source) (cur : state) (picked : nat -> bool) (m m' : memory) : Prop :=
  (forall k s, nth_error (signals d) k = Some s ->
     forall i, 0 <= i < need d s ->
       m' (place d k + i) = if picked k && must d cur k && (i <? bytes s) then nth (Z.to_nat i) (initial s) 0 else m (place d k + i))
  /\ (forall a, a < 0 \/ needs d (signals d) <= a -> m' a = m a).

Lemma after_none d cur m : after d cur (fun _ => false) m m.
Proof. split; [|reflexivity]. intros k s _ i _. reflexivity. Qed.

Lemma write_in m a l i : 0 <= i < Z.of_nat (List.length l) -> write m a l (a + i) = nth (Z.to_nat i) l 0.
Proof.
  intros H. unfold write. destruct ((a <=? a + i) && (a + i <? a + Z.of_nat (List.length l))) eqn:E.
  - f_equal. lia.
  - lia.
Qed.

Lemma write_out m a l x : x < a \/ a + Z.of_nat (List.length l) <= x -> write m a l x = m x.
Proof.
  intros H. unfold write. destruct ((a <=? x) && (x <? a + Z.of_nat (List.length l))) eqn:E; [lia|reflexivity].
Qed.

Section reset.
  Variable d : source.
  Variable o : object.
  Variable cur : state.
  Hypothesis SV : servable d.
  Hypothesis WF : wellformed d.
  Hypothesis LO : laid_out d o.

  Let P : positive d (signals d) := proj2 (proj2 SV).

  Lemma in_signals k s : nth_error (signals d) k = Some s -> In s (signals d).
  Proof. clear. apply nth_error_In. Qed.

  Lemma initial_length k s : nth_error (signals d) k = Some s ->
    (forall v, dflt s = Some v -> exists b, dbytes v = Some b) -> Z.of_nat (List.length (initial s)) = bytes s.
  Proof.
    intros Hk Hd. pose proof (in_signals k s Hk) as I1. unfold initial. destruct (dflt s) as [v|] eqn:E.
    - destruct (Hd v eq_refl) as [b Hb]. rewrite Hb. apply (WF s v I1 E). exact Hb.
    - apply zeros_length. pose proof (P s I1). lia.
  Qed.

  Definition input_ok (i : option nat) : Prop :=
    exists k s, i = Some k /\ nth_error (signals d) k = Some s /\
      (producers s cur = 0 -> known s = true /\
         forall v, dflt s = Some v -> same_shape s v /\ exists b, dbytes v = Some b).

  Lemma checked_place k s l m : nth_error (signals d) k = Some s -> Z.of_nat (List.length l) = bytes s ->
    checked o m (nth k (offs o) 0) l = Done (write m (place d k) l).
  Proof.
    intros Hk Hl. destruct LO as [T O].
    rewrite O by (apply nth_error_Some; congruence). unfold checked. rewrite T, Hl.
    pose proof (place_nonneg d k P). pose proof (place_end d k s P Hk). pose proof (need_pos d _ s P (in_signals k s Hk)).
    destruct ((0 <=? place d k) && (place d k + bytes s <=? needs d (signals d))) eqn:E; [reflexivity|lia].
  Qed.

  Lemma reset_write k s m picked m0 : nth_error (signals d) k = Some s -> producers s cur = 0 ->
    Z.of_nat (List.length (initial s)) = bytes s -> after d cur picked m0 m ->
    after d cur (fun j => picked j || Nat.eqb j k) m0 (write m (place d k) (initial s)).
  Proof.
    intros Hk Hp L [A B]. pose proof (need_pos d _ s P (in_signals k s Hk)) as [B0 N0]. split.
    - intros j t Hj i Hi. pose proof (need_pos d _ t P (in_signals j t Hj)) as [Bt Nt].
      destruct (Nat.eqb j k) eqn:E.
      + apply Nat.eqb_eq in E. subst j. rewrite Hk in Hj. injection Hj as <-.
        rewrite orb_true_r. unfold must. rewrite Hk, Hp. cbn [andb Z.eqb].
        destruct (i <? bytes s) eqn:Ei.
        * apply write_in. lia.
        * rewrite write_out by lia. rewrite (A k s Hk i Hi), Ei, andb_false_r. reflexivity.
      + rewrite orb_false_r. apply Nat.eqb_neq in E. rewrite write_out; [apply A; assumption|].
        destruct (places_apart d j k t s P Hj Hk E); lia.
    - intros a Ha. rewrite write_out; [apply B; exact Ha|].
      pose proof (place_nonneg d k P). pose proof (place_end d k s P Hk). lia.
  Qed.

  Definition picks (i : option nat) (j : nat) : bool := match i with Some k => Nat.eqb k j | None => false end.

  Lemma after_ext p q m m' : (forall k, (k < List.length (signals d))%nat -> p k = q k) -> after d cur p m m' -> after d cur q m m'.
  Proof.
    clear. intros E [A B]. split; [|exact B]. intros k s Hk i Hi.
    rewrite <- E by (apply nth_error_Some; congruence). apply A; assumption.
  Qed.

  Lemma reset_input_spec i m picked m0 : after d cur picked m0 m ->
    match reset_input d o cur m i with
    | Done m' => input_ok i /\ after d cur (fun j => picked j || picks i j) m0 m'
    | Failed => ~ input_ok i
    | Bad => False
    end.
  Proof.
    intros A. destruct i as [k|]; [|intros [k [s [E _]]]; discriminate].
    cbn [reset_input]. destruct (nth_error (signals d) k) as [s|] eqn:Hk.
    2:{ intros [k' [s [E [H _]]]]. injection E as <-. congruence. }
    assert (forall (Q : Prop), (forall s', nth_error (signals d) k = Some s' -> s' = s)) as U.
    { intros _ s' H. congruence. }
    destruct (producers s cur =? 0) eqn:Ep.
    - apply Z.eqb_eq in Ep. destruct (known s) eqn:Ek.
      + destruct (dflt s) as [v|] eqn:Ed.
        * pose proof (shape_iff d s v WF (in_signals k s Hk) Ed) as SI.
          destruct (shape_ok s v) eqn:Es.
          -- destruct (dbytes v) as [b|] eqn:Eb.
             ++ assert (initial s = b) as Ib by (unfold initial; rewrite Ed, Eb; reflexivity).
                assert (Z.of_nat (List.length b) = bytes s) as Lb by (apply (WF s v (in_signals k s Hk) Ed); exact Eb).
                rewrite (checked_place k s b m Hk Lb). split.
                ** exists k, s. split; [reflexivity|]. split; [exact Hk|]. intros _. split; [exact Ek|].
                   intros v' Hv. rewrite Ed in Hv. injection Hv as <-. split; [apply SI; reflexivity|]. exists b. exact Eb.
                ** rewrite <- Ib. eapply after_ext; [|apply (reset_write k s m picked m0 Hk Ep); [rewrite Ib; exact Lb|exact A]].
                   intros j _. cbn. rewrite (Nat.eqb_sym k j). reflexivity.
             ++ intros [k' [s' [E [H1 H2]]]]. injection E as <-. rewrite Hk in H1. injection H1 as <-.
                destruct (H2 Ep) as [_ H3]. destruct (H3 v Ed) as [_ [b Hb]]. congruence.
          -- intros [k' [s' [E [H1 H2]]]]. injection E as <-. rewrite Hk in H1. injection H1 as <-.
             destruct (H2 Ep) as [_ H3]. destruct (H3 v Ed) as [H4 _]. apply SI in H4. discriminate.
        * assert (initial s = zeros (bytes s)) as Iz by (unfold initial; rewrite Ed; reflexivity).
          assert (Z.of_nat (List.length (zeros (bytes s))) = bytes s) as Lz.
          { apply zeros_length. pose proof (P s (in_signals k s Hk)). lia. }
          rewrite (checked_place k s _ m Hk Lz). split.
          -- exists k, s. split; [reflexivity|]. split; [exact Hk|]. intros _. split; [exact Ek|]. intros v Hv. congruence.
          -- rewrite <- Iz. eapply after_ext; [|apply (reset_write k s m picked m0 Hk Ep); [rewrite Iz; exact Lz|exact A]].
             intros j _. cbn. rewrite (Nat.eqb_sym k j). reflexivity.
      + intros [k' [s' [E [H1 H2]]]]. injection E as <-. rewrite Hk in H1. injection H1 as <-.
        destruct (H2 Ep) as [H3 _]. congruence.
    - apply Z.eqb_neq in Ep. split.
      + exists k, s. split; [reflexivity|]. split; [exact Hk|]. intros H. contradiction.
      + destruct A as [A B]. split; [|exact B]. intros j t Hj i Hi. rewrite (A j t Hj i Hi). cbn [picks].
        destruct (Nat.eqb k j) eqn:E; [|rewrite orb_false_r; reflexivity].
        apply Nat.eqb_eq in E. subst j. unfold must. rewrite Hk.
        destruct (producers s cur =? 0) eqn:E2; [lia|]. rewrite !andb_false_r. reflexivity.
  Qed.

  Lemma reset_inputs_spec l : forall m picked m0, after d cur picked m0 m ->
    match reset_inputs d o cur m l with
    | Done m' => (forall i, In i l -> input_ok i) /\ after d cur (fun j => picked j || existsb (fun i => picks i j) l) m0 m'
    | Failed => ~ (forall i, In i l -> input_ok i)
    | Bad => False
    end.
  Proof.
    induction l as [|i r IH]; intros m picked m0 A; cbn [reset_inputs].
    - split; [intros i []|]. eapply after_ext; [|exact A]. intros k _. cbn. rewrite orb_false_r. reflexivity.
    - pose proof (reset_input_spec i m picked m0 A) as R. destruct (reset_input d o cur m i) as [m1| |].
      + destruct R as [Oi A1]. specialize (IH m1 _ m0 A1). destruct (reset_inputs d o cur m1 r) as [m2| |].
        * destruct IH as [Or A2]. split; [intros j [<-|H]; [exact Oi|apply Or; exact H]|].
          eapply after_ext; [|exact A2]. intros k _. cbn [existsb]. rewrite orb_assoc. reflexivity.
        * intros H. apply IH. intros j Hj. apply H. right. exact Hj.
        * exact IH.
      + intros H. apply R. apply H. left. reflexivity.
      + exact R.
  Qed.

  Definition function_ok (f : option (list (option nat))) : Prop :=
    exists l, f = Some l /\ forall i, In i l -> input_ok i.

  Definition fpicks (f : option (list (option nat))) (j : nat) : bool :=
    match f with Some l => existsb (fun i => picks i j) l | None => false end.

  Lemma reset_functions_spec l : forall m picked m0, after d cur picked m0 m ->
    match reset_functions d o cur m l with
    | Done m' => (forall f, In f l -> function_ok f) /\ after d cur (fun j => picked j || existsb (fun f => fpicks f j) l) m0 m'
    | Failed => ~ (forall f, In f l -> function_ok f)
    | Bad => False
    end.
  Proof.
    induction l as [|[f|] r IH]; intros m picked m0 A; cbn [reset_functions].
    - split; [intros i []|]. eapply after_ext; [|exact A]. intros k _. cbn. rewrite orb_false_r. reflexivity.
    - pose proof (reset_inputs_spec f m picked m0 A) as R. destruct (reset_inputs d o cur m f) as [m1| |].
      + destruct R as [Oi A1]. specialize (IH m1 _ m0 A1). destruct (reset_functions d o cur m1 r) as [m2| |].
        * destruct IH as [Or A2]. split; [intros j [<-|H]; [exists f; split; [reflexivity|exact Oi]|apply Or; exact H]|].
          eapply after_ext; [|exact A2]. intros k _. cbn [existsb fpicks]. rewrite orb_assoc. reflexivity.
        * intros H. apply IH. intros j Hj. apply H. right. exact Hj.
        * exact IH.
      + intros H. destruct (H (Some f) (or_introl eq_refl)) as [l [E Hl]]. injection E as <-. apply R. exact Hl.
      + exact R.
    - intros H. destruct (H None (or_introl eq_refl)) as [l [E _]]. discriminate.
  Qed.

  Lemma prepare_spec :
    match prepare d o cur with
    | Done o' => offs o' = offs o /\ total o' = total o /\ force o' = false
        /\ ((reset_unused d || force o = true) -> resettable d cur)
        /\ after d cur (fun j => (reset_unused d || force o) && consumed d j) (mem o) (mem o')
    | Failed => reset_unused d || force o = true /\ ~ resettable d cur
    | Bad => False
    end.
  Proof.
    unfold prepare. destruct (reset_unused d || force o) eqn:E.
    - pose proof (reset_functions_spec (inputs d) (mem o) (fun _ => false) (mem o) (after_none d cur (mem o))) as R.
      destruct (reset_functions d o cur (mem o) (inputs d)) as [m| |].
      + destruct R as [R1 R2]. split; [reflexivity|]. split; [reflexivity|]. split; [reflexivity|]. split; [intros _; exact R1|].
        eapply after_ext; [|exact R2]. intros k _. reflexivity.
      + split; [reflexivity|]. exact R.
      + exact R.
    - split; [reflexivity|]. split; [reflexivity|]. split; [reflexivity|]. split; [intros H; discriminate|].
      cbn [mem]. eapply after_ext; [|apply after_none]. reflexivity.
  Qed.
End reset.
