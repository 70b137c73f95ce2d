(** Histories of a GAMDataSource. *)
From Verif Require Import Base Gds_Model Gds_Spec Gds_Proofs.

Lemma map_seq_nth (f : nat -> Z) n : forall l, List.length l = n -> (forall i, (i < n)%nat -> f i = nth i l 0) -> map f (seq 0 n) = l.
Proof.
  intros l L H. apply nth_ext with (d := 0) (d' := 0).
  - rewrite map_length, seq_length. lia.
  - rewrite map_length, seq_length. intros i Hi.
    rewrite (nth_indep _ 0 (f 0%nat)) by (rewrite map_length, seq_length; exact Hi).
    rewrite map_nth, seq_nth by exact Hi. apply H. exact Hi.
Qed.

Lemma content_nth d m k s i : nth_error (signals d) k = Some s -> 0 <= i < bytes s -> nth (Z.to_nat i) (content d m k) 0 = m (place d k + i).
Proof.
  intros Hk Hi. unfold content. rewrite Hk.
  rewrite (nth_indep _ 0 (m (place d k + Z.of_nat 0))) by (rewrite map_length, seq_length; lia).
  rewrite (map_nth (fun i => m (place d k + Z.of_nat i))), seq_nth by lia. f_equal. lia.
Qed.

Lemma content_length d m k s : nth_error (signals d) k = Some s -> List.length (content d m k) = Z.to_nat (bytes s).
Proof. intros Hk. unfold content. rewrite Hk, map_length, seq_length. reflexivity. Qed.

Lemma content_is d m k s l : nth_error (signals d) k = Some s -> 0 <= bytes s -> Z.of_nat (List.length l) = bytes s ->
  (forall i, 0 <= i < bytes s -> m (place d k + i) = nth (Z.to_nat i) l 0) -> content d m k = l.
Proof.
  intros Hk B L H. unfold content. rewrite Hk. apply map_seq_nth; [lia|].
  intros i Hi. rewrite H by lia. f_equal. lia.
Qed.

Section hist.
  Variable d : source.
  Hypothesis SV : servable d.
  Hypothesis WF : wellformed d.

  Let P : positive d (signals d) := proj2 (proj2 SV).

  Lemma resettable_initial cur k s : resettable d cur -> consumed d k = true -> producers s cur = 0 ->
    nth_error (signals d) k = Some s -> Z.of_nat (List.length (initial s)) = bytes s.
  Proof.
    intros R C Pr Hk. apply (initial_length d SV WF k s Hk).
    unfold consumed in C. apply existsb_exists in C. destruct C as [f [Hf C]]. destruct f as [l|]; [|discriminate].
    apply existsb_exists in C. destruct C as [i [Hi C]]. destruct i as [j|]; [|discriminate]. apply Nat.eqb_eq in C. subst j.
    destruct (R (Some l) Hf) as [l' [E Hl]]. injection E as <-.
    destruct (Hl (Some k) Hi) as [k' [s' [E [Hk' Hr]]]]. injection E as <-. rewrite Hk in Hk'. injection Hk' as <-.
    intros v Hv. apply (Hr Pr). exact Hv.
  Qed.

  Lemma prepare_content o cur o' : laid_out d o -> prepare d o cur = Done o' ->
    forall k s, nth_error (signals d) k = Some s ->
      content d (mem o') k = if (reset_unused d || force o) && consumed d k && (producers s cur =? 0) then initial s else content d (mem o) k.
  Proof.
    intros LO E k s Hk. pose proof (prepare_spec d o cur SV WF LO) as H. rewrite E in H.
    destruct H as [_ [_ [_ [R [A _]]]]].
    pose proof (need_pos d _ s P (nth_error_In _ _ Hk)) as [B N].
    assert (must d cur k = (producers s cur =? 0)) as M by (unfold must; rewrite Hk; reflexivity).
    destruct ((reset_unused d || force o) && consumed d k && (producers s cur =? 0)) eqn:C.
    - apply andb_prop in C. destruct C as [C C3]. apply andb_prop in C. destruct C as [C1 C2].
      apply (content_is d _ k s _ Hk); [lia| |].
      + apply (resettable_initial cur k s (R C1) C2); [apply Z.eqb_eq; exact C3|exact Hk].
      + intros i Hi. rewrite (A k s Hk i) by lia. cbn beta. rewrite M, C1, C2, C3. cbn [andb].
        destruct (i <? bytes s) eqn:Ei; [reflexivity|lia].
    - apply (content_is d _ k s _ Hk); [lia| |].
      + rewrite (content_length d _ k s Hk). lia.
      + intros i Hi. rewrite (A k s Hk i) by lia. cbn beta. rewrite M, C. cbn [andb].
        symmetry. apply (content_nth d _ k s i Hk Hi).
  Qed.

  Lemma splice_nth old dl b i : (dl + List.length b <= List.length old)%nat -> (i < List.length old)%nat ->
    nth i (splice old dl b) 0 = if Nat.leb dl i && Nat.ltb i (dl + List.length b) then nth (i - dl) b 0 else nth i old 0.
  Proof.
    clear. intros L Hi. unfold splice. assert (List.length (firstn dl old) = dl) as F by (rewrite firstn_length; lia).
    destruct (Nat.leb dl i) eqn:E1; [apply Nat.leb_le in E1|apply Nat.leb_gt in E1].
    - rewrite app_nth2 by lia. rewrite F. destruct (Nat.ltb i (dl + List.length b)) eqn:E2; cbn [andb].
      + apply Nat.ltb_lt in E2. rewrite app_nth1 by lia. reflexivity.
      + apply Nat.ltb_ge in E2. rewrite app_nth2 by lia.
        rewrite <- (firstn_skipn (dl + List.length b) old) at 2.
        rewrite app_nth2 by (rewrite firstn_length; lia). f_equal. rewrite firstn_length. lia.
    - cbn [andb]. rewrite app_nth1 by lia.
      rewrite <- (firstn_skipn dl old) at 2. rewrite app_nth1 by lia. reflexivity.
  Qed.

  Lemma splice_length old dl b : (dl + List.length b <= List.length old)%nat -> List.length (splice old dl b) = List.length old.
  Proof. clear. intros L. unfold splice. rewrite !app_length, firstn_length, skipn_length. lia. Qed.

  Lemma produce_content o k s delta b : laid_out d o -> nth_error (signals d) k = Some s -> 0 <= delta ->
    delta + Z.of_nat (List.length b) <= bytes s ->
    exists o', produce d o k delta b = Done o' /\ offs o' = offs o /\ total o' = total o /\ force o' = force o
      /\ content d (mem o') k = splice (content d (mem o) k) (Z.to_nat delta) b
      /\ (forall j, j <> k -> content d (mem o') j = content d (mem o) j).
  Proof.
    intros [T O] Hk D L. pose proof (need_pos d _ s P (nth_error_In _ _ Hk)) as [B N].
    pose proof (place_nonneg d k P) as P0. pose proof (place_end d k s P Hk) as P1.
    unfold produce, buffer. change (Nat.ltb 0 1) with true. cbn iota.
    assert ((k < List.length (signals d))%nat) as Lk by (apply nth_error_Some; congruence).
    destruct (Nat.ltb k (List.length (signals d))) eqn:E; [|apply Nat.ltb_ge in E; lia].
    rewrite (O k Lk). unfold checked. rewrite T. cbn iota beta.
    destruct ((0 <=? place d k + delta) && (place d k + delta + Z.of_nat (List.length b) <=? needs d (signals d))) eqn:C; [|lia].
    eexists. split; [reflexivity|]. split; [reflexivity|]. split; [reflexivity|]. split; [reflexivity|]. cbn [mem]. split.
    - assert (List.length (content d (mem o) k) = Z.to_nat (bytes s)) as CL by (apply content_length; exact Hk).
      apply (content_is d _ k s _ Hk); [lia|rewrite splice_length; lia|].
      intros i Hi. rewrite splice_nth by lia. rewrite (content_nth d _ k s i Hk Hi).
      unfold write.
      destruct ((place d k + delta <=? place d k + i) && (place d k + i <? place d k + delta + Z.of_nat (List.length b))) eqn:E1;
      destruct (Nat.leb (Z.to_nat delta) (Z.to_nat i) && Nat.ltb (Z.to_nat i) (Z.to_nat delta + List.length b)) eqn:E2; try lia.
      f_equal. lia.
    - intros j Hj. unfold content. destruct (nth_error (signals d) j) as [t|] eqn:Ht; [|reflexivity].
      apply map_ext_in. intros i Hi. apply in_seq in Hi.
      pose proof (need_pos d _ t P (nth_error_In _ _ Ht)).
      apply write_out. destruct (places_apart d j k t s P Ht Hk Hj); lia.
  Qed.

  Definition due (cur : state) (first : bool) (k : nat) (s : signal) : bool :=
    (reset_unused d || first) && consumed d k && (producers s cur =? 0).

  Definition inv (cur : state) (first prep : bool) (o : object) (v : store) : Prop :=
    laid_out d o /\ force o = first && negb prep
    /\ (prep = true -> reset_unused d || first = true -> resettable d cur)
    /\ forall k s, nth_error (signals d) k = Some s ->
         Z.of_nat (List.length (v k)) = bytes s
         /\ content d (mem o) k = if prep && due cur first k s then initial s else v k.

  Fixpoint final (first prep : bool) (l : list event) : bool * bool :=
    match l with
    | [] => (first, prep)
    | Produce _ _ _ :: r => final first prep r
    | Prepare :: r => final first true r
    | Change _ :: r => final false false r
    end.

  Lemma run_inv l : forall cur first prep o v, inv cur first prep o v -> proper d cur prep l ->
    match run d (o, cur) l with
    | Done (o', cur') => inv cur' (fst (final first prep l)) (snd (final first prep l)) o' (life d first cur v l)
    | Failed => exists c, ~ resettable d c
    | Bad => False
    end.
  Proof.
    induction l as [|e r IH]; intros cur first prep o v I1 Pr; [exact I1|].
    destruct I1 as [LO [F [R V]]].
    destruct e as [k delta b| |n]; cbn [run step fst snd].
    - cbn [proper] in Pr. destruct Pr as [[s [Hk [Hp [D L]]]] Pr].
      destruct (produce_content o k s delta b LO Hk D L) as [o' [E [O1 [O2 [O3 [O4 O5]]]]]].
      rewrite E. cbn [final life]. apply IH; [|exact Pr].
      split; [unfold laid_out; rewrite O1, O2; exact LO|]. split; [rewrite O3; exact F|]. split; [exact R|].
      intros j t Hj. destruct (V j t Hj) as [V1 V2]. destruct (Nat.eqb j k) eqn:Ej.
      + apply Nat.eqb_eq in Ej. subst j. rewrite Hk in Hj. injection Hj as <-.
        assert (due cur first k s = false) as Du.
        { unfold due. destruct (producers s cur =? 0) eqn:E0; [lia|]. apply andb_false_r. }
        rewrite Du, andb_false_r in V2. rewrite Du, andb_false_r. rewrite splice_length by lia.
        split; [exact V1|]. rewrite O4, V2. reflexivity.
      + apply Nat.eqb_neq in Ej. split; [exact V1|]. rewrite (O5 j Ej). exact V2.
    - cbn [proper] in Pr. pose proof (prepare_spec d o cur SV WF LO) as PS.
      destruct (prepare d o cur) as [o'| |] eqn:E.
      + pose proof (prepare_content o cur o' LO E) as PC. destruct PS as [O1 [O2 [O3 [O4 _]]]].
        cbn [final life]. apply IH; [|exact Pr].
        split; [unfold laid_out; rewrite O1, O2; exact LO|]. split; [rewrite O3, andb_false_r; reflexivity|].
        split.
        * intros _ H. destruct prep; [apply R; [reflexivity|exact H]|]. apply O4. rewrite F. cbn [negb]. rewrite andb_true_r. exact H.
        * intros k s Hk. destruct (V k s Hk) as [V1 V2]. split; [exact V1|].
          rewrite (PC k s Hk), F, V2. unfold due. cbn [andb].
          destruct (reset_unused d), first, prep, (consumed d k), (producers s cur =? 0); reflexivity.
      + exists cur. apply PS.
      + exact PS.
    - cbn [proper] in Pr. destruct Pr as [-> Pr]. cbn [final life]. apply IH; [|exact Pr].
      split; [exact LO|]. split; [rewrite F, andb_false_r; reflexivity|]. split; [intros H; discriminate|].
      intros k s Hk. destruct (V k s Hk) as [V1 V2]. rewrite Hk. cbn [andb] in *. fold (due cur first k s).
      destruct (due cur first k s) eqn:Du.
      + split; [|exact V2]. unfold due in Du. apply andb_prop in Du. destruct Du as [Du D3]. apply andb_prop in Du. destruct Du as [D1 D2].
        apply (resettable_initial cur k s (R eq_refl D1) D2); [apply Z.eqb_eq; exact D3|exact Hk].
      + split; [exact V1|exact V2].
  Qed.

  Lemma final_change l n : forall first prep, final first prep (l ++ [Change n]) = (false, false).
  Proof. clear. induction l as [|[k delta b| |m] r IH]; intros first prep; cbn [app final]; [reflexivity|apply IH..]. Qed.

  Lemma run_change l n o0 : forall o cur, run d (o0, 0%nat) (l ++ [Change n]) = Done (o, cur) -> cur = n.
  Proof.
    clear. generalize 0%nat. revert o0. induction l as [|e r IH]; intros o0 c o cur; cbn [app run].
    - cbn. intros E. injection E as _ <-. reflexivity.
    - destruct (step d (o0, c) e) as [[o1 c1]| |]; [apply IH|discriminate..].
  Qed.
End hist.
