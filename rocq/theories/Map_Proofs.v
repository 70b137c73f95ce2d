From Verif Require Import Base BitsBase Map_Model Map_Spec.
From Coq Require Import Permutation.

Section V.
Context {V : Type}.
Implicit Types (m : umap V) (b : bucket V).

Definition contents m : list (Z * V) := concat (um_entries m).

Lemma bfind_In b x v : bfind b x = Some v -> In (x, v) b.
Proof.
  induction b as [|[h w] r IH]; cbn [bfind]; [discriminate|]. destruct (h =? x) eqn:E.
  - intros [= ->]. left. f_equal. lia.
  - intros H. right. auto.
Qed.
Lemma In_bfind b x v : NoDup (map fst b) -> In (x, v) b -> bfind b x = Some v.
Proof.
  induction b as [|[h w] r IH]; cbn [bfind map fst]; intros N I; [destruct I|]. inversion N; subst.
  destruct I as [E|I]; [injection E as -> ->; rewrite Z.eqb_refl; reflexivity|].
  destruct (h =? x) eqn:E; [|auto]. exfalso. apply H1. replace h with x by lia. change x with (fst (x, v)). apply in_map. auto.
Qed.
Lemma bfind_None b x v : bfind b x = None -> ~ In (x, v) b.
Proof.
  induction b as [|[h w] r IH]; cbn [bfind]; intros H I; [auto|]. destruct (h =? x) eqn:E; [discriminate|].
  destruct I as [E2|I]; [injection E2; lia|apply IH; auto].
Qed.
Lemma bdel_perm b x v : bfind b x = Some v -> Permutation b ((x, v) :: bdel b x).
Proof.
  induction b as [|[h w] r IH]; cbn [bfind bdel]; [discriminate|]. destruct (h =? x) eqn:E.
  - intros [= ->]. replace h with x by lia. reflexivity.
  - intros H. rewrite (IH H) at 1. apply perm_swap.
Qed.

Lemma upd_split {A} (l : list A) i x y : nth_error l (Z.to_nat i) = Some y ->
  exists l1 l2, l = l1 ++ y :: l2 /\ length l1 = Z.to_nat i /\ upd l i x = l1 ++ x :: l2.
Proof.
  intros H. unfold upd. exists (firstn (Z.to_nat i) l). pose proof (firstn_skipn (Z.to_nat i) l) as E.
  assert (Hl : (Z.to_nat i < length l)%nat) by (apply nth_error_Some; congruence).
  assert (E2 : nth_error (skipn (Z.to_nat i) l) 0 = Some y).
  { rewrite <- E in H. rewrite nth_error_app2 in H by (rewrite firstn_length; lia). rewrite firstn_length in H.
    replace (Z.to_nat i - Nat.min (Z.to_nat i) (length l))%nat with 0%nat in H by lia. exact H. }
  destruct (skipn (Z.to_nat i) l) as [|z r]; [discriminate|]. injection E2 as ->. exists r.
  split; [symmetry; exact E|]. split; [rewrite firstn_length; lia|reflexivity].
Qed.

(** Representation invariant *)
Record wf m : Prop := {
  wf_len : Z.of_nat (length (um_entries m)) = um_cap m;
  wf_cap : um_cap m < 2 ^ 27;
  wf_place : forall i b, nth_error (um_entries m) i = Some b -> forall h v, In (h, v) b -> h mod um_cap m = Z.of_nat i;
  wf_nodup : NoDup (map fst (contents m));
  wf_size : um_size m = uwrap 32 (Z.of_nat (length (contents m)))
}.

Lemma wf_cap0 m : wf m -> 0 <= um_cap m.
Proof. intros W. rewrite <- (wf_len m W). lia. Qed.

Lemma wf_new : wf (@um_new V).
Proof. split; cbn; auto; try lia; [intros [|i] b; discriminate|constructor]. Qed.

Lemma index_eq m x : wf m -> 0 < um_cap m -> uwrap 32 (x mod um_cap m) = x mod um_cap m.
Proof. intros W P. pose proof (wf_cap m W). pose proof (Z.mod_pos_bound x (um_cap m) P). apply uwrap_id. lia. Qed.

Lemma bucket_at m x : wf m -> 0 < um_cap m -> exists b, nth_error (um_entries m) (Z.to_nat (uwrap 32 (x mod um_cap m))) = Some b.
Proof.
  intros W P. rewrite index_eq by auto. destruct (nth_error (um_entries m) (Z.to_nat (x mod um_cap m))) as [b|] eqn:E; [eauto|].
  apply nth_error_None in E. pose proof (wf_len m W). pose proof (Z.mod_pos_bound x (um_cap m) P). lia.
Qed.

Lemma bucket_In m x b : wf m -> 0 < um_cap m -> nth_error (um_entries m) (Z.to_nat (uwrap 32 (x mod um_cap m))) = Some b ->
  forall v, In (x, v) b <-> In (x, v) (contents m).
Proof.
  intros W P E v. rewrite index_eq in E by auto. pose proof (Z.mod_pos_bound x (um_cap m) P). split.
  - intros I. apply in_concat. exists b. split; [eapply nth_error_In; eauto|auto].
  - intros I. apply in_concat in I. destruct I as (b' & Ib & Iv). apply In_nth_error in Ib. destruct Ib as [i Ei].
    pose proof (wf_place m W i b' Ei x v Iv). replace i with (Z.to_nat (x mod um_cap m)) in Ei by lia. rewrite E in Ei. injection Ei as ->. auto.
Qed.

Lemma NoDup_app_inv {A} (x y z : list A) : NoDup (x ++ y ++ z) -> NoDup y.
Proof.
  induction x as [|a x IH]; cbn; intros H.
  - induction y as [|a y IHy]; [constructor|]. inversion H; subst. constructor; [intros I; apply H2; apply in_or_app; auto|auto].
  - inversion H; subst; auto.
Qed.

Lemma bucket_find m x b v : wf m -> 0 < um_cap m -> nth_error (um_entries m) (Z.to_nat (uwrap 32 (x mod um_cap m))) = Some b ->
  (bfind b x = Some v <-> In (x, v) (contents m)).
Proof.
  intros W P E. rewrite <- (bucket_In m x b W P E). split; [apply bfind_In|]. intros I. apply In_bfind; auto.
  destruct (upd_split _ _ b _ E) as (l1 & l2 & E1 & _ & _). pose proof (wf_nodup m W) as N. unfold contents in N. rewrite E1 in N.
  rewrite concat_app, concat_cons, !map_app in N. apply NoDup_app_inv in N. exact N.
Qed.

Lemma wf_put m x v : wf m -> 0 < um_cap m -> (forall w, ~ In (x, w) (contents m)) ->
  exists m', um_put m x v = Some m' /\ wf m' /\ um_cap m' = um_cap m /\ Permutation (contents m') ((x, v) :: contents m).
Proof.
  intros W P N. destruct (bucket_at m x W P) as [b E]. unfold um_put. rewrite E. eexists. split; [reflexivity|].
  destruct (upd_split _ _ (b ++ [(x, v)]) _ E) as (l1 & l2 & E1 & L1 & E2).
  assert (PM : Permutation (concat (upd (um_entries m) (uwrap 32 (x mod um_cap m)) (b ++ [(x, v)]))) ((x, v) :: contents m)).
  { rewrite E2. unfold contents. rewrite E1. rewrite !concat_app, !concat_cons. rewrite <- app_assoc. cbn [app].
    transitivity (concat l1 ++ (x, v) :: b ++ concat l2); [|symmetry; apply Permutation_middle].
    apply Permutation_app_head. symmetry. apply Permutation_middle. }
  split; [|split; [reflexivity|exact PM]]. split; cbn [um_cap um_size um_entries].
  - rewrite E2. rewrite <- (wf_len m W), E1, !app_length. reflexivity.
  - apply (wf_cap m W).
  - intros i b' Hi h w I. rewrite E2 in Hi. destruct (Nat.eq_dec i (length l1)) as [->|Ne].
    + rewrite nth_error_app2, Nat.sub_diag in Hi by lia. injection Hi as <-. apply in_app_or in I. destruct I as [I|[I|[]]].
      * eapply (wf_place m W (length l1) b); [rewrite L1; exact E|exact I].
      * injection I as <- <-. rewrite L1, index_eq by auto. pose proof (Z.mod_pos_bound x (um_cap m) P). lia.
    + apply (wf_place m W i b'  ) with (v := w); auto. rewrite E1. destruct (Nat.lt_ge_cases i (length l1)).
      * rewrite nth_error_app1 in Hi |- * by lia. exact Hi.
      * rewrite nth_error_app2 in Hi |- * by lia. destruct (i - length l1)%nat eqn:D; [lia|exact Hi].
  - unfold contents. cbn [um_entries]. eapply Permutation_NoDup; [apply Permutation_map; symmetry; exact PM|].
    cbn [map fst]. constructor; [|apply (wf_nodup m W)]. intros I. apply in_map_iff in I. destruct I as ([h w] & Eh & I).
    cbn in Eh. subst h. apply (N w I).
  - unfold contents. cbn [um_entries]. rewrite (Permutation_length PM). cbn [length]. rewrite (wf_size m W). unfold uwrap.
    rewrite Zplus_mod_idemp_l. f_equal. lia.
Qed.

Lemma put_all_ok l : forall m, wf m -> 0 < um_cap m -> NoDup (map fst l) -> (forall x v w, In (x, v) l -> ~ In (x, w) (contents m)) ->
  exists m', um_put_all m l = Some m' /\ wf m' /\ um_cap m' = um_cap m /\ Permutation (contents m') (l ++ contents m).
Proof.
  induction l as [|[h v] l IH]; intros m W P ND D; cbn [um_put_all].
  - exists m. split; [auto|]. split; [auto|]. split; [auto|reflexivity].
  - destruct (wf_put m h v W P) as (m1 & E1 & W1 & C1 & P1); [intros w; apply (D h v w); left; auto|]. rewrite E1.
    cbn [map fst] in ND. inversion ND; subst.
    destruct (IH m1 W1 ltac:(lia) H2) as (m2 & E2 & W2 & C2 & P2).
    { intros x w w' I I2. apply (Permutation_in _ P1) in I2. destruct I2 as [I2|I2].
      - injection I2 as -> ->. apply H1. change x with (fst (x, w)). apply in_map. auto.
      - apply (D x w w'); [right; auto|auto]. }
    exists m2. split; [auto|]. split; [auto|]. split; [congruence|].
    rewrite P2. cbn [app]. rewrite P1. symmetry. apply Permutation_middle.
Qed.

Lemma concat_repeat_nil {A} n : concat (repeat (@nil A) n) = [].
Proof. induction n; cbn; auto. Qed.

Lemma wf_empty cap : 0 <= cap < 2 ^ 27 -> wf (UMap cap 0 (repeat [] (Z.to_nat cap))).
Proof.
  intros H. split; cbn [um_cap um_size um_entries]; unfold contents; cbn [um_entries]; rewrite ?concat_repeat_nil.
  - rewrite repeat_length. lia.
  - lia.
  - intros i b E h v I. apply nth_error_In, repeat_spec in E. subst. destruct I.
  - constructor.
  - reflexivity.
Qed.

Lemma prepare_ok m : wf m -> exists m', um_prepare m = Some m' /\ wf m' /\ 0 < um_cap m' /\ Permutation (contents m') (contents m).
Proof.
  intros W. pose proof (wf_cap0 m W). unfold um_prepare. destruct (um_cap m =? 0) eqn:E0.
  - assert (L0 : um_entries m = []) by (pose proof (wf_len m W); destruct (um_entries m); [auto|cbn [length] in *; lia]).
    exists (UMap 8 (um_size m) (repeat [] 8)). split; [auto|]. assert (C0 : contents m = []) by (unfold contents; rewrite L0; auto).
    split; [|split; [cbn; lia|unfold contents; cbn [um_entries]; rewrite L0; reflexivity]].
    pose proof (wf_size m W) as S. rewrite C0 in S. cbn [length] in S. rewrite S. apply (wf_empty 8). lia.
  - destruct (_ >? 75) eqn:EL.
    + assert (B : um_cap m < 2 ^ 26).
      { pose proof (uwrap_range 32 (um_size m * 100) ltac:(lia)) as R. set (u := uwrap 32 (um_size m * 100)) in *.
        assert (76 <= u / um_cap m) by lia. assert (um_cap m * (u / um_cap m) <= u) by (apply Z.mul_div_le; lia). nia. }
      unfold um_resize. rewrite (uwrap_id 32 (um_cap m * 2)) by lia. replace (um_cap m * 2 =? 0) with false by lia.
      destruct (put_all_ok (concat (um_entries m)) _ (wf_empty (um_cap m * 2) ltac:(lia))) as (m' & E & W' & C' & P').
      * cbn. lia.
      * apply (wf_nodup m W).
      * intros x v w _. unfold contents. cbn [um_entries]. rewrite concat_repeat_nil. auto.
      * exists m'. split; [exact E|]. split; [auto|]. split; [rewrite C'; cbn; lia|]. rewrite P'. unfold contents. cbn [um_entries].
        rewrite concat_repeat_nil, app_nil_r. reflexivity.
    + exists m. split; [auto|]. split; [auto|]. split; [lia|reflexivity].
Qed.

(** ** Histories *)
Variables (H : key -> Z) (U : list key).
Hypothesis inj : forall a1 a2 : key, In a1 U -> In a2 U -> H a1 = H a2 -> a1 = a2.

Record rep m (h : list (mop V)) : Prop := {
  rep_wf : wf m;
  rep_val : forall k v, In k U -> (In (H k, v) (contents m) <-> val_of h k = Some v);
  rep_count : Z.of_nat (length (contents m)) = count_of h
}.

Lemma key_eqb_refl k : key_eqb k k = true.
Proof. unfold key_eqb. destruct (list_eq_dec Z.eq_dec k k); congruence. Qed.
Lemma key_eqb_true a1 a2 : key_eqb a1 a2 = true -> a1 = a2.
Proof. unfold key_eqb. destruct (list_eq_dec Z.eq_dec a1 a2); congruence. Qed.

Lemma rep_perm m m' h : rep m h -> wf m' -> Permutation (contents m') (contents m) -> rep m' h.
Proof.
  intros R W P. split; [auto| |].
  - intros k v Ik. rewrite <- (rep_val m h R k v Ik). split; apply Permutation_in; [auto|symmetry; auto].
  - rewrite (Permutation_length P). apply (rep_count m h R).
Qed.

Lemma rep_find m h k b : rep m h -> 0 < um_cap m -> In k U ->
  nth_error (um_entries m) (Z.to_nat (uwrap 32 (H k mod um_cap m))) = Some b -> bfind b (H k) = val_of h k.
Proof.
  intros R P Ik E. pose proof (rep_wf m h R) as W. destruct (val_of h k) as [v|] eqn:EV.
  - apply (bucket_find m (H k) b v W P E). apply (rep_val m h R); auto.
  - destruct (bfind b (H k)) as [v|] eqn:EF; [|auto]. apply (bucket_find m (H k) b v W P E) in EF.
    apply (rep_val m h R k v Ik) in EF. congruence.
Qed.

Lemma insert_ok m h k v : rep m h -> In k U -> exists ok w m', um_insert H m k v = Some (ok, w, m') /\
  AInsert ok w = answer h (MInsert k v) /\ rep m' (MInsert k v :: h).
Proof.
  intros R Ik. unfold um_insert. destruct (prepare_ok m (rep_wf m h R)) as (m1 & E1 & W1 & P1 & PM). rewrite E1.
  assert (R1 : rep m1 h) by (eapply rep_perm; eauto).
  destruct (bucket_at m1 (H k) W1 P1) as [b Eb]. rewrite Eb. rewrite (rep_find m1 h k b R1 P1 Ik Eb).
  cbn [answer]. destruct (val_of h k) as [w|] eqn:EV.
  - exists false, w, m1. split; [auto|]. split; [auto|]. split; [auto| |].
    + intros k' v' Ik'. rewrite (rep_val m1 h R1 k' v' Ik'). cbn [val_of]. destruct (key_eqb k' k) eqn:EK; [|tauto].
      apply key_eqb_true in EK. subst k'. rewrite EV. tauto.
    + cbn [count_of]. unfold present. rewrite EV. apply (rep_count m1 h R1).
  - assert (NI : forall w, ~ In (H k, w) (contents m1)) by (intros w I; apply (rep_val m1 h R1 k w Ik) in I; congruence).
    destruct (wf_put m1 (H k) v W1 P1 NI) as (m2 & E2 & W2 & _ & P2). rewrite E2.
    exists true, v, m2. split; [auto|]. split; [auto|]. split; [auto| |].
    + intros k' v' Ik'. cbn [val_of]. destruct (key_eqb k' k) eqn:EK.
      * apply key_eqb_true in EK. subst k'. rewrite EV. split.
        -- intros I. apply (Permutation_in _ P2) in I. destruct I as [I|I]; [congruence|]. exfalso. apply (NI v' I).
        -- intros [= ->]. apply (Permutation_in _ (Permutation_sym P2)). left. auto.
      * rewrite <- (rep_val m1 h R1 k' v' Ik'). split.
        -- intros I. apply (Permutation_in _ P2) in I. destruct I as [I|I]; [|auto]. injection I as E _.
           apply inj in E; auto. subst. rewrite key_eqb_refl in EK. discriminate.
        -- intros I. apply (Permutation_in _ (Permutation_sym P2)). right. auto.
    + rewrite (Permutation_length P2). cbn [count_of length]. unfold present. rewrite EV. rewrite <- (rep_count m1 h R1). lia.
Qed.

Lemma upd_del_ok m x v b : wf m -> 0 < um_cap m -> nth_error (um_entries m) (Z.to_nat (uwrap 32 (x mod um_cap m))) = Some b ->
  bfind b x = Some v ->
  let m' := UMap (um_cap m) (uwrap 32 (um_size m - 1)) (upd (um_entries m) (uwrap 32 (x mod um_cap m)) (bdel b x)) in
  wf m' /\ Permutation (contents m) ((x, v) :: contents m').
Proof.
  intros W P E F m'. destruct (upd_split _ _ (bdel b x) _ E) as (l1 & l2 & E1 & L1 & E2).
  assert (PM : Permutation (contents m) ((x, v) :: contents m')).
  { unfold contents, m'. cbn [um_entries]. rewrite E2, E1. rewrite !concat_app, !concat_cons.
    rewrite (bdel_perm b x v F) at 1. cbn [app]. symmetry. apply Permutation_middle. }
  split; [|exact PM]. assert (ND : NoDup (map fst ((x, v) :: contents m'))) by (eapply Permutation_NoDup; [apply Permutation_map; exact PM|apply (wf_nodup m W)]).
  split; cbn [um_cap um_size um_entries m'].
  - rewrite E2. rewrite <- (wf_len m W), E1, !app_length. reflexivity.
  - apply (wf_cap m W).
  - intros i b' Hi h w I. rewrite E2 in Hi. destruct (Nat.eq_dec i (length l1)) as [->|Ne].
    + rewrite nth_error_app2, Nat.sub_diag in Hi by lia. injection Hi as <-.
      apply (wf_place m W (length l1) b) with (v := w); [rewrite L1; exact E|].
      apply (Permutation_in _ (Permutation_sym (bdel_perm b x v F))). right. auto.
    + apply (wf_place m W i b') with (v := w); auto. rewrite E1. destruct (Nat.lt_ge_cases i (length l1)).
      * rewrite nth_error_app1 in Hi |- * by lia. exact Hi.
      * rewrite nth_error_app2 in Hi |- * by lia. destruct (i - length l1)%nat eqn:D; [lia|exact Hi].
  - cbn [map fst] in ND. inversion ND; auto.
  - rewrite (wf_size m W). rewrite (Permutation_length PM). cbn [length]. unfold uwrap. rewrite Zminus_mod_idemp_l. f_equal. lia.
Qed.

Lemma remove_ok m h k : rep m h -> In k U -> exists ok m', um_remove H m k = Some (ok, m') /\
  ARemove ok = answer h (MRemove k) /\ rep m' (MRemove k :: h).
Proof.
  intros R Ik. pose proof (rep_wf m h R) as W. unfold um_remove. cbn [answer].
  assert (Same : val_of h k = None -> exists ok m', Some (false, m) = Some (ok, m') /\ ARemove ok = @ARemove V (present h k) /\ rep m' (MRemove k :: h)).
  { intros EV. exists false, m. split; [auto|]. unfold present. rewrite EV. split; [auto|]. split; [auto| |].
    - intros k' v' Ik'. rewrite (rep_val m h R k' v' Ik'). cbn [val_of]. destruct (key_eqb k' k) eqn:EK; [|tauto].
      apply key_eqb_true in EK. subst. rewrite EV. tauto.
    - cbn [count_of]. unfold present. rewrite EV. apply (rep_count m h R). }
  destruct (um_cap m =? 0) eqn:E0.
  - apply Same. destruct (val_of h k) as [v|] eqn:EV; [|auto]. apply (rep_val m h R k v Ik) in EV. exfalso.
    pose proof (wf_len m W). unfold contents in EV. destruct (um_entries m); [destruct EV|cbn [length] in *; lia].
  - assert (P : 0 < um_cap m) by (pose proof (wf_cap0 m W); lia).
    destruct (bucket_at m (H k) W P) as [b Eb]. rewrite Eb. pose proof (rep_find m h k b R P Ik Eb) as F. rewrite F.
    destruct (val_of h k) as [v|] eqn:EV; [|apply Same; auto].
    destruct (upd_del_ok m (H k) v b W P Eb F) as [W' PM]. set (m' := UMap _ _ _) in *.
    exists true, m'. split; [auto|]. split; [unfold present; rewrite EV; auto|].
    assert (NI : forall w, ~ In (H k, w) (contents m')).
    { intros w I. pose proof (Permutation_NoDup (Permutation_map fst PM) (wf_nodup m W)) as ND. cbn [map fst] in ND. inversion ND; subst.
      apply H2. change (H k) with (fst (H k, w)). apply in_map. auto. }
    split; [auto| |].
    + intros k' v' Ik'. cbn [val_of]. destruct (key_eqb k' k) eqn:EK.
      * apply key_eqb_true in EK. subst. split; [intros I; exfalso; apply (NI v' I)|discriminate].
      * rewrite <- (rep_val m h R k' v' Ik'). split; intros I.
        -- apply (Permutation_in _ (Permutation_sym PM)). right. auto.
        -- apply (Permutation_in _ PM) in I. destruct I as [I|I]; [|auto]. injection I as E _. apply inj in E; auto. subst.
           rewrite key_eqb_refl in EK. discriminate.
    + pose proof (Permutation_length PM) as PL. cbn [length] in PL. cbn [count_of]. unfold present. rewrite EV, <- (rep_count m h R). lia.
Qed.

Lemma search_ok m h k : rep m h -> In k U -> um_search H m k = Some (val_of h k).
Proof.
  intros R Ik. pose proof (rep_wf m h R) as W. unfold um_search. destruct (um_cap m =? 0) eqn:E0.
  - f_equal. destruct (val_of h k) as [v|] eqn:EV; [|auto]. apply (rep_val m h R k v Ik) in EV. exfalso.
    pose proof (wf_len m W). unfold contents in EV. destruct (um_entries m); [destruct EV|cbn [length] in *; lia].
  - assert (P : 0 < um_cap m) by (pose proof (wf_cap0 m W); lia).
    destruct (bucket_at m (H k) W P) as [b Eb]. rewrite Eb. rewrite (rep_find m h k b R P Ik Eb). reflexivity.
Qed.

Lemma step_ok m h o : rep m h -> (forall k, In k (op_key o) -> In k U) -> Z.of_nat (length (contents m)) < 2 ^ 32 ->
  exists m', mstep H m o = Some (answer h o, m') /\ rep m' (o :: h) /\ (length (contents m') <= S (length (contents m)))%nat.
Proof.
  intros R Ik B. destruct o as [k v|k|k| |]; cbn [mstep op_key] in *.
  - destruct (insert_ok m h k v R (Ik k (or_introl eq_refl))) as (ok & w & m' & E & A & R'). rewrite E, A. exists m'.
    split; [auto|]. split; [auto|]. pose proof (rep_count _ _ R') as C'. pose proof (rep_count _ _ R) as C. cbn [count_of] in C'. destruct (present h k); lia.
  - destruct (remove_ok m h k R (Ik k (or_introl eq_refl))) as (ok & m' & E & A & R'). rewrite E, A. exists m'.
    split; [auto|]. split; [auto|]. pose proof (rep_count _ _ R') as C'. pose proof (rep_count _ _ R) as C. cbn [count_of] in C'. destruct (present h k); lia.
  - rewrite (search_ok m h k R (Ik k (or_introl eq_refl))). exists m. split; [auto|]. split; [|lia]. split; [apply R|intros; cbn [val_of]; apply (rep_val m h R); auto|apply (rep_count m h R)].
  - exists (um_reset m). split; [auto|]. assert (C0 : contents (um_reset m) = []) by (unfold contents, um_reset; cbn [um_entries]; apply concat_repeat_nil).
    split; [|rewrite C0; cbn; lia]. split.
    + apply wf_empty. pose proof (wf_cap m (rep_wf m h R)). pose proof (wf_cap0 m (rep_wf m h R)). lia.
    + intros k v Ik'. rewrite C0. cbn. split; [tauto|discriminate].
    + rewrite C0. reflexivity.
  - exists m. split.
    + cbn [answer]. rewrite (wf_size m (rep_wf m h R)), uwrap_id by lia. rewrite (rep_count m h R). reflexivity.
    + split; [|lia]. split; [apply R|intros; cbn [val_of]; apply (rep_val m h R); auto|apply (rep_count m h R)].
Qed.

Lemma run_ok ops : forall m h, rep m h -> (forall k, In k (op_keys ops) -> In k U) ->
  Z.of_nat (length (contents m)) + Z.of_nat (length ops) < 2 ^ 32 ->
  exists m', mrun H m ops = Some (answers h ops, m') /\ rep m' (rev ops ++ h).
Proof.
  induction ops as [|o ops IH]; intros m h R Ik B; cbn [mrun answers rev app].
  - exists m. auto.
  - cbn [length] in B. unfold op_keys in Ik. cbn [flat_map] in Ik.
    destruct (step_ok m h o R) as (m1 & E1 & R1 & L1); [intros k I; apply Ik, in_or_app; auto|lia|]. rewrite E1.
    destruct (IH m1 (o :: h) R1) as (m2 & E2 & R2); [intros k I; apply Ik, in_or_app; auto|lia|]. rewrite E2.
    exists m2. split; [auto|]. rewrite <- app_assoc. exact R2.
Qed.
End V.

Theorem map_history {V} (H : key -> Z) (ops : list (mop V)) : no_collision H ops -> Z.of_nat (length ops) < 2 ^ 32 ->
  exists m, mrun H um_new ops = Some (answers [] ops, m).
Proof.
  intros N L. destruct (run_ok H (op_keys ops) N ops um_new []) as (m & E & _); [|auto|cbn; lia|eauto].
  split; [apply wf_new|intros k v _; cbn; split; [tauto|discriminate]|reflexivity].
Qed.
