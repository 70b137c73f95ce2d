(** The binary search, and the tree as a sorted list of entries. *)
From Verif Require Import Base Btr_Model Btr_Spec.
From Coq Require Import Permutation Sorted.

Lemma ss_app {A} (R : A -> A -> Prop) (a b : list A) :
  StronglySorted R (a ++ b) <-> StronglySorted R a /\ StronglySorted R b /\ forall x y, In x a -> In y b -> R x y.
Proof.
  induction a as [|x a IH]; cbn.
  - split; [intros S; split; [constructor|]; split; [exact S|]; intros x y []|tauto].
  - split.
    + intros S. apply StronglySorted_inv in S. destruct S as [S F]. apply IH in S. destruct S as (S1 & S2 & R12). rewrite Forall_app in F. destruct F as [F1 F2]. rewrite Forall_forall in F2.
      split; [constructor; assumption|]. split; [exact S2|]. intros u y [<-|I] J; auto.
    + intros (S1 & S2 & R12). apply StronglySorted_inv in S1. destruct S1 as [S1 F]. constructor; [apply IH; split; [exact S1|]; split; [exact S2|]; auto|].
      rewrite Forall_app. split; [exact F|]. apply Forall_forall. auto.
Qed.

Lemma item_at {A} (a : list A) x c : len (a ++ x :: c) < 2 ^ 32 -> item (a ++ x :: c) (len a) = Some x.
Proof.
  intros L. rewrite app_length in L. cbn in L. unfold item. rewrite app_length. cbn [length]. rewrite uwrap_id by lia. replace (len a >? Z.of_nat (length a + S (length c)) - 1) with false by lia.
  rewrite Nat2Z.id, nth_error_app2 by lia. rewrite Nat.sub_diag. reflexivity.
Qed.
Lemma item_last {A} (a : list A) x pos : len (a ++ [x]) < 2 ^ 32 -> len a <= pos -> item (a ++ [x]) pos = Some x.
Proof.
  intros L P. rewrite app_length in L. cbn in L. unfold item. rewrite app_length. cbn [length]. rewrite uwrap_id by lia.
  replace (Z.to_nat (if pos >? Z.of_nat (length a + 1) - 1 then Z.of_nat (length a + 1) - 1 else pos)) with (length a) by (destruct (pos >? Z.of_nat (length a + 1) - 1) eqn:E; lia).
  rewrite nth_error_app2 by lia. rewrite Nat.sub_diag. reflexivity.
Qed.
Lemma cut {A} (l : list A) n : (n < length l)%nat -> exists a x c, l = a ++ x :: c /\ length a = n.
Proof.
  revert n. induction l as [|y l IH]; intros n L; cbn in L; [lia|]. destruct n as [|n]; [exists [], y, l; auto|].
  destruct (IH n ltac:(lia)) as (a & x & c & -> & E). exists (y :: a), x, c. cbn. auto.
Qed.

(** The loop works on the window [w] of the keys: what is before is smaller, what is after is larger. *)
Lemma search_loop_ok key : forall fuel a w c, StronglySorted Z.lt (a ++ w ++ c) -> len (a ++ w ++ c) < 2 ^ 32 -> Forall (fun k => k < key) a -> Forall (fun k => key < k) c -> (length w < fuel)%nat ->
  exists b u v, a ++ w ++ c = u ++ v /\ search_loop fuel (a ++ w ++ c) key (len w) (len w / 2) (len a + len w / 2) = Some (b, len u) /\ Forall (fun k => k < key) u /\
    if b then exists v', v = key :: v' else Forall (fun k => key < k) v.
Proof.
  induction fuel as [|fuel IH]; intros a w c S L FA FC F; [lia|]. cbn [search_loop]. destruct (len w >? 0) eqn:W.
  2: { destruct w as [|x w]; [|cbn in W; lia]. exists false, a, c. cbn in *. rewrite Z.add_0_r. repeat split; auto. }
  assert (HW : (length w / 2 < length w)%nat) by (apply Nat.div_lt; lia). destruct (cut w (length w / 2) HW) as (w1 & x & w2 & Ew & E1).
  assert (EZ : len w / 2 = len w1) by (rewrite E1, Nat2Z.inj_div; reflexivity).
  assert (EL : len w = len w1 + 1 + len w2) by (rewrite Ew, app_length; cbn [length]; lia).
  assert (EW : a ++ w ++ c = (a ++ w1) ++ x :: w2 ++ c) by (rewrite Ew, <- !app_assoc; reflexivity).
  rewrite EZ. replace (len a + len w1) with (len (a ++ w1)) by (rewrite app_length; lia).
  assert (IT : item (a ++ w ++ c) (len (a ++ w1)) = Some x) by (rewrite EW; apply item_at; rewrite <- EW; exact L). rewrite IT.
  assert (LB : len a + len w1 + 1 + len w2 + len c < 2 ^ 32) by (rewrite EW in L; rewrite !app_length in L; cbn [length] in L; rewrite app_length in L; clear - L; lia).
  rewrite EW in S. apply ss_app in S. destruct S as (S1 & S2 & S12). apply StronglySorted_inv in S2. destruct S2 as [S2 FX].
  destruct (key =? x) eqn:Q.
  - assert (x = key) by lia. subst x. exists true, (a ++ w1), (key :: w2 ++ c). split; [exact EW|]. split; [reflexivity|]. split; [|eauto].
    apply Forall_forall. intros k I. apply S12; [exact I|left; reflexivity].
  - assert (SS : StronglySorted Z.lt (a ++ w ++ c)).
    { rewrite EW. apply ss_app. split; [exact S1|]. split; [constructor; assumption|exact S12]. }
    destruct (key <? x) eqn:Q2.
    + cbv zeta.
      assert (EI : uwrap 32 ((if len w1 mod 2 =? 1 then uwrap 32 (len (a ++ w1) - 1) else len (a ++ w1)) - len w1 / 2) = len a + len w1 / 2).
      { rewrite app_length, Nat2Z.inj_add. pose proof (Z.div_mod (len w1) 2 ltac:(lia)) as D. pose proof (Z.mod_pos_bound (len w1) 2 ltac:(lia)) as M.
        destruct (len w1 mod 2 =? 1) eqn:R; [rewrite (uwrap_id 32 (_ - 1)) by (clear - LB R D M; lia)|]; rewrite uwrap_id by (clear - LB R D M; lia); clear - R D M; lia. }
      rewrite EI. assert (EW' : a ++ w ++ c = a ++ w1 ++ (x :: w2 ++ c)) by (rewrite EW, <- app_assoc; reflexivity). rewrite EW'. apply IH.
      * rewrite <- EW'. exact SS.
      * rewrite <- EW'. exact L.
      * exact FA.
      * constructor; [lia|]. apply Forall_forall. intros k I. rewrite Forall_forall in FX. specialize (FX k I). lia.
      * lia.
    + cbv zeta.
      assert (ER : (if len w mod 2 =? 0 then uwrap 32 (len w1 - 1) else len w1) = len w2).
      { pose proof (Z.div_mod (len w) 2 ltac:(lia)) as D. pose proof (Z.mod_pos_bound (len w) 2 ltac:(lia)) as M.
        destruct (len w mod 2 =? 0) eqn:R; [rewrite uwrap_id by (clear - LB EL EZ D M R; lia)|]; clear - EL EZ D M R; lia. }
      rewrite ER. assert (EW' : a ++ w ++ c = (a ++ w1 ++ [x]) ++ w2 ++ c) by (rewrite EW, <- !app_assoc; reflexivity).
      assert (EI : uwrap 32 (len (a ++ w1) + uwrap 32 (len w2 / 2 + 1)) = len (a ++ w1 ++ [x]) + len w2 / 2).
      { rewrite !app_length. cbn [length]. pose proof (Z.div_mod (len w2) 2 ltac:(lia)) as D. pose proof (Z.mod_pos_bound (len w2) 2 ltac:(lia)) as M.
        rewrite (uwrap_id 32 (len w2 / 2 + 1)) by (clear - LB D M; lia). rewrite uwrap_id by (clear - LB D M; lia). lia. }
      rewrite EI, EW'. apply IH.
      * rewrite <- EW'. exact SS.
      * rewrite <- EW'. exact L.
      * apply Forall_forall. intros k I. rewrite app_assoc in I. apply in_app_or in I. destruct I as [I|[<-|[]]]; [specialize (S12 k x I ltac:(left; reflexivity)); lia|lia].
      * exact FC.
      * lia.
Qed.

(** The tree holds the sorted entries [L]. *)
Definition holds {V} (H : ident -> Z) (t : tree V) (L : list (ident * V)) : Prop :=
  keys t = map (fun p => H (fst p)) L /\ vals t = map snd L /\ StronglySorted Z.lt (keys t).
Lemma search_ok {V} H (t : tree V) L key : holds H t L -> len L < 2 ^ 32 ->
  exists b u v, L = u ++ v /\ binary_search t key = Some (b, len u) /\ Forall (fun p => H (fst p) < key) u /\
    if b then exists p v', v = p :: v' /\ H (fst p) = key /\ Forall (fun p => key < H (fst p)) v' else Forall (fun p => key < H (fst p)) v.
Proof.
  intros (K & VV & S) LL. unfold binary_search. rewrite VV, map_length. rewrite K in *.
  destruct (search_loop_ok key (Datatypes.S (length L)) [] (map (fun p => H (fst p)) L) []) as (b & u & v & E & R & FU & FV).
  - cbn. rewrite app_nil_r. exact S.
  - cbn. rewrite app_nil_r, map_length. exact LL.
  - constructor.
  - constructor.
  - rewrite map_length. lia.
  - cbn [app] in *. rewrite app_nil_r in *. rewrite map_length in R. cbn [length] in R. rewrite Z.add_0_l in R. rewrite R.
    apply map_eq_app in E. destruct E as (l1 & l2 & -> & <- & <-). rewrite map_app in S. apply ss_app in S. destruct S as (_ & S2 & _).
    exists b, l1, l2. rewrite map_length. split; [reflexivity|]. split; [reflexivity|]. split; [exact (proj1 (Forall_map _ _ _) FU)|].
    destruct b; [|exact (proj1 (Forall_map _ _ _) FV)]. destruct FV as (v' & FV). destruct l2 as [|p l2]; [discriminate FV|]. injection FV as E1 E2. exists p, l2. split; [reflexivity|]. split; [exact E1|].
    cbn in S2. apply StronglySorted_inv in S2. destruct S2 as [_ F]. rewrite E1 in F. exact (proj1 (Forall_map _ _ _) F).
Qed.

(** Counting, and looking up, in a permutation of the sorted entries. *)
Lemma filter_perm {A} f (l l' : list A) : Permutation l l' -> Permutation (filter f l) (filter f l').
Proof.
  induction 1 as [|x l l' P IH|x y l|]; cbn; [constructor| | |etransitivity; eassumption].
  - destruct (f x); [constructor|]; exact IH.
  - destruct (f x), (f y); try reflexivity. constructor.
Qed.
Lemma rank_cut {V} H (u v m : list (ident * V)) id : Permutation (u ++ v) m -> Forall (fun p => H (fst p) < H id) u -> Forall (fun p => H id <= H (fst p)) v -> rank H m id = len u.
Proof.
  intros P FU FV. unfold rank. rewrite <- (Permutation_length (filter_perm _ _ _ P)). rewrite filter_app, app_length.
  replace (filter (fun p => H (fst p) <? H id) v) with (@nil (ident * V)). 2: { clear -FV. induction FV as [|p v E F IH]; cbn; [reflexivity|]. replace (H (fst p) <? H id) with false by lia. exact IH. }
  replace (filter (fun p => H (fst p) <? H id) u) with u; [cbn; lia|]. clear -FU. induction FU as [|p u E F IH]; cbn; [reflexivity|]. replace (H (fst p) <? H id) with true by lia. f_equal. exact IH.
Qed.
Ltac destruct_find m E := match goal with |- context[find ?f m] => destruct (find f m) as [p|] eqn:E end.
Lemma lookup_none {V} (m : list (ident * V)) id : lookup m id = None <-> forall v, ~ In (id, v) m.
Proof.
  unfold lookup. split.
  - destruct_find m E; [discriminate|]. intros _ v I. pose proof (find_none _ _ E _ I) as D. cbn [fst] in D. destruct (list_eq_dec Z.eq_dec id id); congruence.
  - intros N. destruct_find m E; [|reflexivity]. destruct p as [i v]. apply find_some in E. destruct E as [I D]. cbn [fst] in D. destruct (list_eq_dec Z.eq_dec i id) as [->|]; [|discriminate]. destruct (N _ I).
Qed.
Lemma lookup_some {V} (m : list (ident * V)) id v : NoDup (map fst m) -> In (id, v) m -> lookup m id = Some v.
Proof.
  intros N I. unfold lookup. destruct_find m E.
  - destruct p as [i w]. apply find_some in E. destruct E as [J D]. cbn [fst] in D. destruct (list_eq_dec Z.eq_dec i id) as [->|]; [|discriminate]. cbn. f_equal.
    clear -N I J. induction m as [|[i x] m IH]; [destruct I|]. cbn in N. apply NoDup_cons_iff in N. destruct N as [N0 N].
    destruct I as [[= -> ->]|I], J as [[= ->]|J]; auto; exfalso; apply N0; [apply (in_map fst) in J|subst; apply (in_map fst) in I]; assumption.
  - exfalso. pose proof (find_none _ _ E _ I) as D. cbn [fst] in D. destruct (list_eq_dec Z.eq_dec id id); congruence.
Qed.
Lemma without_absent {V} (m : list (ident * V)) id : (forall v, ~ In (id, v) m) -> without m id = m.
Proof.
  unfold without. induction m as [|[i x] m IH]; intros N; [reflexivity|]. cbn [filter fst]. destruct (list_eq_dec Z.eq_dec i id) as [->|]; [destruct (N x); left; reflexivity|]. f_equal. apply IH. intros v I. apply (N v). right. exact I.
Qed.

(** One call keeps the tree and the map together. *)
Definition inv {V} (H : ident -> Z) (S : list ident) (t : tree V) (m : list (ident * V)) : Prop :=
  exists L, holds H t L /\ Permutation L m /\ NoDup (map fst m) /\ (forall p, In p m -> In (fst p) S).
Lemma insert_mid {A} (u v : list A) x mem : insert_at (u ++ v) (len u) x mem = if mem then (true, u ++ x :: v) else (false, u ++ v).
Proof.
  unfold insert_at. rewrite app_length. replace (len u >? Z.of_nat (length u + length v)) with false by lia. destruct mem; [|reflexivity].
  rewrite Nat2Z.id, firstn_app, skipn_app, Nat.sub_diag, firstn_all, skipn_all, firstn_O, app_nil_r. reflexivity.
Qed.
Lemma remove_mid {A} (u v : list A) x : remove_at (u ++ x :: v) (len u) = u ++ v.
Proof.
  unfold remove_at. rewrite app_length. cbn [length]. replace (len u >=? Z.of_nat (length u + S (length v))) with false by lia.
  rewrite Nat2Z.id, firstn_app, Nat.sub_diag, firstn_all, firstn_O, app_nil_r, skipn_app. replace (length u + 1 - length u)%nat with 1%nat by lia. rewrite skipn_all2 by lia. reflexivity.
Qed.
Lemma insert_map {A B} (f : B -> A) u (v : list A) x mem : insert_at (map f u ++ v) (len u) x mem = if mem then (true, map f u ++ x :: v) else (false, map f u ++ v).
Proof. rewrite <- insert_mid. rewrite map_length. reflexivity. Qed.
Lemma remove_map {A B} (f : B -> A) u (v : list A) x : remove_at (map f u ++ x :: v) (len u) = map f u ++ v.
Proof. rewrite <- (remove_mid (map f u) v x). rewrite map_length. reflexivity. Qed.
Lemma holds_insert {V} H (u v : list (ident * V)) p key : H (fst p) = key -> Forall (fun p => H (fst p) < key) u -> Forall (fun p => key < H (fst p)) v ->
  StronglySorted Z.lt (map (fun p => H (fst p)) (u ++ v)) -> StronglySorted Z.lt (map (fun p => H (fst p)) (u ++ p :: v)).
Proof.
  intros E FU FV S. rewrite map_app in *. apply ss_app in S. destruct S as (S1 & S2 & S3). apply ss_app. split; [exact S1|]. rewrite Forall_forall in FU, FV. split.
  - cbn. constructor; [exact S2|]. apply Forall_forall. intros k I. apply in_map_iff in I. destruct I as (q & <- & I). rewrite E. apply FV. exact I.
  - intros a b I J. cbn in J. destruct J as [<-|J]; [|auto]. apply in_map_iff in I. destruct I as (q & <- & I). rewrite E. apply FU. exact I.
Qed.
Lemma holds_remove {V} H (u v : list (ident * V)) p : StronglySorted Z.lt (map (fun p => H (fst p)) (u ++ p :: v)) -> StronglySorted Z.lt (map (fun p => H (fst p)) (u ++ v)).
Proof.
  rewrite !map_app. intros S. apply ss_app in S. destruct S as (S1 & S2 & S3). cbn in *. apply StronglySorted_inv in S2. apply ss_app. split; [exact S1|]. split; [apply S2|]. intros x y I J. apply S3; auto.
Qed.
Definition injective (H : ident -> Z) (S : list ident) : Prop := forall a b, In a S -> In b S -> H a = H b -> a = b.

Lemma find_inv {V} H S (t : tree V) m id : injective H S -> inv H S t m -> In id S -> len m < 2 ^ 32 ->
  exists u v, holds H t (u ++ v) /\ Permutation (u ++ v) m /\ rank H m id = len u /\ Forall (fun p => H (fst p) < H id) u /\
  ((exists x v', v = (id, x) :: v' /\ lookup m id = Some x /\ binary_search t (H id) = Some (true, len u)) \/
   (Forall (fun p => H id < H (fst p)) v /\ lookup m id = None /\ binary_search t (H id) = Some (false, len u))).
Proof.
  intros J (L & K & P & N & I) ID LM. assert (LL : len L < 2 ^ 32) by (rewrite (Permutation_length P); exact LM).
  destruct (search_ok H t L (H id) K LL) as (b & u & v & -> & R & FU & FV). exists u, v. split; [exact K|]. split; [exact P|]. destruct b.
  - destruct FV as ([i x] & v' & -> & E & FV). cbn [fst] in E.
    assert (IM : In (i, x) m) by (apply (Permutation_in _ P); apply in_or_app; right; left; reflexivity).
    assert (i = id) by (apply J; [exact (I _ IM)|exact ID|exact E]). subst i. split.
    + apply (rank_cut H u ((id, x) :: v')); auto. constructor; [cbn; lia|]. eapply Forall_impl; [|exact FV]. cbn. intros. lia.
    + split; [exact FU|]. left. exists x, v'. split; [reflexivity|]. split; [apply lookup_some; assumption|exact R].
  - split; [apply (rank_cut H u v); auto; eapply Forall_impl; [|exact FV]; cbn; intros; lia|]. split; [exact FU|]. right. split; [exact FV|]. split; [|exact R].
    apply lookup_none. intros x X. apply (Permutation_in _ (Permutation_sym P)) in X. apply in_app_or in X. rewrite Forall_forall in FU, FV. destruct X as [X|X]; [apply FU in X|apply FV in X]; cbn in X; lia.
Qed.
Lemma inv_insert {V} H S (t : tree V) m u v id x : inv H S t m -> In id S -> holds H t (u ++ v) -> Permutation (u ++ v) m -> Forall (fun p => H (fst p) < H id) u -> Forall (fun p => H id < H (fst p)) v ->
  lookup m id = None -> inv H S (Tree (map (fun p => H (fst p)) (u ++ (id, x) :: v)) (map snd (u ++ (id, x) :: v))) ((id, x) :: m).
Proof.
  intros (L0 & K0 & P0 & N & I) ID (K & VV & SS) P FU FV LN. exists (u ++ (id, x) :: v). split; [|split; [|split]].
  - split; [reflexivity|]. split; [reflexivity|]. cbn [keys]. apply (holds_insert H u v (id, x) (H id)); auto. rewrite <- K. exact SS.
  - rewrite <- Permutation_middle. constructor. exact P.
  - cbn. constructor; [|exact N]. intros X. apply in_map_iff in X. destruct X as ([i y] & E & X). cbn in E. subst i. apply lookup_none with (v := y) in LN. tauto.
  - intros p [<-|X]; [exact ID|auto].
Qed.
Lemma sorted_nodup {V} H (L : list (ident * V)) : StronglySorted Z.lt (map (fun p => H (fst p)) L) -> NoDup (map (fun p => H (fst p)) L).
Proof.
  induction L as [|p L IH]; cbn; intros S; [constructor|]. apply StronglySorted_inv in S. destruct S as [S F]. constructor; [|auto]. intros X. rewrite Forall_forall in F. specialize (F _ X). lia.
Qed.
Lemma step_ok {V} H S (t : tree V) m o : injective H S -> inv H S t m -> (forall id, In id (ids_of o) -> In id S) -> fed o -> allowed m o -> len m + 1 < 2 ^ 32 ->
  exists r t', step H t o = Some (r, t') /\ answers H m o r /\ inv H S t' (next m o).
Proof.
  intros J I IDS F A LM. destruct o as [id v mem1 mem2|id|id|pos|id x mem1 mem2| |]; cbn [ids_of fed allowed] in *; cbn [step answers next].
  - destruct (find_inv H S t m id J I (IDS id ltac:(left; reflexivity)) ltac:(lia)) as (u & w & K & P & R & FU & [(x & w' & -> & LK & B)|(FV & LK & B)]); rewrite B, LK, R.
    + eexists _, t. repeat split; auto.
    + destruct mem1; [rewrite (F eq_refl)|unfold insert_at; destruct (len u >? len (keys t)); eexists _, t; repeat split; auto]. destruct K as (K & VV & SS). rewrite K, VV, !map_app. rewrite !insert_map.
      eexists _, _. split; [reflexivity|]. split; [reflexivity|].
      change (v :: map snd w) with (map snd ((id, v) :: w)). change (H id :: map (fun p : ident * V => H (fst p)) w) with (map (fun p : ident * V => H (fst p)) ((id, v) :: w)). rewrite <- !map_app.
      eapply inv_insert; eauto; [apply IDS; left; reflexivity|split; auto].
  - destruct (find_inv H S t m id J I (IDS id ltac:(left; reflexivity)) ltac:(lia)) as (u & w & K & P & R & FU & [(x & w' & -> & LK & B)|(FV & LK & B)]); rewrite B, LK.
    + destruct K as (K & VV & SS). destruct I as (L0 & K0 & P0 & N & I). rewrite K, VV, !map_app. cbn [map]. rewrite !remove_map. rewrite <- !map_app.
      eexists _, _. split; [reflexivity|]. split; [reflexivity|]. exists (u ++ w').
      assert (NL : NoDup (map fst (u ++ (id, x) :: w'))) by (apply (Permutation_NoDup (Permutation_map fst (Permutation_sym P))); exact N).
      assert (NI : forall y, ~ In (id, y) (u ++ w')) by (rewrite map_app in NL; cbn in NL; apply NoDup_remove_2 in NL; rewrite <- map_app in NL; intros y Y; apply NL; apply (in_map fst) in Y; exact Y).
      split; [split; [reflexivity|]; split; [reflexivity|]; cbn [keys]; rewrite K in SS; eapply holds_remove; exact SS|].
      split; [|split].
      * unfold without. rewrite <- (filter_perm _ _ _ P), filter_app. cbn [filter fst]. destruct (list_eq_dec Z.eq_dec id id); [|congruence]. rewrite <- filter_app.
        pose proof (without_absent (u ++ w') id NI) as W. unfold without in W. rewrite <- W at 1. reflexivity.
      * clear -N. unfold without. induction m as [|p m IH]; [constructor|]. cbn [map] in N. apply NoDup_cons_iff in N. destruct N as [N0 N]. cbn [filter]. destruct (list_eq_dec Z.eq_dec (fst p) id); [auto|].
        cbn [map]. constructor; [|auto]. intros X. apply N0. apply in_map_iff in X. destruct X as (q & <- & X). apply filter_In in X. apply in_map. apply X.
      * intros p X. apply filter_In in X. apply I. apply X.
    + eexists _, t. split; [reflexivity|]. split; [reflexivity|]. rewrite without_absent by (apply lookup_none; exact LK). exact I.
  - destruct (find_inv H S t m id J I (IDS id ltac:(left; reflexivity)) ltac:(lia)) as (u & w & K & P & R & FU & [(x & w' & -> & LK & B)|(FV & LK & B)]); rewrite B, LK, R; eexists _, t; repeat split; auto.
  - destruct A as [NE PP]. assert (I' := I). destruct I as (L & (K & VV & SS) & P & N & I). rewrite VV.
    assert (LL : length L = length m) by (apply Permutation_length; exact P). assert (LP : (0 < length L)%nat) by (rewrite LL; destruct m; [congruence|cbn; lia]).
    destruct (cut L (Z.to_nat (Z.min pos (len m - 1))) ltac:(lia)) as (a & [id v] & c & -> & E).
    assert (IT : item (map snd (a ++ (id, v) :: c)) pos = Some v).
    { rewrite map_app. cbn [map snd]. destruct (Z_lt_le_dec pos (len m - 1)) as [C|C].
      - replace pos with (len (map snd a)) by (rewrite map_length; lia). apply item_at. rewrite app_length in *. cbn [length] in *. rewrite !map_length. lia.
      - rewrite app_length in LL. cbn [length] in LL. destruct c as [|z c]; [|cbn in LL; lia]. cbn. apply item_last; [rewrite app_length, map_length; cbn; lia|rewrite map_length; lia]. }
    rewrite IT. eexists _, t. split; [reflexivity|]. split; [|exact I']. exists id, v. split; [apply (Permutation_in _ P); apply in_or_app; right; left; reflexivity|]. split; [|reflexivity].
    rewrite K, map_app in SS. apply ss_app in SS. destruct SS as (S1 & S2 & S3). cbn in S2. apply StronglySorted_inv in S2. destruct S2 as [S2 FX].
    rewrite (rank_cut H a ((id, v) :: c) m id P); [lia| |].
    + apply Forall_forall. intros p X. apply S3; [apply (in_map (fun p => H (fst p))) in X; exact X|left; reflexivity].
    + constructor; [cbn; lia|]. apply (Forall_map (fun p : ident * V => H (fst p)) (Z.lt (H id))) in FX. eapply Forall_impl; [|exact FX]. cbn. intros. lia.
  - destruct F as [-> ->]. destruct (find_inv H S t m id J I (IDS id ltac:(left; reflexivity)) ltac:(lia)) as (u & w & K & P & R & FU & [(y & w' & -> & LK & B)|(FV & LK & B)]); rewrite B, LK.
    + assert (VV : vals t = map snd u ++ y :: map snd w') by (destruct K as (_ & -> & _); rewrite map_app; reflexivity). rewrite VV. replace (len u) with (len (map snd u)) by (rewrite map_length; reflexivity).
      pose proof (Permutation_length P) as PL. rewrite app_length in PL. cbn in PL. rewrite item_at by (rewrite app_length; cbn [length]; rewrite !map_length; lia). eexists _, t. repeat split; auto.
    + assert (KK := K). destruct K as (K & VV & SS). rewrite K, VV, !map_app. rewrite !insert_map. cbn [snd vals].
      pose proof (Permutation_length P) as PL. rewrite app_length in PL. cbn in PL. replace (len u) with (len (map snd u)) by (rewrite map_length; reflexivity).
      rewrite item_at by (rewrite app_length; cbn [length]; rewrite !map_length; lia).
      eexists _, _. split; [reflexivity|]. split; [reflexivity|].
      change (x :: map snd w) with (map snd ((id, x) :: w)). change (H id :: map (fun p : ident * V => H (fst p)) w) with (map (fun p : ident * V => H (fst p)) ((id, x) :: w)). rewrite <- !map_app.
      eapply inv_insert; eauto. apply IDS; left; reflexivity.
  - eexists _, _. split; [reflexivity|]. split; [reflexivity|]. exists []. repeat split; try constructor. intros p [].
  - eexists _, t. split; [reflexivity|]. split; [|exact I]. destruct I as (L & (K & VV & SS) & P & _). rewrite VV, map_length, (Permutation_length P). reflexivity.
Qed.
Lemma run_ok {V} H S : injective H S -> forall l (t : tree V) m, inv H S t m -> (forall id, In id (flat_map ids_of l) -> In id S) -> Forall fed l -> all_allowed m l -> len m + len l < 2 ^ 32 ->
  exists rs t', run H t l = Some (rs, t') /\ all_answers H m l rs.
Proof.
  intros J. induction l as [|o l IH]; intros t m I IDS F A LM; cbn [run all_answers].
  - exists [], t. cbn. auto.
  - cbn [length all_allowed flat_map] in *. destruct A as [A0 A].
    destruct (step_ok H S t m o J I (fun id X => IDS id (in_or_app _ _ _ (or_introl X))) (Forall_inv F) A0 ltac:(lia)) as (r & t1 & -> & R & I1).
    destruct (IH t1 (next m o) I1 (fun id X => IDS id (in_or_app _ _ _ (or_intror X))) (Forall_inv_tail F) A) as (rs & t2 & -> & RS).
    + assert (len (next m o) <= len m + 1); [|lia]. destruct o as [id v ? ?|id|id|pos|id x ? ?| |]; cbn [next]; try (cbn; lia).
      * destruct (lookup m id); [|match goal with |- context[if ?c then _ else _] => destruct c end]; cbn; lia.
      * unfold without. assert (FL : forall f (l : list (ident * V)), (length (filter f l) <= length l)%nat) by (clear; intros f; induction l as [|p l IHl]; cbn; [lia|destruct (f p); cbn; lia]). specialize (FL (fun p : ident * V => if list_eq_dec Z.eq_dec (fst p) id then false else true) m). lia.
      * destruct (lookup m id); cbn; lia.
    + exists (r :: rs), t2. split; [reflexivity|]. cbn. auto.
Qed.
