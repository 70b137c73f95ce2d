(** Histories of list operations. *)
From Verif Require Import Base LinkedList_Model LinkedList_Spec LinkedList_Proofs.

Record Inv (h : heap) (H : holder) (l pool : list Z) : Prop := {
  inv_links : links h (root H :: l) 0;
  inv_nodup : NoDup (root H :: l ++ pool);
  inv_pool : forall p, In p pool -> p <> 0 /\ h p = Some 0;
  inv_size : llhSize H = Z.of_nat (length l);
  inv_live : forall x, h x <> None -> In x (root H :: l ++ pool) }.

Lemma remove1_perm p l : In p l -> Permutation l (p :: remove1 p l).
Proof.
  induction l as [|x l IH]; cbn; [tauto|]. intros I. destruct (x =? p) eqn:E.
  - replace x with p by lia. auto.
  - destruct I as [->|I]; [lia|]. rewrite perm_swap. apply perm_skip. auto.
Qed.
Lemma remove1_in p l x : In x (remove1 p l) -> In x l.
Proof. induction l as [|y l IH]; cbn; [tauto|]. destruct (y =? p); cbn; tauto. Qed.

Lemma Inv_intro h h' H H' l pool l' pool' dead : Inv h H l pool -> root H' = root H ->
  links h' (root H :: l') 0 -> Permutation (l ++ pool) (dead ++ l' ++ pool') ->
  (forall x, In x dead -> h' x = None) ->
  (forall x, ~ In x (root H :: l ++ pool) -> h' x = h x) ->
  (forall p, In p pool' -> h' p = Some 0) ->
  llhSize H' = Z.of_nat (length l') -> Inv h' H' l' pool'.
Proof.
  intros I R L P D F PL S. destruct I as [Il In_ Ip Is Iv].
  assert (ND : NoDup (root H :: dead ++ l' ++ pool')) by (eapply Permutation_NoDup; [apply perm_skip, P|exact In_]).
  constructor; rewrite ?R; auto.
  - inversion ND; subst. constructor; [intros J; apply H2; apply in_or_app; auto|]. eapply NoDup_app_r; eauto.
  - intros p Hp. split; [|auto]. assert (J : In p (l ++ pool)).
    { eapply Permutation_in; [apply Permutation_sym, P|]. apply in_or_app; right; apply in_or_app; auto. }
    apply in_app_or in J. destruct J as [J|J]; [eapply links_nz; [exact Il|right; auto]|apply Ip; auto].
  - intros x Hx. destruct (in_dec Z.eq_dec x (root H :: l ++ pool)) as [J|J].
    + destruct J as [J|J]; [left; auto|right]. eapply Permutation_in in J; [|exact P]. apply in_app_or in J.
      destruct J as [J|J]; auto. exfalso. auto.
    + exfalso. apply J, Iv. rewrite <- F; auto.
Qed.

Lemma pool_out h H l pool p : Inv h H l pool -> In p pool -> ~ In p (root H :: l).
Proof.
  intros I Hp [E|J]; destruct I as [_ ND _ _ _]; inversion ND; subst.
  - apply H2. apply in_or_app. auto.
  - eapply NoDup_app_in; eauto.
Qed.
Lemma pool_links h H l pool p : Inv h H l pool -> In p pool -> links h [p] 0.
Proof. intros I Hp. destruct (inv_pool _ _ _ _ I p Hp) as [N E]. cbn. auto. Qed.
Lemma nodup_l h H l pool : Inv h H l pool -> NoDup (root H :: l).
Proof. intros I. destruct I as [_ ND _ _ _]. change (root H :: l ++ pool) with ((root H :: l) ++ pool) in ND. eapply NoDup_app_l; eauto. Qed.
Lemma nodup_add h H l pool p : Inv h H l pool -> In p pool -> NoDup (root H :: l ++ [p]).
Proof.
  intros I Hp. destruct I as [_ ND _ _ _].
  assert (ND2 : NoDup ((root H :: l ++ [p]) ++ remove1 p pool)).
  { cbn. rewrite <- app_assoc. eapply Permutation_NoDup; [|exact ND]. apply perm_skip, Permutation_app_head, remove1_perm; auto. }
  eapply NoDup_app_l; eauto.
Qed.

Lemma perm_insert l pool p l' : In p pool -> Permutation (p :: l) l' -> Permutation (l ++ pool) ([] ++ l' ++ remove1 p pool).
Proof.
  intros Hp P. cbn [app]. rewrite <- P. rewrite (remove1_perm p pool Hp) at 1. cbn. apply Permutation_sym, Permutation_middle.
Qed.
Lemma perm_take l pool p : In p l -> Permutation (l ++ pool) ([] ++ remove1 p l ++ p :: pool).
Proof. intros Hp. cbn [app]. rewrite (remove1_perm p l Hp) at 1. cbn. apply Permutation_middle. Qed.

Lemma firstn_skipn_insert (l : list Z) p i : Permutation (p :: l) (firstn i l ++ p :: skipn i l).
Proof. rewrite <- (firstn_skipn i l) at 1. apply Permutation_middle. Qed.

Lemma nth_error_split_skip (l : list Z) i x : nth_error l i = Some x -> l = firstn i l ++ x :: skipn (S i) l.
Proof.
  revert i. induction l as [|y l IH]; intros [|i]; cbn; try discriminate.
  - intros [= ->]. reflexivity.
  - intros E. f_equal. exact (IH i E).
Qed.

Lemma filter_negb_perm f (l : list Z) : Permutation l (filter f l ++ filter (fun x => negb (f x)) l).
Proof.
  induction l as [|x l IH]; [auto|]. cbn. destruct (f x); cbn; [auto|]. rewrite <- Permutation_middle. auto.
Qed.
Lemma filter_negb_len f (l : list Z) : (length (filter f l) + length (filter (fun x => negb (f x)) l) = length l)%nat.
Proof. rewrite <- app_length. apply Permutation_length, Permutation_sym, filter_negb_perm. Qed.
Lemma existsb_filter f (l : list Z) : existsb f l = negb (length (filter f l) =? 0)%nat.
Proof. induction l as [|x l IH]; [reflexivity|]. cbn. destruct (f x); [reflexivity|]. exact IH. Qed.

Lemma Permutation_filter f (a b : list Z) : Permutation a b -> Permutation (filter f a) (filter f b).
Proof.
  induction 1; cbn; auto.
  - destruct (f x); auto.
  - destruct (f x), (f y); auto. apply perm_swap.
  - etransitivity; eauto.
Qed.

(** The loop of SafeDelete. *)
Lemma safe_delete_loop_ok f : forall fuel l b rest h H d, l = b ++ rest -> (forall x, In x b -> f x = false) ->
  links h (root H :: l) 0 -> NoDup (root H :: l) -> llhSize H = Z.of_nat (length l) -> Z.of_nat (length l) < 2 ^ 32 ->
  (S (length (filter f l)) * (length l + 2) + length rest < fuel)%nat ->
  exists h' H', safe_delete_loop fuel h H f (hd 0 rest) d =
      Some (h', H', if existsb f l then uwrap 32 (d + Z.of_nat (length (filter f l))) else d) /\
    root H' = root H /\ links h' (root H :: filter (fun x => negb (f x)) l) 0 /\
    llhSize H' = Z.of_nat (length (filter (fun x => negb (f x)) l)) /\
    (forall x, In x (filter f l) -> h' x = None) /\ (forall x, ~ In x (root H :: l) -> h' x = h x).
Proof.
  induction fuel as [|fuel IH]; intros l b rest h H d El Hb L ND Sz Bd Hf; [lia|]. cbn [safe_delete_loop].
  destruct rest as [|x rest]; cbn [hd].
  - rewrite app_nil_r in El. subst b.
    assert (F0 : filter f l = []) by (clear -Hb; induction l as [|y l IH]; [auto|]; cbn in *; rewrite Hb by auto; apply IH; auto).
    rewrite existsb_filter, F0. cbn [length Nat.eqb negb]. exists h, H. cbn [Z.eqb].
    assert (F1 : filter (fun x => negb (f x)) l = l).
    { clear -Hb. induction l as [|y l IH]; [auto|]. cbn in *. rewrite Hb by auto. cbn. f_equal. apply IH; auto. }
    rewrite F1. repeat split; auto; try (apply L). cbn. tauto.
  - assert (Nx : x <> 0). { eapply links_nz; [exact L|]. right. subst l. apply in_or_app. right; left; auto. }
    replace (x =? 0) with false by lia. destruct (f x) eqn:Fx.
    + assert (Ix : In x l) by (subst l; apply in_or_app; right; left; auto).
      unfold h_extract. destruct (ll_extract_ok fuel h (root H) l x L ND) as [[NI _]|[_ (h1 & E1 & L1 & Z1 & F1)]]; [lia|tauto|].
      rewrite E1.
      assert (N1 : nx h1 x = Some 0) by (unfold nx; replace (x =? 0) with false by lia; auto).
      rewrite (del_ok _ _ _ N1). cbn [root].
      assert (Nb : ~ In x b) by (intros J; rewrite (Hb x J) in Fx; discriminate).
      assert (ER : remove1 x l = b ++ rest) by (subst l; apply remove1_split; auto).
      assert (PR := remove1_perm x l Ix). rewrite ER in *.
      assert (NDr : NoDup (root H :: x :: b ++ rest)) by (eapply Permutation_NoDup; [apply perm_skip, PR|exact ND]).
      assert (Nxr : ~ In x (root H :: b ++ rest)).
      { inversion NDr; subst. inversion H3; subst. intros [J|J]; [apply H2; left; auto|auto]. }
      set (h2 := upd h1 x None).
      assert (L2 : links h2 (root H :: b ++ rest) 0) by (apply links_upd_out; auto).
      destruct (nx_link0 _ _ _ _ L2) as [E2 _]. rewrite E2.
      assert (FC : length (filter f l) = S (length (filter f (b ++ rest)))).
      { pose proof (Permutation_length (Permutation_filter f _ _ PR)) as PL. cbn [filter] in PL. rewrite Fx in PL. exact PL. }
      assert (LC : length l = S (length (b ++ rest))) by (rewrite (Permutation_length PR); reflexivity).
      destruct (IH (b ++ rest) [] (b ++ rest) h2 (Holder (root H) (uwrap 32 (llhSize H - 1))) (uwrap 32 (d + 1))) as
        (h' & H' & R & RT & L' & S' & D' & F'); cbn [root llhSize]; auto.
      * intros y [].
      * inversion NDr; subst. inversion H3; subst. constructor; auto. intros J. apply H2. right; auto.
      * rewrite Sz, uwrap_id by lia. lia.
      * lia.
      * nia.
      * exists h', H'. cbn [root] in *.
        assert (FE : filter (fun x => negb (f x)) l = filter (fun x => negb (f x)) (b ++ rest)).
        { subst l. rewrite !filter_app. cbn. rewrite Fx. reflexivity. }
        rewrite FE. split; [|split; [exact RT|split; [exact L'|split; [exact S'|split]]]].
        -- rewrite R. do 2 f_equal. rewrite !existsb_filter, FC. cbn [Nat.eqb negb].
           destruct (length (filter f (b ++ rest)) =? 0)%nat eqn:E0; cbn [negb].
           ++ apply Nat.eqb_eq in E0. rewrite E0. f_equal; lia.
           ++ unfold uwrap. rewrite Zplus_mod_idemp_l. f_equal. lia.
        -- intros y Hy. eapply Permutation_in in Hy; [|apply Permutation_filter, PR]. cbn [filter] in Hy. rewrite Fx in Hy.
           destruct Hy as [<-|Hy]; [|auto]. rewrite F' by auto. apply upd_same.
        -- intros y Ny. assert (Ny2 : ~ In y (root H :: b ++ rest)).
           { intros [J|J]; apply Ny; [left; auto|right]. eapply Permutation_in; [apply Permutation_sym, PR|right; auto]. }
           rewrite F' by auto. unfold h2. rewrite upd_other; [apply F1; auto|]. intros ->. apply Ny. right; auto.
    + assert (L2 := L). subst l. change (root H :: b ++ x :: rest) with ((root H :: b) ++ x :: rest) in L2.
      destruct (nx_link _ _ _ _ _ L2) as [E2 _]. rewrite E2.
      apply (IH (b ++ x :: rest) (b ++ [x]) rest h H d); auto.
      * rewrite <- app_assoc. reflexivity.
      * intros y Hy. apply in_app_or in Hy. destruct Hy as [Hy|[<-|[]]]; auto.
      * cbn [length] in Hf. lia.
Qed.

Lemma holder_eta H : H = Holder (root H) (llhSize H). Proof. destruct H; reflexivity. Qed.

Lemma last_firstn (l : list Z) r i : exists a, r :: l = a ++ last (r :: firstn i l) 0 :: skipn i l /\ a ++ [last (r :: firstn i l) 0] = r :: firstn i l.
Proof.
  destruct (last_split r (firstn i l)) as (a & E). exists a. split; [|auto].
  rewrite <- (firstn_skipn i l) at 1. change (r :: firstn i l ++ skipn i l) with ((r :: firstn i l) ++ skipn i l).
  rewrite E at 1. rewrite <- app_assoc. reflexivity.
Qed.

(** One operation. *)
Theorem step_ok tmp h H l pool o fuel : Inv h H l pool -> allowed (root H) l pool o ->
  Z.of_nat (length l) + 1 < 2 ^ 32 - 1 -> ((length l + 3) * (length l + 3) < fuel)%nat ->
  exists h' H' l' pool' x, code_step fuel tmp h H o = Some (h', H', x) /\ spec_step l pool o l' pool' x /\
    Inv h' H' l' pool' /\ root H' = root H /\ (length l' <= S (length l))%nat.
Proof.
  intros I A B Hf.
  assert (L := inv_links _ _ _ _ I). assert (ND := nodup_l _ _ _ _ I). assert (Sz := inv_size _ _ _ _ I).
  destruct (nx_link0 _ _ _ _ L) as [Er Nr].
  assert (Ll : links h l 0) by (cbn in L; tauto).
  assert (POOL : forall p, In p pool -> h p = Some 0) by (intros; apply (inv_pool _ _ _ _ I); auto).
  assert (OUT : forall p, In p pool -> ~ In p (root H :: l)) by (intros; eapply pool_out; eauto).
  assert (NEQ : forall p q, In p pool -> In q (remove1 p pool) -> p <> q).
  { intros p q Hp Hq ->. destruct I as [_ NDI _ _ _]. change (root H :: l ++ pool) with ((root H :: l) ++ pool) in NDI.
    apply NoDup_app_r in NDI. eapply Permutation_NoDup in NDI; [|apply (remove1_perm q pool Hp)]. inversion NDI; auto. }
  destruct o; cbn [allowed] in A; cbn [code_step].
  - (* New *) destruct A as [Np Ni]. eexists _, _, _, _, _. split; [reflexivity|]. split; [constructor|]. split; [|split; [reflexivity|lia]].
    destruct I as [Il In_ Ip Is Iv]. constructor; auto.
    + apply links_upd_out; auto. intros J. apply Ni. destruct J; [left; auto|right; apply in_or_app; auto].
    + change (root H :: l ++ p :: pool) with ((root H :: l) ++ p :: pool).
      eapply Permutation_NoDup; [apply Permutation_middle|]. constructor; auto.
    + intros q [<-|Hq]; [split; [auto|apply upd_same]|]. split; [apply Ip; auto|]. rewrite upd_other; [apply Ip; auto|].
      intros ->. apply Ni. right. apply in_or_app; auto.
    + intros x Hx. destruct (Z.eq_dec x p) as [->|N]; [right; apply in_or_app; right; left; auto|].
      rewrite upd_other in Hx by auto. specialize (Iv x Hx). cbn in *. rewrite in_app_iff in *. cbn. tauto.
  - (* Insert *) unfold h_insert. destruct (inv_pool _ _ _ _ I p A) as [Np Ep]. replace (p =? 0) with false by lia.
    rewrite (ll_size_1 h p fuel) by (try lia; eapply pool_links; eauto).
    destruct (ll_insert_ok fuel h [] (root H) l [] p) as (h' & E & L' & F).
    { exact L. } { eapply pool_links; eauto. } { eapply nodup_add; eauto. } { cbn. lia. }
    rewrite E. eexists _, _, _, _, _. split; [reflexivity|]. split; [constructor|]. split; [|split; [reflexivity|cbn; lia]].
    eapply Inv_intro with (dead := []); [exact I|reflexivity|exact L'|apply perm_insert; auto| | | |].
    + intros x [].
    + intros x N. apply F; [intros ->; apply N; left; auto|]. intros [<-|[]]. apply N. right. apply in_or_app; auto.
    + intros q Hq. rewrite F; [apply POOL, (remove1_in p); auto| |].
      * intros ->. apply (OUT (root H)); [eapply remove1_in; eauto|left; auto].
      * intros [<-|[]]. eapply NEQ; eauto.
    + cbn [llhSize length]. rewrite Sz, uwrap_id by lia. lia.
  - (* InsertAt *) destruct A as [A Hi]. unfold h_insert_at. destruct (inv_pool _ _ _ _ I p A) as [Np Ep]. replace (p =? 0) with false by lia.
    rewrite (walk_ok h (Z.to_nat i) l [] (root H) L).
    rewrite (ll_size_1 h p fuel) by (try lia; eapply pool_links; eauto).
    destruct (last_firstn l (root H) (Z.to_nat i)) as (a & Ea & Eb). set (q := last (root H :: firstn (Z.to_nat i) l) 0) in *.
    destruct (ll_insert_ok fuel h a q (skipn (Z.to_nat i) l) [] p) as (h' & E & L' & F).
    { rewrite <- Ea. exact L. } { eapply pool_links; eauto. }
    { change (a ++ q :: skipn (Z.to_nat i) l ++ [p]) with (a ++ (q :: skipn (Z.to_nat i) l) ++ [p]). rewrite app_assoc, <- Ea. eapply nodup_add; eauto. }
    { cbn. lia. }
    rewrite E. eexists _, _, _, _, _. split; [reflexivity|]. split; [constructor|].
    assert (Hq : In q (root H :: l)) by (rewrite Ea; apply in_or_app; right; left; auto).
    split; [|split; [reflexivity|]].
    + eapply Inv_intro with (dead := []); [exact I|reflexivity| |apply perm_insert; [auto|apply firstn_skipn_insert]| | | |].
      * change (root H :: firstn (Z.to_nat i) l ++ p :: skipn (Z.to_nat i) l) with ((root H :: firstn (Z.to_nat i) l) ++ p :: skipn (Z.to_nat i) l).
        rewrite <- Eb, <- app_assoc. exact L'.
      * intros x [].
      * intros x N. apply F; [intros ->; apply N; destruct Hq; [left; auto|right; apply in_or_app; auto]|].
        intros [<-|[]]. apply N. right. apply in_or_app; auto.
      * intros z Hz. rewrite F; [apply POOL, (remove1_in p); auto| |].
        -- intros ->. apply (OUT q); [eapply remove1_in; eauto|auto].
        -- intros [<-|[]]. eapply NEQ; eauto.
      * cbn [llhSize length]. rewrite <- (Permutation_length (firstn_skipn_insert l p (Z.to_nat i))).
        cbn [length]. rewrite Sz, uwrap_id by lia. lia.
    + rewrite <- (Permutation_length (firstn_skipn_insert l p (Z.to_nat i))). cbn. lia.
  - (* InsertSorted *) unfold h_insert_sorted. destruct (inv_pool _ _ _ _ I p A) as [Np Ep]. replace (p =? 0) with false by lia.
    rewrite (ll_size_1 h p fuel) by (try lia; eapply pool_links; eauto).
    unfold ll_insert_sorted. replace (p =? 0) with false by lia.
    assert (Lp := pool_links _ _ _ _ _ I A). destruct (nx_link0 _ _ _ _ Lp) as [Enp _]. rewrite Enp. cbn [hd Z.eqb].
    destruct (merge_loop_ok cmp fuel l [p] [] (root H) h) as (h' & E & L' & F).
    { cbn [length]. nia. } { exact L. } { exact Lp. } { eapply nodup_add; eauto. }
    cbn [hd] in E. rewrite E. rewrite mrg_single in L' by nia.
    eexists _, _, _, _, _. split; [reflexivity|]. split; [constructor|].
    assert (PM := insert_before_greater_perm cmp p l).
    split; [|split; [reflexivity|]].
    + eapply Inv_intro with (dead := []); [exact I|reflexivity|exact L'|apply perm_insert; auto| | | |].
      * intros x [].
      * intros x N. apply F. intros J. apply N. destruct J as [J|J]; [left; auto|right].
        apply in_app_or in J. apply in_or_app. destruct J as [J|[<-|[]]]; auto.
      * intros z Hz. rewrite F; [apply POOL, (remove1_in p); auto|].
        intros [J|J]; [subst z; apply (OUT (root H)); [eapply remove1_in; eauto|left; auto]|].
        apply in_app_or in J. destruct J as [J|[<-|[]]]; [apply (OUT z); [eapply remove1_in; eauto|right; auto]|eapply NEQ; eauto].
      * cbn [llhSize]. rewrite <- (Permutation_length PM). cbn [length]. rewrite Sz, uwrap_id by lia. lia.
    + rewrite <- (Permutation_length PM). cbn. lia.
  - (* Add *) unfold h_add. destruct (inv_pool _ _ _ _ I p A) as [Np Ep]. replace (p =? 0) with false by lia.
    destruct (ll_add_ok fuel h (root H) l p 0) as (h' & E & L' & F); auto; [eapply nodup_add; eauto|nia|].
    rewrite E. eexists _, _, _, _, _. split; [reflexivity|]. split; [constructor|].
    split; [|split; [reflexivity|rewrite app_length; cbn; lia]].
    eapply Inv_intro with (dead := []); [exact I|reflexivity|exact L'|apply perm_insert; [auto|apply Permutation_cons_append]| | | |].
    + intros x [].
    + intros x N. apply F; [intros J; apply N; destruct J; [left; auto|right; apply in_or_app; auto]|].
      intros ->. apply N. right. apply in_or_app; auto.
    + intros z Hz. rewrite F; [apply POOL, (remove1_in p); auto|apply OUT; eapply remove1_in; eauto|].
      intros ->. eapply NEQ; eauto.
    + cbn [llhSize]. rewrite app_length. cbn [length]. rewrite Sz, uwrap_id by lia. lia.
  - (* AddL *) unfold h_addl. destruct (inv_pool _ _ _ _ I p A) as [Np Ep]. replace (p =? 0) with false by lia.
    rewrite (ll_size_1 h p fuel) by (try lia; eapply pool_links; eauto).
    destruct (ll_addl_ok fuel h (root H) l [] p) as (h' & E & L' & F); auto; [eapply pool_links; eauto|eapply nodup_add; eauto|nia|].
    rewrite E. eexists _, _, _, _, _. split; [reflexivity|]. split; [constructor|].
    split; [|split; [reflexivity|rewrite app_length; cbn; lia]].
    eapply Inv_intro with (dead := []); [exact I|reflexivity|exact L'|apply perm_insert; [auto|apply Permutation_cons_append]| | | |].
    + intros x [].
    + intros x N. apply F. intros J; apply N; destruct J; [left; auto|right; apply in_or_app; auto].
    + intros z Hz. rewrite F; [apply POOL, (remove1_in p); auto|apply OUT; eapply remove1_in; eauto].
    + cbn [llhSize]. rewrite app_length. cbn [length]. rewrite Sz, uwrap_id by lia. lia.
  - (* Search *) unfold h_search. rewrite Er.
    assert (SR : exists b, (if hd 0 l =? 0 then Some false else ll_search fuel h (hd 0 l) p) = Some b /\ (b = true <-> In p l)).
    { destruct (hd 0 l =? 0) eqn:E0.
      - rewrite (hd_zero h l Ll) by lia. exists false. cbn. split; [auto|]. split; [discriminate|tauto].
      - apply ll_search_ok; auto. nia. }
    destruct SR as (b & -> & Hb). cbn [lift1]. eexists _, _, _, _, _. split; [reflexivity|].
    split; [|split; [exact I|split; [reflexivity|lia]]].
    destruct b; constructor; [tauto|]. intros J. apply Hb in J. discriminate.
  - (* SearchF *) unfold h_search_f. rewrite Er.
    assert (SR : (if hd 0 l =? 0 then Some 0 else ll_search_f fuel h f (hd 0 l)) = Some (match find f l with Some x => x | None => 0 end)).
    { destruct (hd 0 l =? 0) eqn:E0.
      - rewrite (hd_zero h l Ll) by lia. reflexivity.
      - apply ll_search_f_ok; auto. nia. }
    rewrite SR. cbn [lift1]. eexists _, _, _, _, _. split; [reflexivity|].
    split; [constructor|split; [exact I|split; [reflexivity|lia]]].
  - (* Extract *) unfold h_extract. destruct (ll_extract_ok fuel h (root H) l p L ND) as [[NI E]|[Ip (h1 & E & L1 & Z1 & F1)]]; [nia| |]; rewrite E; cbn [lift].
    + eexists _, _, _, _, _. split; [reflexivity|]. split; [constructor; auto|]. split; [exact I|]. split; [reflexivity|lia].
    + assert (LN := Permutation_length (remove1_perm p l Ip)). cbn [length] in LN.
      eexists _, _, _, _, _. split; [reflexivity|]. split; [constructor; auto|]. split; [|split; [reflexivity|lia]].
      eapply Inv_intro with (dead := []); [exact I|reflexivity|exact L1|apply perm_take; auto| | | |].
      * intros x [].
      * intros x N. apply F1. intros J. apply N. destruct J; [left; auto|right; apply in_or_app; auto].
      * intros z [<-|Hz]; [auto|]. rewrite F1; auto.
      * cbn [llhSize]. rewrite Sz, uwrap_id by lia. lia.
  - (* ExtractF *) unfold h_extract_f. pose proof (ll_extract_f_ok f h l [] (root H) fuel L ND ltac:(nia)) as EX.
    destruct (find f l) as [x|] eqn:Ef.
    + destruct EX as (h1 & E & Nx & L1 & Z1 & F1). cbn [app] in *. rewrite E. replace (x =? 0) with false by lia. cbn [lift].
      assert (Ix : In x l) by (apply find_some in Ef; tauto).
      assert (LN := Permutation_length (remove1_perm x l Ix)). cbn [length] in LN.
      eexists _, _, _, _, _. split; [reflexivity|]. split; [constructor; auto|]. split; [|split; [reflexivity|lia]].
      eapply Inv_intro with (dead := []); [exact I|reflexivity|exact L1|apply perm_take; auto| | | |].
      * intros y [].
      * intros y N. apply F1. intros J. apply N. destruct J; [left; auto|right; apply in_or_app; auto].
      * intros z [<-|Hz]; [auto|]. rewrite F1; auto.
      * cbn [llhSize]. rewrite Sz, uwrap_id by lia. lia.
    + rewrite EX. cbn [lift Z.eqb]. eexists _, _, _, _, _. split; [reflexivity|]. split; [apply SExtractFNo; auto|]. split; [exact I|]. split; [reflexivity|lia].
  - (* ExtractAt *) unfold h_extract_at. pose proof (ll_peek_ok h (root H :: l) L (Z.to_nat i)) as PK. cbn [hd] in PK. rewrite PK.
    destruct (nth_error l (Z.to_nat i)) as [x|] eqn:En.
    + assert (El := nth_error_split_skip _ _ _ En). set (n := Z.to_nat i) in *.
      assert (Hn : (n < length l)%nat) by (apply nth_error_Some; congruence).
      assert (Lf : length (firstn n l) = n) by (rewrite firstn_length; lia).
      destruct (last_split (root H) (firstn n l)) as (a & Ea). set (q := last (root H :: firstn n l) 0) in *.
      assert (La : length a = n). { apply (f_equal (@length Z)) in Ea. rewrite app_length in Ea. cbn in Ea. lia. }
      assert (EL : root H :: l = a ++ q :: x :: skipn (S n) l).
      { rewrite El at 1. change (root H :: firstn n l ++ x :: skipn (S n) l) with ((root H :: firstn n l) ++ x :: skipn (S n) l).
        rewrite Ea, <- app_assoc. reflexivity. }
      assert (NQ : nth n (root H :: l) 0 = q). { rewrite EL, app_nth2 by (rewrite La; auto). rewrite La, Nat.sub_diag. reflexivity. }
      rewrite NQ.
      destruct (unlink_ok h a q x (skipn (S n) l)) as (E1 & E2 & Nq & Nx & Nxq & L1 & N1 & NIx); [rewrite <- EL; auto|rewrite <- EL; auto|].
      replace (q =? 0) with false by (clearbody q; lia). rewrite E1. replace (x =? 0) with false by lia. rewrite E2, (setn_ok _ _ _ _ E1), (setn_ok _ _ _ _ N1).
      cbn [lift]. eexists _, _, (firstn n l ++ skipn (S n) l), (x :: pool), _. split; [reflexivity|]. split; [constructor; auto|].
      assert (PX : Permutation l (x :: firstn n l ++ skipn (S n) l)) by (rewrite El at 1; apply Permutation_sym, Permutation_middle).
      assert (LN := Permutation_length PX). cbn [length] in LN.
      split; [|split; [reflexivity|fold n; lia]].
      eapply Inv_intro with (dead := []); [exact I|reflexivity| | | | | |].
      * apply links_upd_out; [|].
        -- change (root H :: firstn n l ++ skipn (S n) l) with ((root H :: firstn n l) ++ skipn (S n) l). rewrite Ea, <- app_assoc. exact NIx.
        -- change (root H :: firstn n l ++ skipn (S n) l) with ((root H :: firstn n l) ++ skipn (S n) l). rewrite Ea, <- app_assoc. exact L1.
      * cbn [app]. rewrite PX at 1. cbn. apply Permutation_middle.
      * intros y [].
      * intros y N. assert (NY : ~ In y (root H :: l)) by (intros J; apply N; destruct J; [left; auto|right; apply in_or_app; auto]).
        rewrite EL in NY. rewrite !upd_other; auto; intros ->; apply NY; apply in_or_app; right; cbn; auto.
      * intros z [<-|Hz]; [apply upd_same|]. rewrite !upd_other; auto; intros ->; apply (OUT _ Hz); rewrite EL; apply in_or_app; right; cbn; auto.
      * cbn [llhSize]. rewrite Sz, uwrap_id by lia. lia.
    + assert (Hn : (length l <= Z.to_nat i)%nat) by (apply nth_error_None; auto).
      assert (NR : forall h0, (if nth (Z.to_nat i) (root H :: l) 0 =? 0 then Some (h, H, 0) else
         do q <- nx h (nth (Z.to_nat i) (root H :: l) 0) ;; if q =? 0 then Some (h, H, 0) else h0 q) = Some (h, H, 0)).
      { intros h0. destruct (Nat.eq_dec (Z.to_nat i) (length l)) as [E|N].
        - assert (EN : nth (Z.to_nat i) (root H :: l) 0 = last (root H :: l) 0).
          { rewrite E. clear. generalize (root H). induction l as [|y l IH]; intros r; [reflexivity|]. cbn [length]. change (nth (length l) (y :: l) 0 = last (y :: l) 0). apply IH. }
          rewrite EN. destruct (last_split (root H) l) as (a & Ea). assert (L3 := L). rewrite Ea in L3.
          destruct (nx_link _ _ _ _ _ L3) as [E3 N3]. rewrite E3. cbn [hd Z.eqb]. destruct (_ =? 0); reflexivity.
        - rewrite nth_overflow by (cbn [length]; lia). reflexivity. }
      rewrite NR. cbn [lift]. eexists _, _, _, _, _. split; [reflexivity|]. split; [apply SExtractAtNo; auto|]. split; [exact I|]. split; [reflexivity|lia].
  - (* Delete *) unfold h_delete, ll_delete. destruct (ll_extract_ok fuel h (root H) l p L ND) as [[NI E]|[Ip (h1 & E & L1 & Z1 & F1)]]; [nia| |]; rewrite E; cbn [lift].
    + eexists _, _, _, _, _. split; [reflexivity|]. split; [constructor; auto|]. split; [exact I|]. split; [reflexivity|lia].
    + assert (LN := Permutation_length (remove1_perm p l Ip)). cbn [length] in LN.
      assert (Np : p <> 0) by (eapply links_nz; [exact Ll|auto]).
      assert (N1 : nx h1 p = Some 0) by (unfold nx; replace (p =? 0) with false by lia; auto).
      rewrite (del_ok _ _ _ N1). cbn [lift].
      eexists _, _, _, _, _. split; [reflexivity|]. split; [constructor; auto|]. split; [|split; [reflexivity|lia]].
      assert (NDp : NoDup (root H :: p :: remove1 p l)) by (eapply Permutation_NoDup; [apply perm_skip, remove1_perm; eauto|exact ND]).
      eapply Inv_intro with (dead := [p]); [exact I|reflexivity| | | | | |].
      * apply links_upd_out; [|exact L1]. inversion NDp; subst. inversion H3; subst. intros [J|J]; [apply H2; left; auto|auto].
      * cbn [app]. rewrite (remove1_perm p l Ip) at 1. reflexivity.
      * intros x [<-|[]]. apply upd_same.
      * intros x N. rewrite upd_other; [apply F1|]; [|intros ->; apply N; right; apply in_or_app; auto].
        intros J. apply N. destruct J; [left; auto|right; apply in_or_app; auto].
      * intros z Hz. rewrite upd_other; [rewrite F1; auto|]. intros ->. apply (OUT _ Hz). right; auto.
      * cbn [llhSize]. rewrite Sz, uwrap_id by lia. lia.
  - (* DeleteF *) unfold h_delete_f. destruct (ll_delete_f_ok f l [] (root H) fuel h 0 L ND ltac:(nia)) as (h1 & E & L1 & D1 & F1).
    rewrite E. cbn [lift]. assert (FL := filter_negb_len f l).
    eexists _, _, (filter (fun x => negb (f x)) l), pool, _. split; [reflexivity|].
    assert (EQ : (if existsb f l then uwrap 32 (0 + Z.of_nat (length (filter f l))) else 0) = Z.of_nat (length (filter f l))).
    { rewrite existsb_filter. destruct (_ =? 0)%nat eqn:E0; cbn [negb]; [apply Nat.eqb_eq in E0; lia|]. rewrite uwrap_id by lia. lia. }
    rewrite EQ. split.
    + replace (Z.of_nat (length (filter f l)) >? 0) with (existsb f l); [constructor|].
      rewrite existsb_filter. destruct (_ =? 0)%nat eqn:E0; cbn [negb]; [apply Nat.eqb_eq in E0|apply Nat.eqb_neq in E0]; lia.
    + split; [|split; [reflexivity|lia]].
      eapply Inv_intro with (dead := filter f l); [exact I|reflexivity|exact L1| | | | |].
      * rewrite app_assoc. apply Permutation_app_tail, filter_negb_perm.
      * intros x Hx. apply filter_In in Hx. apply D1; tauto.
      * intros x N. apply F1. intros J. apply N. destruct J; [left; auto|right; apply in_or_app; auto].
      * intros z Hz. rewrite F1; auto.
      * cbn [llhSize]. rewrite Sz, uwrap_id by lia. lia.
  - (* SafeDeleteF *) unfold h_safe_delete. rewrite Er. assert (FL := filter_negb_len f l).
    destruct (safe_delete_loop_ok f fuel l [] l h H 0 eq_refl ltac:(intros ? []) L ND Sz ltac:(lia) ltac:(nia))
      as (h1 & H1 & E & R1 & L1 & S1 & D1 & F1).
    rewrite E. cbn [lift].
    eexists _, _, (filter (fun x => negb (f x)) l), pool, _. split; [reflexivity|].
    assert (EQ : (if existsb f l then uwrap 32 (0 + Z.of_nat (length (filter f l))) else 0) = Z.of_nat (length (filter f l))).
    { rewrite existsb_filter. destruct (_ =? 0)%nat eqn:E0; cbn [negb]; [apply Nat.eqb_eq in E0; lia|]. rewrite uwrap_id by lia. lia. }
    rewrite EQ. split.
    + replace (Z.of_nat (length (filter f l)) >? 0) with (existsb f l); [constructor|].
      rewrite existsb_filter. destruct (_ =? 0)%nat eqn:E0; cbn [negb]; [apply Nat.eqb_eq in E0|apply Nat.eqb_neq in E0]; lia.
    + split; [|split; [exact R1|lia]].
      eapply Inv_intro with (dead := filter f l); [exact I|exact R1|exact L1| | | | |exact S1].
      * rewrite app_assoc. apply Permutation_app_tail, filter_negb_perm.
      * exact D1.
      * intros x N. apply F1. intros J. apply N. destruct J; [left; auto|right; apply in_or_app; auto].
      * intros z Hz. rewrite F1; auto.
  - (* Sort *) unfold h_bsort. destruct (ll_bsort_ok cmp fuel h (root H) l L ND ltac:(nia) ltac:(lia)) as (h1 & E & L1 & F1).
    rewrite E. destruct (bsorted_spec cmp A l) as (P1 & S1 & St).
    assert (LN := Permutation_length P1).
    eexists _, _, (bsorted cmp l), pool, _. split; [reflexivity|]. split; [constructor; split; auto|]. split; [|split; [reflexivity|lia]].
    eapply Inv_intro with (dead := []); [exact I|reflexivity|exact L1| | | | |lia].
    + cbn [app]. apply Permutation_app_tail; auto.
    + intros x [].
    + intros x N. apply F1. intros J. apply N. destruct J; [left; auto|right; apply in_or_app; auto].
    + intros z Hz. rewrite F1; auto.
  - (* Peek *) unfold h_peek. rewrite Er.
    assert (SR : (if hd 0 l =? 0 then Some 0 else ll_peek (Z.to_nat i) h (hd 0 l)) = Some (nth (Z.to_nat i) l 0)).
    { destruct (hd 0 l =? 0) eqn:E0.
      - rewrite (hd_zero h l Ll) by lia. destruct (Z.to_nat i); reflexivity.
      - apply ll_peek_ok; auto. }
    rewrite SR. cbn [lift1]. eexists _, _, _, _, _. split; [reflexivity|]. split; [constructor|]. split; [exact I|]. split; [reflexivity|lia].
  - (* Size *) rewrite Sz. eexists _, _, _, _, _. split; [reflexivity|]. split; [constructor|]. split; [exact I|]. split; [reflexivity|lia].
  - (* Iterate *) unfold h_iterate. rewrite Er.
    assert (SR : (if hd 0 l =? 0 then Some [] else ll_iterate fuel h (hd 0 l) []) = Some l).
    { destruct (hd 0 l =? 0) eqn:E0.
      - rewrite (hd_zero h l Ll) by lia. reflexivity.
      - rewrite (ll_iterate_ok h l Ll) by nia. reflexivity. }
    rewrite SR. cbn [lift1]. eexists _, _, _, _, _. split; [reflexivity|]. split; [constructor|]. split; [exact I|]. split; [reflexivity|lia].
  - (* CleanUp *) unfold h_cleanup. rewrite Er, Sz, Nat2Z.id.
    inversion ND; subst.
    destruct (cleanup_loop_ok l (length l) h Ll ltac:(auto) ltac:(lia)) as (h1 & E & D1 & F1). rewrite E.
    assert (N1 : nx h1 (root H) = Some (hd 0 l)). { unfold nx. replace (root H =? 0) with false by lia. rewrite F1 by auto. cbn in L. tauto. }
    rewrite (setn_ok _ _ _ _ N1). cbn [lift0].
    eexists _, _, _, _, _. split; [reflexivity|]. split; [constructor|]. split; [|split; [reflexivity|cbn; lia]].
    eapply Inv_intro with (dead := l); [exact I|reflexivity| | | | | |reflexivity].
    + cbn. split; [auto|]. split; [apply upd_same|auto].
    + cbn [app]. reflexivity.
    + intros x Hx. rewrite upd_other; [auto|]. intros ->; auto.
    + intros x N. rewrite upd_other by (intros ->; apply N; left; auto). apply F1. intros J. apply N. right. apply in_or_app; auto.
    + intros z Hz. assert (O := OUT z Hz). rewrite upd_other by (intros ->; apply O; left; auto).
      rewrite F1; [auto|]. intros J. apply O. right; auto.
Qed.

(** A whole history. *)
Theorem run_ok tmp : forall ops h H l pool fuel, Inv h H l pool -> well_behaved (root H) l pool ops ->
  Z.of_nat (length l + length ops) + 1 < 2 ^ 32 - 1 -> ((length l + length ops + 3) * (length l + length ops + 3) < fuel)%nat ->
  exists h' H' l' pool' xs, code_run fuel tmp h H ops = Some (h', H', xs) /\ spec_run (root H) l pool ops l' pool' xs /\
    Inv h' H' l' pool' /\ root H' = root H.
Proof.
  induction ops as [|o ops IH]; intros h H l pool fuel I W B Hf.
  - exists h, H, l, pool, []. cbn. split; [auto|]. split; [constructor|]. auto.
  - destruct W as [A W]. cbn [length] in B, Hf.
    destruct (step_ok tmp h H l pool o fuel I A ltac:(lia) ltac:(nia)) as (h1 & H1 & l1 & pool1 & x & E & S & I1 & R1 & LE).
    cbn [code_run]. rewrite E.
    destruct (IH h1 H1 l1 pool1 fuel I1) as (h2 & H2 & l2 & pool2 & xs & E2 & S2 & I2 & R2).
    { rewrite R1. eapply W; eauto. } { lia. } { nia. }
    rewrite E2. exists h2, H2, l2, pool2, (x :: xs). split; [reflexivity|]. rewrite R1 in *. split; [econstructor; eauto|]. auto.
Qed.

Lemma Inv_new r : r <> 0 -> Inv (fst (h_new (fun _ => None) r)) (snd (h_new (fun _ => None) r)) [] [].
Proof.
  intros N. constructor; cbn.
  - split; [auto|]. split; [apply upd_same|auto].
  - constructor; [auto|constructor].
  - tauto.
  - reflexivity.
  - intros x Hx. left. unfold upd in Hx. destruct (x =? r) eqn:E; [lia|congruence].
Qed.

(** Sorted insertion of a whole chain. *)
Lemma sorted_insert_ok cmp (TP : total_preorder cmp) fuel h tmp r l p m :
  links h (r :: l) 0 -> links h (p :: m) 0 -> NoDup (tmp :: r :: l ++ p :: m) -> tmp <> 0 ->
  StronglySorted (le_of cmp) l -> Z.of_nat (length m) + 1 < 2 ^ 32 - 1 -> (2 * (length m + 1) + length l < fuel)%nat ->
  exists h' l', ll_insert_sorted fuel cmp h tmp r p = Some h' /\ links h' (r :: l') 0 /\
    Permutation (l ++ p :: m) l' /\ StronglySorted (le_of cmp) l' /\
    (forall x, ~ In x (tmp :: r :: l ++ p :: m) -> h' x = h x).
Proof.
  intros L M ND Nt Sl B Hf. unfold ll_insert_sorted. destruct (nx_link0 _ _ _ _ M) as [Ep Np].
  replace (p =? 0) with false by lia. rewrite Ep. inversion ND as [|? ? Nin ND1]; subst.
  destruct m as [|y m]; cbn [hd].
  - cbn [Z.eqb]. destruct (merge_loop_ok cmp fuel l [p] [] r h) as (h' & E & L' & F); auto.
    cbn [hd] in E. exists h', (mrg cmp fuel l [p]). split; [exact E|]. split; [exact L'|]. split; [apply mrg_perm|]. split.
    + apply mrg_sorted; auto. constructor; constructor.
    + intros x Nx. apply F. intros J. apply Nx. right; auto.
  - destruct (nx_link h [p] y m 0 M) as [_ Ny]. replace (y =? 0) with false by lia.
    set (c := p :: y :: m) in *.
    assert (Nc : ~ In tmp c) by (intros J; apply Nin; right; apply in_or_app; auto).
    assert (NDc : NoDup c) by (inversion ND1; subst; eapply NoDup_app_r; eauto).
    destruct (ll_bsort_ok cmp fuel (upd h tmp (Some p)) tmp c) as (h1 & E1 & L1 & F1).
    { cbn [links]. split; [auto|]. split; [apply upd_same|]. apply links_upd_out; auto. }
    { constructor; auto. } { unfold c. cbn [length] in *. lia. } { unfold c. cbn [length] in *. lia. }
    rewrite E1. destruct (nx_link0 _ _ _ _ L1) as [E2 _]. rewrite E2.
    destruct (bsorted_spec cmp TP c) as (P1 & S1 & _).
    assert (Ntr : tmp <> r) by (intros ->; apply Nin; left; auto).
    assert (Ntl : ~ In tmp l) by (intros J; apply Nin; right; apply in_or_app; auto).
    assert (Lc := Permutation_length P1). unfold c in Lc at 1. cbn [length] in Lc, Hf.
    assert (NDr : ~ In r (l ++ c)) by (inversion ND1; auto).
    assert (NDl : NoDup (l ++ c)) by (inversion ND1; auto).
    destruct (merge_loop_ok cmp fuel l (bsorted cmp c) [] r (upd h1 tmp None)) as (h' & E & L' & F).
    { rewrite <- Lc. lia. }
    { apply links_upd_out; [intros [J|J]; auto|]. eapply links_frame; [|exact L]. intros x Hx.
      rewrite F1.
      - apply upd_other. intros ->. destruct Hx as [J|J]; auto.
      - intros [J|J]; [subst x; destruct Hx as [J|J]; auto|]. destruct Hx as [<-|Hx]; [apply NDr, in_or_app; auto|eapply NoDup_app_in; eauto]. }
    { apply links_upd_out; [|cbn in L1; tauto]. intros J. apply Nc. eapply Permutation_in; [apply Permutation_sym, P1|auto]. }
    { cbn [app]. eapply Permutation_NoDup; [|exact ND1]. apply perm_skip, Permutation_app_head, P1. }
    exists h', (mrg cmp fuel l (bsorted cmp c)). split; [exact E|]. split; [exact L'|]. split; [|split].
    + rewrite <- mrg_perm. apply Permutation_app_head, P1.
    + apply mrg_sorted; auto. rewrite <- Lc. lia.
    + intros x Nx. assert (x <> tmp) by (intros ->; apply Nx; left; auto). rewrite F.
      * rewrite upd_other by auto. rewrite F1; [apply upd_other; auto|]. intros [J|J]; [auto|]. apply Nx. right; right; apply in_or_app; auto.
      * intros [J|J]; apply Nx; [right; left; auto|]. right; right. apply in_app_or in J. apply in_or_app. destruct J as [J|J]; auto.
        right. eapply Permutation_in; [apply Permutation_sym, P1|auto].
Qed.
