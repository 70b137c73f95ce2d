From Verif Require Import Base LinkedList_Model LinkedList_Spec.

(** * Linked segments *)
Lemma hd_app (z : Z) a b : hd z (a ++ b) = hd (hd z b) a.
Proof. destruct a; reflexivity. Qed.

Lemma links_app h a b z : links h (a ++ b) z <-> links h a (hd z b) /\ links h b z.
Proof.
  induction a as [|x a IH]; cbn [app links]; [tauto|].
  rewrite IH, hd_app. tauto.
Qed.

Lemma links_frame h h' l z : (forall x, In x l -> h' x = h x) -> links h l z -> links h' l z.
Proof.
  induction l as [|x l IH]; intros F L; cbn in *; [auto|]. destruct L as (N & E & L).
  split; [auto|]. split; [rewrite F; auto|]. apply IH; auto.
Qed.

Lemma upd_same h p v : upd h p v p = v.
Proof. unfold upd. rewrite Z.eqb_refl. reflexivity. Qed.
Lemma upd_other h p v x : x <> p -> upd h p v x = h x.
Proof. intros N. unfold upd. destruct (x =? p) eqn:E; [lia|reflexivity]. Qed.

Lemma links_upd_out h l z p v : ~ In p l -> links h l z -> links (upd h p v) l z.
Proof. intros N. apply links_frame. intros x Hx. apply upd_other. intros ->. auto. Qed.

Lemma links_nz h l z x : links h l z -> In x l -> x <> 0.
Proof. induction l as [|y l IH]; cbn; [tauto|]. intros (N & _ & L) [->|H]; auto. Qed.

Lemma links_hd_nz h l z : links h l z -> l <> [] -> hd z l <> 0.
Proof. destruct l; cbn; tauto. Qed.

Lemma nx_link h a x b z : links h (a ++ x :: b) z -> nx h x = Some (hd z b) /\ x <> 0.
Proof.
  intros L. apply links_app in L. destruct L as [_ L]. cbn in L. destruct L as (N & E & _).
  unfold nx. replace (x =? 0) with false by lia. auto.
Qed.
Lemma nx_link0 h x b z : links h (x :: b) z -> nx h x = Some (hd z b) /\ x <> 0.
Proof. apply (nx_link h []). Qed.

Lemma setn_ok h p v w : nx h p = Some w -> setn h p v = Some (upd h p (Some v)).
Proof. intros E. unfold setn. rewrite E. reflexivity. Qed.
Lemma del_ok h p w : nx h p = Some w -> del h p = Some (upd h p None).
Proof. intros E. unfold del. rewrite E. reflexivity. Qed.

Lemma nx_upd_same h p v : p <> 0 -> nx (upd h p (Some v)) p = Some v.
Proof. intros N. unfold nx. replace (p =? 0) with false by lia. apply upd_same. Qed.
Lemma nx_upd_other h p v x : x <> p -> nx (upd h p v) x = nx h x.
Proof. intros N. unfold nx. rewrite upd_other; auto. Qed.

Lemma hd_zero h l : links h l 0 -> hd 0 l = 0 -> l = [].
Proof. destruct l; cbn; [auto|]. intros (N & _) E. lia. Qed.

(** Re-pointing the node before a position. *)
Lemma links_set h a q b c v : links h (a ++ q :: b) 0 -> NoDup (a ++ q :: b) ->
  links h c 0 -> ~ In q c -> v = hd 0 c ->
  links (upd h q (Some v)) (a ++ q :: c) 0.
Proof.
  intros L ND C Nq ->. apply links_app in L. destruct L as [La Lq]. cbn [hd links] in *.
  apply links_app. split.
  - apply links_upd_out; auto. intros I. apply NoDup_remove_2 in ND. apply ND. apply in_or_app. auto.
  - cbn [links hd]. split; [tauto|]. split; [apply upd_same|]. apply links_upd_out; auto.
Qed.

Lemma NoDup_app_in (a b : list Z) x : NoDup (a ++ b) -> In x a -> In x b -> False.
Proof.
  induction a as [|y a IH]; cbn; [tauto|]. intros N [->|Ha] Hb; inversion N; subst.
  - apply H1. apply in_or_app. auto.
  - eauto.
Qed.

Lemma NoDup_app_r (a b : list Z) : NoDup (a ++ b) -> NoDup b.
Proof. induction a; cbn; auto. intros N. inversion N; auto. Qed.
Lemma NoDup_app_l (a b : list Z) : NoDup (a ++ b) -> NoDup a.
Proof.
  induction a; cbn; intros N; [constructor|]. inversion N; subst. constructor; auto.
  intros I. apply H1. apply in_or_app. auto.
Qed.

(** * Traversals *)
Lemma ll_size_ok h l : links h l 0 -> forall fuel c, (length l < fuel)%nat ->
  ll_size fuel h (hd 0 l) c = Some (uwrap 32 (c + Z.of_nat (length l))) \/ (l = [] /\ ll_size fuel h (hd 0 l) c = Some c).
Proof.
  induction l as [|x l IH]; intros L fuel c Hf.
  - right. split; [auto|]. destruct fuel; [cbn in Hf; lia|]. reflexivity.
  - left. destruct fuel; [cbn in Hf; lia|]. cbn [hd ll_size]. destruct (nx_link0 _ _ _ _ L) as [E N].
    replace (x =? 0) with false by lia. rewrite E. cbn [length] in *.
    destruct L as (_ & _ & L). destruct (IH L fuel (uwrap 32 (c + 1)) ltac:(lia)) as [R|[-> R]]; rewrite R; f_equal.
    + unfold uwrap. rewrite Zplus_mod_idemp_l. f_equal. lia.
Qed.

Lemma ll_size_1 h p fuel : links h [p] 0 -> (1 < fuel)%nat -> ll_size fuel h p 0 = Some 1.
Proof. intros L F. destruct (ll_size_ok h [p] L fuel 0 F) as [E|[E _]]; [exact E|discriminate]. Qed.

Lemma last_node_ok h : forall l x fuel, links h (x :: l) 0 -> (length l < fuel)%nat ->
  last_node fuel h x = Some (last (x :: l) 0).
Proof.
  induction l as [|y l IH]; intros x fuel L Hf; (destruct fuel; [cbn in Hf; lia|]); cbn [last_node];
  destruct (nx_link0 _ _ _ _ L) as [E N]; rewrite E; cbn [hd].
  - reflexivity.
  - destruct L as (_ & _ & L). destruct (nx_link0 _ _ _ _ L) as [_ Ny]. replace (y =? 0) with false by lia.
    rewrite IH by (auto; cbn in Hf; lia). reflexivity.
Qed.

Lemma app_last (l : list Z) x : x :: l = removelast (x :: l) ++ [last (x :: l) 0].
Proof. apply app_removelast_last. discriminate. Qed.

(** Insert a chain [m] after [q]. *)
Lemma ll_insert_ok fuel h a q b m p : links h (a ++ q :: b) 0 -> links h (p :: m) 0 ->
  NoDup (a ++ q :: b ++ p :: m) -> (length m < fuel)%nat ->
  exists h', ll_insert fuel h q p = Some h' /\ links h' (a ++ q :: (p :: m) ++ b) 0 /\
    forall x, x <> q -> ~ In x (p :: m) -> h' x = h x.
Proof.
  intros L M ND Hf. unfold ll_insert. destruct (nx_link0 _ _ _ _ M) as [Ep Np]. replace (p =? 0) with false by lia.
  destruct (nx_link _ _ _ _ _ L) as [Eq Nq]. rewrite Eq. rewrite (setn_ok _ _ _ _ Eq).
  set (h1 := upd h q (Some p)).
  assert (Qm : ~ In q (p :: m)).
  { intros I. apply NoDup_app_r in ND. inversion ND; subst. apply H1. apply in_or_app. auto. }
  assert (Qb : ~ In q b).
  { intros I. apply NoDup_app_r in ND. inversion ND; subst. apply H1. apply in_or_app. auto. }
  assert (M1 : links h1 (p :: m) 0) by (apply links_upd_out; auto).
  rewrite (last_node_ok h1 m p fuel M1 Hf).
  set (z := last (p :: m) 0). rewrite (app_last m p) in M1. fold z in M1. set (m0 := removelast (p :: m)) in *.
  assert (Z1 : nx h1 z = Some 0 /\ z <> 0) by exact (nx_link h1 m0 z [] 0 M1). destruct Z1 as [Z1 Nz].
  rewrite (setn_ok _ _ _ _ Z1). eexists. split; [reflexivity|].
  assert (Zm : In z (p :: m)) by (rewrite (app_last m p); apply in_or_app; right; left; reflexivity).
  assert (NDm : NoDup (m0 ++ [z])).
  { unfold m0, z. rewrite <- app_last. apply NoDup_app_r in ND. inversion ND; subst. eapply NoDup_app_r; eauto. }
  assert (Zb : ~ In z b).
  { intros I. apply NoDup_app_r in ND. inversion ND; subst. eapply (NoDup_app_in b (p :: m)); eauto. }
  assert (Za : ~ In z a).
  { intros I. eapply (NoDup_app_in a (q :: b ++ p :: m)); eauto. right. apply in_or_app. auto. }
  assert (Zq : z <> q) by (intros ->; auto).
  split.
  - apply links_app in L. destruct L as [La Lqb].
    apply links_app. split.
    + apply links_upd_out; auto. apply links_upd_out; auto.
      intros I. apply (NoDup_app_in a (q :: b ++ p :: m) q ND I). left; auto.
    + cbn [links hd app]. split; [auto|]. split.
      { rewrite upd_other by auto. apply upd_same. }
      change (links (upd h1 z (Some (hd 0 b))) ((p :: m) ++ b) 0).
      rewrite (app_last m p). fold m0 z. rewrite <- app_assoc. apply links_app in M1. destruct M1 as [Mm _].
      apply links_app. split.
      * apply links_upd_out; [|exact Mm]. intros I. apply (NoDup_app_in m0 [z] z NDm I). left; auto.
      * cbn [app links hd]. split; [auto|]. split; [apply upd_same|].
        apply links_upd_out; auto. apply links_upd_out; auto. cbn in Lqb. tauto.
  - intros x Nx Nm. rewrite upd_other by (intros ->; auto). apply upd_other; auto.
Qed.

(** Append a chain. *)
Lemma ll_addl_ok fuel h q b m p : links h (q :: b) 0 -> links h (p :: m) 0 ->
  NoDup (q :: b ++ p :: m) -> (length b < fuel)%nat ->
  exists h', ll_addl fuel h q p = Some h' /\ links h' (q :: b ++ p :: m) 0 /\
    forall x, ~ In x (q :: b) -> h' x = h x.
Proof.
  intros L M ND Hf. unfold ll_addl. destruct (nx_link0 _ _ _ _ M) as [Ep Np]. replace (p =? 0) with false by lia.
  rewrite (last_node_ok h b q fuel L Hf). set (z := last (q :: b) 0). set (b0 := removelast (q :: b)).
  assert (EB : q :: b = b0 ++ [z]) by apply app_last.
  rewrite EB in L. destruct (nx_link h b0 z [] 0 L) as [Z1 Nz]. rewrite (setn_ok _ _ _ _ Z1).
  eexists. split; [reflexivity|].
  change (q :: b ++ p :: m) with ((q :: b) ++ p :: m) in *. rewrite EB in *. rewrite <- app_assoc in *. split.
  - apply (links_set h b0 z [] (p :: m)); auto.
    + rewrite app_comm_cons || idtac. change (b0 ++ [z] ++ p :: m) with (b0 ++ ([z] ++ p :: m)) in ND. rewrite app_assoc in ND.
      eapply NoDup_app_l; eauto.
    + rewrite app_assoc in ND. intros I. apply (NoDup_app_in (b0 ++ [z]) (p :: m) z ND); auto.
      apply in_or_app. right; left; auto.
  - intros x Nx. apply upd_other. intros ->. apply Nx. rewrite EB || idtac. apply in_or_app. right; left; auto.
Qed.

(** Append one element, cutting whatever followed it. *)
Lemma ll_add_ok fuel h q b p v : links h (q :: b) 0 -> h p = Some v -> p <> 0 ->
  NoDup (q :: b ++ [p]) -> (length b < fuel)%nat ->
  exists h', ll_add fuel h q p = Some h' /\ links h' (q :: b ++ [p]) 0 /\
    forall x, ~ In x (q :: b) -> x <> p -> h' x = h x.
Proof.
  intros L M Np ND Hf. unfold ll_add. replace (p =? 0) with false by lia.
  rewrite (last_node_ok h b q fuel L Hf). set (z := last (q :: b) 0). set (b0 := removelast (q :: b)).
  assert (EB : q :: b = b0 ++ [z]) by apply app_last.
  rewrite EB in L. destruct (nx_link h b0 z [] 0 L) as [Z1 Nz]. rewrite (setn_ok _ _ _ _ Z1).
  change (q :: b ++ [p]) with ((q :: b) ++ [p]) in *. rewrite EB in *.
  assert (Pz : p <> z).
  { intros ->. apply (NoDup_app_in (b0 ++ [z]) [z] z ND); [apply in_or_app; right|]; left; auto. }
  assert (P0 : ~ In p b0).
  { intros I. apply (NoDup_app_in (b0 ++ [z]) [p] p ND); [apply in_or_app; left; auto|left; auto]. }
  erewrite (setn_ok _ p 0 v).
  2:{ rewrite nx_upd_other by auto. unfold nx. replace (p =? 0) with false by lia. exact M. }
  eexists. split; [reflexivity|]. split.
  - rewrite <- app_assoc. apply links_app in L. destruct L as [La Lz]. apply links_app. cbn [app hd] in *. split.
    + apply links_upd_out; auto. apply links_upd_out; auto. intros I. apply NoDup_app_l in ND.
      apply (NoDup_app_in b0 [z] z ND); auto. left; auto.
    + cbn [links hd]. split; [auto|]. split; [rewrite upd_other by auto; apply upd_same|].
      split; [auto|]. split; [apply upd_same|auto].
  - intros x Nx Np'. rewrite upd_other by auto. apply upd_other. intros ->. apply Nx. apply in_or_app. right; left; auto.
Qed.

Lemma ll_search_ok h l p : links h l 0 -> forall fuel, (length l < fuel)%nat ->
  exists b, ll_search fuel h (hd 0 l) p = Some b /\ (b = true <-> In p l).
Proof.
  induction l as [|x l IH]; intros L fuel Hf; (destruct fuel; [cbn in Hf; lia|]).
  - exists false. split; [reflexivity|]. cbn. split; [discriminate|tauto].
  - cbn [hd ll_search]. destruct (nx_link0 _ _ _ _ L) as [E N]. replace (x =? 0) with false by lia.
    destruct (x =? p) eqn:C.
    + exists true. split; [auto|]. cbn. split; [left; lia|auto].
    + rewrite E. destruct L as (_ & _ & L). destruct (IH L fuel ltac:(cbn in Hf; lia)) as (b & R & B).
      exists b. split; [exact R|]. rewrite B. cbn. split; [auto|]. intros [->|]; [lia|auto].
Qed.

Lemma ll_search_f_ok h l f : links h l 0 -> forall fuel, (length l < fuel)%nat ->
  ll_search_f fuel h f (hd 0 l) = Some (match find f l with Some x => x | None => 0 end).
Proof.
  induction l as [|x l IH]; intros L fuel Hf; (destruct fuel; [cbn in Hf; lia|]).
  - reflexivity.
  - cbn [hd ll_search_f find]. destruct (nx_link0 _ _ _ _ L) as [E N]. replace (x =? 0) with false by lia.
    destruct (f x); [reflexivity|]. rewrite E. destruct L as (_ & _ & L). apply IH; auto. cbn in Hf; lia.
Qed.

Lemma ll_iterate_ok h l : links h l 0 -> forall fuel seen, (length l < fuel)%nat ->
  ll_iterate fuel h (hd 0 l) seen = Some (seen ++ l).
Proof.
  induction l as [|x l IH]; intros L fuel seen Hf; (destruct fuel; [cbn in Hf; lia|]).
  - cbn. rewrite app_nil_r. reflexivity.
  - cbn [hd ll_iterate]. destruct (nx_link0 _ _ _ _ L) as [E N]. replace (x =? 0) with false by lia.
    rewrite E. destruct L as (_ & _ & L). rewrite IH by (auto; cbn in Hf; lia). rewrite <- app_assoc. reflexivity.
Qed.

Lemma ll_peek_ok h l : links h l 0 -> forall i, ll_peek i h (hd 0 l) = Some (nth i l 0).
Proof.
  induction l as [|x l IH]; intros L i.
  - destruct i; reflexivity.
  - destruct i as [|i]; [reflexivity|]. cbn [hd ll_peek nth]. destruct (nx_link0 _ _ _ _ L) as [E N].
    replace (x =? 0) with false by lia. rewrite E. destruct L as (_ & _ & L). apply IH; auto.
Qed.

(** Taking out the node after [q]. *)
Lemma unlink_ok h a q x b : links h (a ++ q :: x :: b) 0 -> NoDup (a ++ q :: x :: b) ->
  let h1 := upd h q (Some (hd 0 b)) in
  nx h q = Some x /\ nx h x = Some (hd 0 b) /\ q <> 0 /\ x <> 0 /\ x <> q /\
  links h1 (a ++ q :: b) 0 /\ nx h1 x = Some (hd 0 b) /\ ~ In x (a ++ q :: b).
Proof.
  intros L ND h1. destruct (nx_link _ _ _ _ _ L) as [Eq Nq]. cbn [hd] in Eq.
  assert (L2 := L). change (a ++ q :: x :: b) with (a ++ [q] ++ x :: b) in L2. rewrite app_assoc in L2.
  destruct (nx_link _ _ _ _ _ L2) as [Ex Nx].
  assert (ND2 := ND). change (a ++ q :: x :: b) with (a ++ [q] ++ x :: b) in ND2. rewrite app_assoc in ND2.
  pose proof (NoDup_remove_2 _ _ _ ND2) as NI. rewrite <- app_assoc in NI. cbn [app] in NI.
  assert (Xq : x <> q) by (intros ->; apply NI; apply in_or_app; right; left; auto).
  repeat split; auto.
  - apply (links_set h a q (x :: b) b); auto.
    + apply links_app in L2. destruct L2 as [_ L2]. cbn in L2. tauto.
    + intros I. apply NoDup_app_r in ND. inversion ND; subst. apply H1. right; auto.
  - unfold h1. rewrite nx_upd_other by auto. exact Ex.
Qed.

Lemma before_node_ok p h : forall l a q fuel, p <> 0 -> links h (a ++ q :: l) 0 -> (length l < fuel)%nat ->
  (~ In p l /\ exists z, before_node fuel h q p = Some z /\ nx h z = Some 0) \/
  (exists b c, l = b ++ p :: c /\ ~ In p b /\ before_node fuel h q p = Some (last (q :: b) 0)).
Proof.
  induction l as [|x l IH]; intros a q fuel Np L Hf; (destruct fuel; [cbn in Hf; lia|]); cbn [before_node];
  destruct (nx_link _ _ _ _ _ L) as [E N]; rewrite E; cbn [hd].
  - left. split; [auto|]. exists q. rewrite orb_true_r. auto.
  - destruct (x =? p) eqn:C.
    + right. exists [], l. assert (x = p) by lia. subst. auto.
    + assert (L2 := L). change (a ++ q :: x :: l) with (a ++ [q] ++ x :: l) in L2. rewrite app_assoc in L2.
      destruct (nx_link _ _ _ _ _ L2) as [_ Nx]. replace (x =? 0) with false by lia. cbn [orb].
      destruct (IH (a ++ [q]) x fuel Np L2 ltac:(cbn in Hf; lia)) as [[NI (z & B & Z0)]|(b & c & -> & NI & B)].
      * left. split; [|eauto]. intros [->|]; [lia|auto].
      * right. exists (x :: b), c. split; [auto|]. split; [|exact B]. intros [->|]; [lia|auto].
Qed.

Lemma remove1_split (b c : list Z) p : ~ In p b -> remove1 p (b ++ p :: c) = b ++ c.
Proof.
  induction b as [|x b IH]; cbn; intros N.
  - rewrite Z.eqb_refl. reflexivity.
  - destruct (x =? p) eqn:E; [exfalso; apply N; left; lia|]. f_equal. auto.
Qed.

Lemma last_split (q : Z) b : exists a, q :: b = a ++ [last (q :: b) 0].
Proof. exists (removelast (q :: b)). apply app_last. Qed.

Lemma ll_extract_ok fuel h q l p : links h (q :: l) 0 -> NoDup (q :: l) -> (length l < fuel)%nat ->
  (~ In p l /\ ll_extract fuel h q p = Some (h, false)) \/
  (In p l /\ exists h', ll_extract fuel h q p = Some (h', true) /\ links h' (q :: remove1 p l) 0 /\
     h' p = Some 0 /\ forall x, ~ In x (q :: l) -> h' x = h x).
Proof.
  intros L ND Hf. unfold ll_extract. destruct (p =? 0) eqn:P0.
  - left. split; [|reflexivity]. intros I. apply (links_nz h (q :: l) 0 p); auto; [right; auto|lia].
  - destruct (before_node_ok p h l [] q fuel ltac:(lia) L Hf) as [[NI (z & -> & Z0)]|(b & c & -> & NI & B)].
    + left. split; [auto|]. rewrite Z0. reflexivity.
    + right. split; [apply in_or_app; right; left; auto|]. rewrite B.
      destruct (last_split q b) as (a & EA). set (z := last (q :: b) 0) in *.
      change (q :: b ++ p :: c) with ((q :: b) ++ p :: c) in *. rewrite EA in *. rewrite <- app_assoc in *. cbn [app] in *.
      destruct (unlink_ok h a z p c L ND) as (E1 & E2 & Nz & Np & Pz & L1 & N1 & NIp).
      rewrite E1, P0, E2. rewrite (setn_ok _ _ _ _ E1). rewrite (setn_ok _ _ _ _ N1).
      eexists. split; [reflexivity|]. split; [|split].
      * rewrite remove1_split by auto. change (q :: b ++ c) with ((q :: b) ++ c). rewrite EA, <- app_assoc.
        apply links_upd_out; auto.
      * apply upd_same.
      * intros x Nx. rewrite !upd_other; auto; intros ->; apply Nx; apply in_or_app; right; cbn; auto.
Qed.

Lemma ll_extract_f_ok f h : forall l a q fuel, links h (a ++ q :: l) 0 -> NoDup (a ++ q :: l) -> (length l < fuel)%nat ->
  match find f l with
  | None => ll_extract_f fuel h f q = Some (h, 0)
  | Some x => exists h', ll_extract_f fuel h f q = Some (h', x) /\ x <> 0 /\ links h' (a ++ q :: remove1 x l) 0 /\
      h' x = Some 0 /\ forall y, ~ In y (a ++ q :: l) -> h' y = h y
  end.
Proof.
  induction l as [|x l IH]; intros a q fuel L ND Hf; (destruct fuel; [cbn in Hf; lia|]); cbn [ll_extract_f find].
  - destruct (nx_link _ _ _ _ _ L) as [E N]. rewrite E. reflexivity.
  - destruct (unlink_ok h a q x l L ND) as (E1 & E2 & Nz & Np & Pz & L1 & N1 & NIp).
    rewrite E1. replace (x =? 0) with false by lia. destruct (f x) eqn:Fx.
    + rewrite E2, (setn_ok _ _ _ _ E1), (setn_ok _ _ _ _ N1). eexists. split; [reflexivity|]. split; [auto|].
      split; [|split].
      * cbn [remove1]. rewrite Z.eqb_refl. apply links_upd_out; auto.
      * apply upd_same.
      * intros y Ny. rewrite !upd_other; auto; intros ->; apply Ny; apply in_or_app; right; cbn; auto.
    + change (a ++ q :: x :: l) with (a ++ [q] ++ x :: l) in *. rewrite app_assoc in *.
      specialize (IH (a ++ [q]) x fuel L ND ltac:(cbn in Hf; lia)). destruct (find f l) as [y|] eqn:Fd; [|exact IH].
      destruct IH as (h' & R & Ny & L' & H0 & FR). exists h'. split; [exact R|]. split; [auto|]. split; [|split; auto].
      rewrite <- app_assoc in L'. cbn [app] in L'. cbn [remove1].
      destruct (x =? y) eqn:C; [|exact L'].
      assert (x = y) by lia. subst y. apply find_some in Fd. destruct Fd as [_ Fd]. congruence.
Qed.

Lemma NoDup_drop (a l : list Z) q x : NoDup (a ++ q :: x :: l) -> NoDup (a ++ q :: l).
Proof.
  intros ND. change (a ++ q :: x :: l) with (a ++ [q] ++ x :: l) in ND. rewrite app_assoc in ND.
  apply NoDup_remove_1 in ND. rewrite <- app_assoc in ND. exact ND.
Qed.

Lemma ll_delete_f_ok f : forall l a q fuel h d, links h (a ++ q :: l) 0 -> NoDup (a ++ q :: l) -> (length l < fuel)%nat ->
  exists h', ll_delete_f fuel h f q d = Some (h', if existsb f l then uwrap 32 (d + Z.of_nat (length (filter f l))) else d) /\
    links h' (a ++ q :: filter (fun x => negb (f x)) l) 0 /\
    (forall y, In y l -> f y = true -> h' y = None) /\
    (forall y, ~ In y (q :: l) -> h' y = h y).
Proof.
  induction l as [|x l IH]; intros a q fuel h d L ND Hf; (destruct fuel; [cbn in Hf; lia|]); cbn [ll_delete_f].
  - destruct (nx_link _ _ _ _ _ L) as [E N]. rewrite E. exists h. cbn. repeat split; auto. tauto.
  - destruct (unlink_ok h a q x l L ND) as (E1 & E2 & Nz & Np & Pz & L1 & N1 & NIp).
    rewrite E1. replace (x =? 0) with false by lia. cbn [filter existsb length] in *.
    assert (ND1 := NoDup_drop _ _ _ _ ND).
    destruct (f x) eqn:Fx; cbn [negb orb].
    + rewrite E2, (setn_ok _ _ _ _ E1), (del_ok _ _ _ N1).
      set (h2 := upd _ x None).
      destruct (IH a q fuel h2 (uwrap 32 (d + 1))) as (h' & R & L' & D & FR); auto.
      { apply links_upd_out; auto. }
      { lia. }
      exists h'. split; [|split; [exact L'|split]].
      * rewrite R. do 2 f_equal. destruct (existsb f l) eqn:EX.
        -- unfold uwrap. rewrite Zplus_mod_idemp_l. cbn [length]. f_equal. lia.
        -- f_equal. cbn [length].
           replace (filter f l) with (@nil Z); [cbn; lia|]. symmetry. clear - EX. induction l; [auto|]. cbn in *.
           destruct (f a); [discriminate|auto].
      * intros y [->|Hy] Fy; [|auto]. rewrite FR; [apply upd_same|]. intros I. apply NIp. apply in_or_app. auto.
      * intros y Ny. rewrite FR; [|intros I; apply Ny; cbn in *; tauto]. unfold h2. rewrite !upd_other; auto; intros ->; apply Ny; cbn; auto.
    + change (a ++ q :: x :: l) with (a ++ [q] ++ x :: l) in *. rewrite app_assoc in *.
      destruct (IH (a ++ [q]) x fuel h d L ND ltac:(lia)) as (h' & R & L' & D & FR).
      exists h'. split; [exact R|]. rewrite <- app_assoc in L'. cbn [app] in L'. split; [exact L'|]. split.
      * intros y [->|Hy] Fy; [congruence|auto].
      * intros y Ny. apply FR. intros I. apply Ny. cbn in *. tauto.
Qed.

Lemma walk_ok h : forall i l a q, links h (a ++ q :: l) 0 ->
  walk i h q = Some (last (q :: firstn i l) 0).
Proof.
  induction i as [|i IH]; intros l a q L; destruct (nx_link _ _ _ _ _ L) as [E N]; cbn [walk]; rewrite E; cbn [firstn].
  - destruct (hd 0 l =? 0); reflexivity.
  - destruct l as [|x l]; cbn [hd]; [reflexivity|].
    change (a ++ q :: x :: l) with (a ++ [q] ++ x :: l) in L. rewrite app_assoc in L.
    destruct (nx_link _ _ _ _ _ L) as [_ Nx]. replace (x =? 0) with false by lia.
    rewrite (IH l (a ++ [q]) x L). reflexivity.
Qed.

Lemma cleanup_loop_ok : forall l n h, links h l 0 -> NoDup l -> (length l <= n)%nat ->
  exists h', cleanup_loop n h (hd 0 l) = Some h' /\ (forall y, In y l -> h' y = None) /\ (forall y, ~ In y l -> h' y = h y).
Proof.
  induction l as [|x l IH]; intros n h L ND Hn.
  - exists h. split; [destruct n; reflexivity|]. split; [cbn; tauto|auto].
  - destruct n; [cbn in Hn; lia|]. cbn [cleanup_loop hd]. destruct (nx_link0 _ _ _ _ L) as [E N].
    replace (x =? 0) with false by lia. rewrite E, (del_ok _ _ _ E). inversion ND; subst.
    destruct (IH n (upd h x None)) as (h' & R & D & F); auto.
    { apply links_upd_out; auto. cbn in L. tauto. } { cbn in Hn; lia. }
    exists h'. split; [exact R|]. split.
    + intros y [->|Hy]; auto. rewrite F by auto. apply upd_same.
    + intros y Ny. rewrite F by (intros I; apply Ny; right; auto). apply upd_other. intros ->. apply Ny. left; auto.
Qed.

(** * Bubble sort *)
Section Sort.
Context (cmp : Z -> Z -> Z).

(** n exchanges of adjacent elements. *)
Fixpoint bub (n : nat) (l : list Z) : list Z :=
  match n, l with
  | S m, a :: (b :: r) => if cmp a b >? 0 then b :: bub m (a :: r) else a :: bub m (b :: r)
  | _, _ => l
  end.

Lemma bub_perm : forall n l, Permutation l (bub n l).
Proof.
  induction n as [|n IH]; intros l; [reflexivity|]. destruct l as [|a [|b r]]; try reflexivity.
  cbn [bub]. destruct (cmp a b >? 0).
  - rewrite perm_swap. apply perm_skip, IH.
  - apply perm_skip, IH.
Qed.

Lemma swap_after_ok h a p x y r : links h (a ++ p :: x :: y :: r) 0 -> NoDup (a ++ p :: x :: y :: r) ->
  exists h', swap_after h p x y = Some h' /\ links h' (a ++ p :: y :: x :: r) 0 /\
    (forall z, ~ In z (p :: x :: y :: r) -> h' z = h z).
Proof.
  intros L ND.
  pose proof (nx_link _ _ _ _ _ L) as [Ep Np].
  assert (L1 := L). change (a ++ p :: x :: y :: r) with (a ++ [p] ++ x :: y :: r) in L1. rewrite app_assoc in L1.
  pose proof (nx_link _ _ _ _ _ L1) as [Ex Nx].
  assert (L2 := L). change (a ++ p :: x :: y :: r) with (a ++ [p; x] ++ y :: r) in L2. rewrite app_assoc in L2.
  pose proof (nx_link _ _ _ _ _ L2) as [Ey Ny]. cbn [hd] in *.
  assert (NDr : NoDup (p :: x :: y :: r)) by (eapply NoDup_app_r; eauto).
  assert (Npx : ~ In p (x :: y :: r)) by (inversion NDr; auto).
  assert (Nxy : ~ In x (y :: r)) by (inversion NDr; subst; inversion H2; auto).
  assert (Nyr : ~ In y r) by (inversion NDr; subst; inversion H2; subst; inversion H4; auto).
  assert (pa : forall z, In z (p :: x :: y :: r) -> ~ In z a).
  { intros z I1 I2. eapply NoDup_app_in; eauto. }
  assert (x <> p) by (intros ->; apply Npx; left; auto).
  assert (y <> p) by (intros ->; apply Npx; right; left; auto).
  assert (y <> x) by (intros ->; apply Nxy; left; auto).
  unfold swap_after. rewrite Ey, (setn_ok _ _ _ _ Ex).
  rewrite (setn_ok _ y x (hd 0 r)) by (rewrite nx_upd_other; auto).
  rewrite (setn_ok _ p y x) by (rewrite !nx_upd_other; auto).
  eexists. split; [reflexivity|]. split.
  - apply links_app in L. destruct L as [La _]. apply links_app in L2. destruct L2 as [_ L2]. cbn in L2.
    apply links_app. cbn [hd] in *. split.
    + repeat apply links_upd_out; auto; apply pa; cbn; auto.
    + cbn [links hd]. split; [auto|]. split; [apply upd_same|].
      split; [auto|]. split; [rewrite upd_other by auto; apply upd_same|].
      split; [auto|]. split; [rewrite !upd_other by auto; apply upd_same|].
      repeat apply links_upd_out; [| | |tauto]; intros I; [apply Npx|apply Nyr|apply Nxy]; cbn; auto.
  - intros z Nz. rewrite !upd_other; auto; intros ->; apply Nz; cbn; auto.
Qed.

Lemma bs_pass_ok : forall n a p l h, links h (a ++ p :: l) 0 -> NoDup (a ++ p :: l) -> (n < length l)%nat ->
  exists h', bs_pass n cmp h p = Some h' /\ links h' (a ++ p :: bub n l) 0 /\
    (forall z, ~ In z (p :: l) -> h' z = h z).
Proof.
  induction n as [|n IH]; intros a p l h L ND Hn.
  - exists h. split; [reflexivity|]. split; [exact L|auto].
  - destruct l as [|x [|y r]]; cbn [length] in Hn; try lia. cbn [bs_pass bub].
    pose proof (nx_link _ _ _ _ _ L) as [Ep Np]. cbn [hd] in Ep. rewrite Ep.
    assert (L1 := L). change (a ++ p :: x :: y :: r) with (a ++ [p] ++ x :: y :: r) in L1. rewrite app_assoc in L1.
    pose proof (nx_link _ _ _ _ _ L1) as [Ex Nx]. cbn [hd] in Ex. rewrite Ex.
    destruct (cmp x y >? 0) eqn:C.
    + destruct (swap_after_ok h a p x y r L ND) as (h1 & S1 & LS & FS). rewrite S1.
      change (a ++ p :: y :: x :: r) with (a ++ [p] ++ y :: x :: r) in LS. rewrite app_assoc in LS.
      destruct (IH (a ++ [p]) y (x :: r) h1) as (h' & R & L' & F'); auto.
      * rewrite <- app_assoc. cbn [app]. eapply Permutation_NoDup; [|exact ND].
        apply Permutation_app_head, perm_skip, perm_swap.
      * cbn [length]. lia.
      * exists h'. split; [exact R|]. rewrite <- app_assoc in L'. split; [exact L'|].
        intros z Nz. rewrite F' by (intros I; apply Nz; cbn in *; tauto). apply FS; auto.
    + destruct (IH (a ++ [p]) x (y :: r) h L1) as (h' & R & L' & F'); auto.
      * rewrite <- app_assoc. exact ND.
      * cbn [length]. lia.
      * exists h'. split; [exact R|]. rewrite <- app_assoc in L'. split; [exact L'|].
        intros z Nz. apply F'. intros I; apply Nz; cbn in *; tauto.
Qed.

Lemma bs_first_ok : forall l a p h fuel c, links h (a ++ p :: l) 0 -> NoDup (a ++ p :: l) -> l <> [] -> (length l <= fuel)%nat ->
  1 <= c -> c + Z.of_nat (length l) < 2 ^ 32 ->
  exists h', bs_first fuel cmp h p c = Some (h', c + Z.of_nat (length l) - 1) /\ links h' (a ++ p :: bub (length l - 1) l) 0 /\
    (forall z, ~ In z (p :: l) -> h' z = h z).
Proof.
  intros l. remember (length l) as n eqn:En. revert l En. induction n as [|n IH]; intros l En a p h fuel c L ND Nl Hf Hc Hb.
  - destruct l; [congruence|discriminate].
  - destruct l as [|x l]; [congruence|]. cbn [length] in En. injection En as En.
    destruct fuel; [lia|]. cbn [bs_first].
    pose proof (nx_link _ _ _ _ _ L) as [Ep Np]. cbn [hd] in Ep. rewrite Ep.
    assert (L1 := L). change (a ++ p :: x :: l) with (a ++ [p] ++ x :: l) in L1. rewrite app_assoc in L1.
    pose proof (nx_link _ _ _ _ _ L1) as [Ex Nx]. rewrite Ex.
    destruct l as [|y r].
    + cbn [length] in En. subst n. cbn [hd]. exists h. split; [cbn; do 2 f_equal; lia|]. split; [exact L|auto].
    + cbn [hd]. assert (L2 := L). change (a ++ p :: x :: y :: r) with (a ++ [p; x] ++ y :: r) in L2. rewrite app_assoc in L2.
      pose proof (nx_link _ _ _ _ _ L2) as [_ Ny]. replace (y =? 0) with false by lia.
      rewrite uwrap_id by lia. cbn [length] in En.
      replace (S n - 1)%nat with (S (n - 1)) by lia. cbn [bub].
      destruct (cmp x y >? 0) eqn:C.
      * destruct (swap_after_ok h a p x y r L ND) as (h1 & S1 & LS & FS). rewrite S1.
        change (a ++ p :: y :: x :: r) with (a ++ [p] ++ y :: x :: r) in LS. rewrite app_assoc in LS.
        destruct (IH (x :: r) ltac:(exact En) (a ++ [p]) y h1 fuel (c + 1)) as (h' & R & L' & F'); auto; try lia.
        -- rewrite <- app_assoc. cbn [app]. eapply Permutation_NoDup; [|exact ND].
           apply Permutation_app_head, perm_skip, perm_swap.
        -- discriminate.
        -- exists h'. split; [rewrite R; do 2 f_equal; lia|]. rewrite <- app_assoc in L'. split; [exact L'|].
           intros z Nz. rewrite F' by (intros I; apply Nz; cbn in *; tauto). apply FS; auto.
      * destruct (IH (y :: r) ltac:(exact En) (a ++ [p]) x h fuel (c + 1)) as (h' & R & L' & F'); auto; try lia.
        -- rewrite <- app_assoc. exact ND.
        -- discriminate.
        -- exists h'. split; [rewrite R; do 2 f_equal; lia|]. rewrite <- app_assoc in L'. split; [exact L'|].
           intros z Nz. apply F'. intros I; apply Nz; cbn in *; tauto.
Qed.

(** The passes of [n], n-1, .., 1 exchanges. *)
Fixpoint bubs (n : nat) (l : list Z) : list Z :=
  match n with O => l | S m => bubs m (bub n l) end.

Lemma bub_length n l : length (bub n l) = length l.
Proof. apply Permutation_length, Permutation_sym, bub_perm. Qed.

Lemma bubs_perm : forall n l, Permutation l (bubs n l).
Proof. induction n as [|n IH]; intros l; [reflexivity|]. cbn [bubs]. rewrite <- IH. apply bub_perm. Qed.

Lemma bs_passes_ok : forall n p l h, links h (p :: l) 0 -> NoDup (p :: l) -> (n < length l)%nat ->
  exists h', bs_passes n cmp h p = Some h' /\ links h' (p :: bubs n l) 0 /\
    (forall z, ~ In z (p :: l) -> h' z = h z).
Proof.
  induction n as [|n IH]; intros p l h L ND Hn.
  - exists h. cbn. auto.
  - cbn [bs_passes bubs]. destruct (bs_pass_ok (S n) [] p l h L ND Hn) as (h1 & R1 & L1 & F1). rewrite R1.
    destruct (IH p (bub (S n) l) h1) as (h' & R & L' & F').
    + exact L1.
    + eapply Permutation_NoDup; [|exact ND]. apply perm_skip, bub_perm.
    + rewrite bub_length. lia.
    + exists h'. split; [exact R|]. split; [exact L'|]. intros z Nz. rewrite F'; [apply F1; exact Nz|].
      intros I. apply Nz. eapply Permutation_in; [|exact I]. apply perm_skip, Permutation_sym, bub_perm.
Qed.

Definition bsorted (l : list Z) : list Z :=
  match l with [] => [] | _ => bubs (length l - 2) (bub (length l - 1) l) end.

Theorem ll_bsort_ok fuel h p l : links h (p :: l) 0 -> NoDup (p :: l) -> (length l <= fuel)%nat ->
  Z.of_nat (length l) < 2 ^ 32 - 1 ->
  exists h', ll_bsort fuel cmp h p = Some h' /\ links h' (p :: bsorted l) 0 /\
    (forall z, ~ In z (p :: l) -> h' z = h z).
Proof.
  intros L ND Hf Hb. unfold ll_bsort. destruct (nx_link0 _ _ _ _ L) as [Ep Np]. rewrite Ep.
  destruct l as [|x l].
  - cbn. exists h. auto.
  - cbn [hd]. destruct (nx_link h [p] x l 0 L) as [_ Nx]. replace (x =? 0) with false by lia.
    destruct (bs_first_ok (x :: l) [] p h fuel 1 L ND ltac:(discriminate) Hf ltac:(lia) ltac:(lia)) as (h1 & R1 & L1 & F1).
    rewrite R1. cbn [app] in L1.
    replace (Z.to_nat (1 + Z.of_nat (length (x :: l)) - 1 - 2)) with (length (x :: l) - 2)%nat by lia.
    destruct (bs_passes_ok (length (x :: l) - 2) p (bub (length (x :: l) - 1) (x :: l)) h1) as (h' & R & L' & F').
    + exact L1.
    + eapply Permutation_NoDup; [|exact ND]. apply perm_skip, bub_perm.
    + rewrite bub_length. cbn [length]. lia.
    + exists h'. split; [exact R|]. split; [exact L'|]. intros z Nz. rewrite F'; [apply F1; exact Nz|].
      intros I. apply Nz. eapply Permutation_in; [|exact I]. apply perm_skip, Permutation_sym, bub_perm.
Qed.

(** ** The result is sorted *)
Context (TP : total_preorder cmp).
Notation le := (le_of cmp).

Lemma gt_le a b : (cmp a b >? 0) = true -> le b a.
Proof. intros H. destruct TP as [T _]. destruct (T a b) as [C|C]; auto. unfold le_of in *. lia. Qed.
Lemma ngt_le a b : (cmp a b >? 0) = false -> le a b.
Proof. intros H. unfold le_of. lia. Qed.
Lemma le_tr a b c : le a b -> le b c -> le a c. Proof. destruct TP. eauto. Qed.
Lemma le_rf a : le a a. Proof. destruct TP as [T _]. destruct (T a a); auto. Qed.

(** A whole pass brings a greatest element to the end. *)
Lemma bub_last : forall x, x <> [] -> exists y m, bub (length x - 1) x = y ++ [m] /\ Forall (fun e => le e m) y.
Proof.
  intros x. remember (length x) as n eqn:En. revert x En. induction n as [|n IH]; intros x En Nx; [destruct x; [congruence|discriminate]|].
  destruct x as [|a x]; [congruence|]. cbn in En. injection En as En. destruct x as [|b r].
  - cbn in En. subst n. exists [], a. cbn. auto.
  - cbn [length] in En. replace (S n - 1)%nat with (S (n - 1)) by lia. cbn [bub]. destruct (cmp a b >? 0) eqn:C.
    + destruct (IH (a :: r) ltac:(exact En) ltac:(discriminate)) as (y & m & E & F). rewrite E. exists (b :: y), m. split; [auto|].
      constructor; [|auto]. apply le_tr with a; [apply gt_le; auto|].
      assert (I : In a (y ++ [m])) by (rewrite <- E; eapply Permutation_in; [apply bub_perm|left; auto]).
      apply in_app_or in I. destruct I as [I|[->|[]]]; [|apply le_rf]. rewrite Forall_forall in F; auto.
    + destruct (IH (b :: r) ltac:(exact En) ltac:(discriminate)) as (y & m & E & F). rewrite E. exists (a :: y), m. split; [auto|].
      constructor; [|auto]. apply le_tr with b; [apply ngt_le; auto|].
      assert (I : In b (y ++ [m])) by (rewrite <- E; eapply Permutation_in; [apply bub_perm|left; auto]).
      apply in_app_or in I. destruct I as [I|[->|[]]]; [|apply le_rf]. rewrite Forall_forall in F; auto.
Qed.

Lemma bub_app : forall n x y, (n < length x)%nat -> bub n (x ++ y) = bub n x ++ y.
Proof.
  induction n as [|n IH]; intros x y Hn; [reflexivity|]. destruct x as [|a [|b r]]; cbn [length] in Hn; try lia.
  cbn [app bub]. destruct (cmp a b >? 0).
  - cbn [app]. f_equal. change (a :: r ++ y) with ((a :: r) ++ y). apply IH. cbn [length]. lia.
  - cbn [app]. f_equal. change (b :: r ++ y) with ((b :: r) ++ y). apply IH. cbn [length]. lia.
Qed.

Lemma bubs_sorted : forall n x y, length x = S n -> StronglySorted le y ->
  (forall a b, In a x -> In b y -> le a b) -> StronglySorted le (bubs n (x ++ y)).
Proof.
  induction n as [|n IH]; intros x y Hx Sy XY.
  - cbn [bubs]. destruct x as [|a [|b x]]; try discriminate. cbn. constructor; [auto|].
    apply Forall_forall. intros b Hb. apply XY; cbn; auto.
  - cbn [bubs]. rewrite bub_app by lia.
    destruct (bub_last x) as (x' & m & E & F); [destruct x; discriminate|].
    rewrite Hx in E. replace (S (S n) - 1)%nat with (S n) in E by lia. rewrite E, <- app_assoc.
    assert (PX : Permutation x (x' ++ [m])) by (rewrite <- E; apply bub_perm).
    apply IH.
    + apply Permutation_length in PX. rewrite app_length in PX. cbn in PX. lia.
    + cbn. constructor; auto. apply Forall_forall. intros b Hb. apply XY; auto.
      eapply Permutation_in; [apply Permutation_sym, PX|]. apply in_or_app. right; left; auto.
    + intros a b Ha [<-|Hb].
      * rewrite Forall_forall in F. auto.
      * apply XY; auto. eapply Permutation_in; [apply Permutation_sym, PX|]. apply in_or_app. auto.
Qed.

Lemma bsorted_sorted l : StronglySorted le (bsorted l).
Proof.
  unfold bsorted. destruct l as [|a r] eqn:El; [constructor|]. rewrite <- El in *.
  destruct (bub_last l) as (y & m & E & F); [subst; discriminate|]. rewrite E.
  assert (PL : length l = S (length y)).
  { pose proof (bub_length (length l - 1) l) as BL. rewrite E, app_length in BL. cbn in BL. lia. }
  destruct y as [|b y].
  - cbn [length] in PL. rewrite PL. cbn. constructor; auto; constructor.
  - replace (length l - 2)%nat with (length y) by (cbn in PL; lia).
    apply bubs_sorted; auto.
    + constructor; constructor.
    + intros c d Hc [<-|[]]. rewrite Forall_forall in F. auto.
Qed.

(** ** The sort is stable *)
Lemma bub_stable c : forall n l, filter (same_class cmp c) (bub n l) = filter (same_class cmp c) l.
Proof.
  induction n as [|n IH]; intros l; [reflexivity|]. destruct l as [|a [|b r]]; try reflexivity.
  cbn [bub]. destruct (cmp a b >? 0) eqn:C.
  - cbn [filter]. rewrite IH. cbn [filter].
    destruct (same_class cmp c a) eqn:Ca, (same_class cmp c b) eqn:Cb; try reflexivity.
    exfalso. unfold same_class in *. assert (L : le a b) by (apply le_tr with c; unfold le_of; lia).
    unfold le_of in L. lia.
  - cbn [filter]. rewrite IH. reflexivity.
Qed.
Lemma bubs_stable c : forall n l, filter (same_class cmp c) (bubs n l) = filter (same_class cmp c) l.
Proof. induction n as [|n IH]; intros l; [reflexivity|]. cbn [bubs]. rewrite IH. apply bub_stable. Qed.

Theorem bsorted_spec l : sorted_version cmp l (bsorted l).
Proof.
  split; [|split; [apply bsorted_sorted|]].
  - unfold bsorted. destruct l as [|a r]; [auto|]. rewrite <- bubs_perm. apply bub_perm.
  - intros c. unfold bsorted. destruct l as [|a r]; [auto|]. rewrite bubs_stable. apply bub_stable.
Qed.
End Sort.

(** * Sorted insertion *)
Section Merge.
Context (cmp : Z -> Z -> Z).
Notation le := (le_of cmp).

Fixpoint mrg (fuel : nat) (l m : list Z) : list Z :=
  match fuel with
  | O => l ++ m
  | S f =>
    match m with
    | [] => l
    | p :: m' =>
      match l with
      | [] => m
      | n :: l' => if cmp n p >? 0 then mrg f (p :: n :: l') m' else n :: mrg f l' m
      end
    end
  end.

Lemma mrg_perm : forall fuel l m, Permutation (l ++ m) (mrg fuel l m).
Proof.
  induction fuel as [|f IH]; intros l m; [reflexivity|]. cbn [mrg]. destruct m as [|p m]; [rewrite app_nil_r; auto|].
  destruct l as [|n l]; [auto|]. destruct (cmp n p >? 0).
  - rewrite <- IH. change ((p :: n :: l) ++ m) with (p :: (n :: l) ++ m). apply Permutation_sym, Permutation_middle.
  - cbn [app]. apply perm_skip, IH.
Qed.

Lemma merge_loop_ok : forall fuel l m a q h, (2 * length m + length l < fuel)%nat ->
  links h (a ++ q :: l) 0 -> links h m 0 -> NoDup (a ++ q :: l ++ m) ->
  exists h', merge_loop fuel cmp h q (hd 0 m) = Some h' /\ links h' (a ++ q :: mrg fuel l m) 0 /\
    (forall z, ~ In z (q :: l ++ m) -> h' z = h z).
Proof.
  induction fuel as [|f IH]; intros l m a q h Hf L M ND; [lia|]. cbn [merge_loop mrg].
  destruct m as [|p m]; cbn [hd].
  - exists h. cbn. auto.
  - destruct (nx_link0 _ _ _ _ M) as [Ep Np]. replace (p =? 0) with false by lia.
    destruct (nx_link _ _ _ _ _ L) as [Eq Nq]. rewrite Eq. destruct l as [|n l]; cbn [hd].
    + rewrite (setn_ok _ _ _ _ Eq). eexists. split; [reflexivity|]. split.
      * apply (links_set h a q [] (p :: m)); auto.
        -- cbn [app] in ND. change (a ++ q :: p :: m) with (a ++ [q] ++ p :: m) in ND. rewrite app_assoc in ND. eapply NoDup_app_l; eauto.
        -- apply NoDup_app_r in ND. inversion ND; auto.
      * intros z Nz. apply upd_other. intros ->. apply Nz. left; auto.
    + assert (L1 := L). change (a ++ q :: n :: l) with (a ++ [q] ++ n :: l) in L1. rewrite app_assoc in L1.
      pose proof (nx_link _ _ _ _ _ L1) as [En Nn]. replace (n =? 0) with false by lia.
      destruct (cmp n p >? 0) eqn:C.
      * rewrite Ep, (setn_ok _ _ _ _ Ep).
        assert (NDq : NoDup (q :: (n :: l) ++ p :: m)) by (eapply NoDup_app_r; eauto).
        assert (Pq : p <> q). { intros ->. inversion NDq; subst. apply H1. apply (in_or_app (n :: l) (_ :: m)). right; left; auto. }
        assert (Pa : ~ In p a). { intros I. apply (NoDup_app_in _ _ p ND I). right. apply (in_or_app (n :: l) (p :: m)). right; left; auto. }
        assert (Pl : ~ In p (n :: l)). { intros I. inversion NDq; subst. eapply (NoDup_app_in (n :: l) (p :: m)); eauto. left; auto. }
        assert (Pm : ~ In p m). { inversion NDq; subst. apply (NoDup_app_r (n :: l) (p :: m)) in H2. inversion H2; auto. }
        assert (Qm : ~ In q m). { intros I. inversion NDq; subst. apply H1. apply (in_or_app (n :: l) (p :: m)). right; right; auto. }
        assert (Ql : ~ In q (n :: l)). { intros I. inversion NDq; subst. apply H1. apply (in_or_app (n :: l) (p :: m)). auto. }
        assert (Qa : ~ In q a). { intros I. apply (NoDup_app_in _ _ q ND I). left; auto. }
        rewrite (setn_ok _ q p n) by (rewrite nx_upd_other; auto).
        set (h2 := upd (upd h p (Some n)) q (Some p)).
        destruct (IH (p :: n :: l) m a q h2) as (h' & R & L' & F').
        -- cbn [length] in *. lia.
        -- apply links_app in L. destruct L as [La Lq]. apply links_app. cbn [hd] in *. split.
           ++ repeat apply links_upd_out; auto.
           ++ cbn [links hd]. split; [auto|]. split; [apply upd_same|]. split; [auto|]. split.
              ** unfold h2. rewrite upd_other by auto. apply upd_same.
              ** change (links h2 (n :: l) 0). repeat apply links_upd_out; auto. cbn in Lq. cbn. tauto.
        -- repeat apply links_upd_out; auto. cbn in M. tauto.
        -- eapply Permutation_NoDup; [|exact ND]. apply Permutation_app_head, perm_skip.
           change ((p :: n :: l) ++ m) with (p :: (n :: l) ++ m). apply Permutation_sym, Permutation_middle.
        -- exists h'. split; [exact R|]. split; [exact L'|]. intros z Nz.
           rewrite F'.
           ++ unfold h2. rewrite !upd_other; auto; intros ->; apply Nz; [right; apply in_or_app; right; left; auto|left; auto].
           ++ intros I. apply Nz. cbn in *. rewrite in_app_iff in *. cbn. tauto.
      * destruct (IH l (p :: m) (a ++ [q]) n h) as (h' & R & L' & F'); auto.
        -- cbn [length] in *. lia.
        -- rewrite <- app_assoc. exact ND.
        -- exists h'. split; [exact R|]. rewrite <- app_assoc in L'. split; [exact L'|].
           intros z Nz. apply F'. intros I. apply Nz. cbn in *. tauto.
Qed.

Lemma mrg_single p : forall l fuel, (length l + 2 < fuel)%nat -> mrg fuel l [p] = insert_before_greater cmp p l.
Proof.
  induction l as [|n l IH]; intros fuel Hf; (destruct fuel; [lia|]); cbn [mrg insert_before_greater]; [auto|].
  destruct (cmp n p >? 0).
  - destruct fuel; [cbn in Hf; lia|]. reflexivity.
  - f_equal. apply IH. cbn [length] in Hf. lia.
Qed.

Lemma mrg_sorted (TP : total_preorder cmp) : forall fuel l m, (2 * length m + length l < fuel)%nat ->
  StronglySorted le l -> StronglySorted le m -> StronglySorted le (mrg fuel l m).
Proof.
  induction fuel as [|f IH]; intros l m Hf Sl Sm; [lia|]. cbn [mrg]. destruct m as [|p m]; [auto|].
  destruct l as [|n l]; [auto|]. inversion Sl; subst. inversion Sm; subst. destruct (cmp n p >? 0) eqn:C.
  - apply IH; auto; [cbn [length] in *; lia|]. constructor; auto. apply (gt_le cmp TP) in C.
    constructor; auto. eapply Forall_impl; [|exact H2]. intros x Hx. eapply le_tr; eauto.
  - apply ngt_le in C. constructor; [apply IH; auto; cbn [length] in *; lia|].
    apply Forall_forall. intros x Hx. eapply Permutation_in in Hx; [|apply Permutation_sym, mrg_perm].
    apply in_app_or in Hx. destruct Hx as [Hx|[<-|Hx]]; auto.
    + rewrite Forall_forall in H2; auto.
    + rewrite Forall_forall in H4. eapply le_tr; eauto.
Qed.
End Merge.

Lemma insert_before_greater_perm cmp p l : Permutation (p :: l) (insert_before_greater cmp p l).
Proof.
  induction l as [|n l IH]; cbn; [auto|]. destruct (cmp n p >? 0); [auto|].
  rewrite perm_swap. apply perm_skip, IH.
Qed.
