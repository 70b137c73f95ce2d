From Verif Require Import Base Crd_Model Crd_Spec.

Lemma text_eqb_eq a b : text_eqb a b = true <-> a = b.
Proof.
  revert b. induction a as [|x a IH]; intros [|y b]; cbn; try (split; congruence).
  rewrite andb_true_iff, IH, Z.eqb_eq. split; [intros [-> ->]; reflexivity|intros [= -> ->]; auto].
Qed.
Lemma existsb_in f l : existsb (text_eqb f) l = true <-> In f l.
Proof.
  rewrite existsb_exists. split; [intros (x & H & E); apply text_eqb_eq in E; congruence|intros H; exists f; split; [exact H|apply text_eqb_eq; reflexivity]].
Qed.

(** Identifiers are positions; names are appended *)
Definition Inv (r : registry) : Prop :=
  (forall k p, nth_error (items r) k = Some p -> i_id p = Z.of_nat k) /\ counter r = uwrap 32 (Z.of_nat (length (items r))).
Lemma insert_end l p i : Z.of_nat (length l) <= i -> list_insert l p i = l ++ [p].
Proof. intros H. unfold list_insert. rewrite Z.min_r, Nat2Z.id, firstn_all, skipn_all by lia. reflexivity. Qed.
Lemma add_len r name : length (items (add r name)) = S (length (items r)).
Proof.
  unfold add, list_insert; cbn [items]. rewrite app_length, firstn_length; cbn [length]; rewrite skipn_length. lia.
Qed.
Lemma add_inv r name : Inv r -> Z.of_nat (length (items r)) < 2 ^ 32 -> Inv (add r name) /\ items (add r name) = items r ++ [Item name (Z.of_nat (length (items r))) None].
Proof.
  intros (H1 & H2) HL. rewrite uwrap_id in H2 by lia.
  assert (E : items (add r name) = items r ++ [Item name (Z.of_nat (length (items r))) None]) by (unfold add; cbn [items]; rewrite insert_end by lia; rewrite H2; reflexivity).
  split; [|exact E]. split.
  - rewrite E. intros k p Hk. destruct (Nat.lt_ge_cases k (length (items r))) as [L|L].
    + rewrite nth_error_app1 in Hk by exact L. apply (H1 _ _ Hk).
    + rewrite nth_error_app2 in Hk by exact L. destruct (k - length (items r))%nat as [|m] eqn:Em; [|destruct m; discriminate]. injection Hk as <-. cbn. lia.
  - rewrite E, app_length; cbn [length add counter]. rewrite H2. f_equal. lia.
Qed.
Lemma add_all cs : forall r, Inv r -> Z.of_nat (length (items r) + length cs) <= 2 ^ 32 ->
  Inv (fold_left add cs r) /\ (exists l, items (fold_left add cs r) = items r ++ l /\ map i_name l = cs) /\ opened (fold_left add cs r) = opened r.
Proof.
  induction cs as [|c cs IH]; intros r H HL; cbn [fold_left].
  - split; [exact H|]. split; [|reflexivity]. exists []. rewrite app_nil_r. split; reflexivity.
  - cbn [length] in HL. destruct (add_inv r c H ltac:(lia)) as (H' & E).
    destruct (IH (add r c) H') as (H2 & (l & E2 & Hl) & Ho); [rewrite add_len; lia|].
    split; [exact H2|]. split; [|exact Ho]. exists (Item c (Z.of_nat (length (items r))) None :: l). rewrite E2, E, <- app_assoc. split; [reflexivity|]. cbn. rewrite Hl. reflexivity.
Qed.
Lemma add_all_len cs : forall r, length (items (fold_left add cs r)) = (length (items r) + length cs)%nat.
Proof. induction cs as [|c cs IH]; intros r; cbn [fold_left length]; [lia|]. rewrite IH, add_len. lia. Qed.

Lemma position_spec l c : match position l c with Some k => first_at (map i_name l) c k | None => ~ In c (map i_name l) end.
Proof.
  induction l as [|p l IH]; cbn [position map]; [tauto|].
  destruct (text_eqb (i_name p) c) eqn:E.
  - apply text_eqb_eq in E. split; [cbn; congruence|intros j Hj; lia].
  - assert (N : i_name p <> c) by (intros X; apply text_eqb_eq in X; congruence).
    destruct (position l c) as [k|].
    + destruct IH as (A & B). split; [exact A|]. intros [|j] Hj; cbn; [congruence|apply B; lia].
    + intros [X|X]; [congruence|exact (IH X)].
Qed.
Lemma first_in l c k : first_at l c k -> In c l. Proof. intros (H & _). eapply nth_error_In; exact H. Qed.
Lemma first_unique l c j k : first_at l c j -> first_at l c k -> j = k.
Proof. intros (A & B) (C & D). destruct (Nat.lt_trichotomy j k) as [L|[L|L]]; [destruct (D j L A)|exact L|destruct (B k L C)]. Qed.

Lemma set_library_names l k f : map i_name (set_library l k f) = map i_name l.
Proof. revert k; induction l as [|p l IH]; intros [|k]; cbn; try reflexivity. rewrite IH. reflexivity. Qed.
Lemma set_library_ids l k f : map i_id (set_library l k f) = map i_id l.
Proof. revert k; induction l as [|p l IH]; intros [|k]; cbn; try reflexivity. rewrite IH. reflexivity. Qed.
Lemma set_library_len l k f : length (set_library l k f) = length l.
Proof. rewrite <- (map_length i_name), set_library_names, map_length. reflexivity. Qed.
Lemma set_library_at l k f p : nth_error l k = Some p -> nth_error (set_library l k f) k = Some (Item (i_name p) (i_id p) (Some f)).
Proof. revert k; induction l as [|q l IH]; intros [|k]; cbn; try discriminate; [intros [= ->]; reflexivity|apply IH]. Qed.
Lemma ids_inv l : (forall k p, nth_error l k = Some p -> i_id p = Z.of_nat k) <-> (forall k z, nth_error (map i_id l) k = Some z -> z = Z.of_nat k).
Proof.
  split; intros H k x E.
  - rewrite nth_error_map in E. destruct (nth_error l k) eqn:N; [|discriminate]. injection E as <-. apply (H _ _ N).
  - apply H. rewrite nth_error_map, E. reflexivity.
Qed.
Lemma set_library_inv r k f : Inv r -> Inv (Registry (set_library (items r) k f) (counter r) (opened r)).
Proof.
  intros (H1 & H2). split; cbn [items counter]; [|rewrite set_library_len; exact H2].
  apply ids_inv. rewrite set_library_ids. apply ids_inv. exact H1.
Qed.

(** Splitting the name *)
Lemma search2 a b t : search (a :: b :: t) = if (a =? 58) && (b =? 58) then Some 0%nat else match search (b :: t) with Some k => Some (S k) | None => None end.
Proof. reflexivity. Qed.
Lemma search_some s k : search s = Some k -> s = firstn k s ++ [58; 58] ++ skipn (k + 2) s /\ (k + 2 <= length s)%nat.
Proof.
  revert k. induction s as [|a t IH]; intros k; [discriminate|]. destruct t as [|b t]; [discriminate|].
  rewrite search2. destruct ((a =? 58) && (b =? 58)) eqn:E.
  - intros [= <-]. apply andb_true_iff in E as [A B]. apply Z.eqb_eq in A, B. subst. cbn. split; [reflexivity|lia].
  - destruct (search (b :: t)) as [j|] eqn:S; [|discriminate]. intros [= <-].
    destruct (IH j eq_refl) as (X & L). split; [|cbn [length] in *; lia]. cbn [firstn app plus skipn]. f_equal. exact X.
Qed.
Lemma search_app x y : exists k, search (x ++ [58; 58] ++ y) = Some k /\ (k <= length x)%nat.
Proof.
  induction x as [|a x IH].
  - exists 0%nat. split; [reflexivity|cbn; lia].
  - destruct IH as (k & E & L). cbn [app] in *. destruct (x ++ 58 :: 58 :: y) as [|b t] eqn:X; [destruct x; discriminate|].
    rewrite search2. destruct ((a =? 58) && (b =? 58)); [exists 0%nat; split; [reflexivity|lia]|].
    rewrite E. exists (S k). split; [reflexivity|cbn [length]; lia].
Qed.
Lemma firstn_min (l m : text) n : firstn (Nat.min (length l) n) (l ++ m) = firstn n l.
Proof.
  rewrite firstn_app. replace (Nat.min (length l) n - length l)%nat with 0%nat by lia. change (firstn 0 m) with (@nil Z). rewrite app_nil_r.
  destruct (Nat.le_ge_cases n (length l)) as [H|H]; [rewrite Nat.min_r by exact H; reflexivity|].
  rewrite Nat.min_l by exact H. rewrite firstn_all, firstn_all2 by exact H. reflexivity.
Qed.
Lemma parts s lib cls : means s lib cls -> class_part s = cls /\ library_part s = firstn 128 lib.
Proof.
  unfold class_part, library_part. generalize 128%nat as n. intros n [(E & F)|(E1 & E2 & F)].
  - destruct (search_app lib cls) as (k & S & L). rewrite <- E in S. destruct (search_some _ _ S) as (X & LX).
    pose proof (F _ _ X) as G. rewrite firstn_length in G. assert (K : k = length lib) by lia. rewrite S. subst k. split.
    + rewrite E at 1. rewrite app_assoc. rewrite skipn_app. replace (length lib + 2)%nat with (length (lib ++ [58; 58])) by (rewrite app_length; reflexivity).
      rewrite skipn_all, Nat.sub_diag. reflexivity.
    + rewrite E. apply firstn_min.
  - subst lib cls. destruct (search s) as [k|] eqn:S; [destruct (search_some _ _ S) as (X & _); destruct (F _ _ X)|].
    split; [reflexivity|]. rewrite <- (app_nil_r s) at 2. apply firstn_min.
Qed.
Lemma means_exists s : exists lib cls, means s lib cls.
Proof.
  destruct (search s) as [k|] eqn:S.
  - destruct (search_some _ _ S) as (X & L). exists (firstn k s), (skipn (k + 2) s). left. split; [exact X|].
    intros x y E. destruct (search_app x y) as (j & SJ & LJ). rewrite <- E, S in SJ. injection SJ as <-. rewrite firstn_length. lia.
  - exists s, s. right. repeat split. intros x y E. destruct (search_app x y) as (j & SJ & _). rewrite <- E, S in SJ. discriminate.
Qed.

(** Opening *)
Definition after_open (r r' : registry) (file : text) (cs : list text) : Prop :=
  (In file (opened r) /\ r' = r) \/ (~ In file (opened r) /\ r' = let q := fold_left add cs r in Registry (items q) (counter q) (file :: opened q)).
Lemma open_some libs r f cs : libs f = Some cs -> exists r', open libs r f = (true, r') /\ after_open r r' f cs.
Proof.
  intros E. unfold open. rewrite E. destruct (existsb (text_eqb f) (opened r)) eqn:X.
  - apply existsb_in in X. exists r. split; [reflexivity|left; auto].
  - eexists. split; [reflexivity|]. right. split; [|reflexivity]. rewrite <- existsb_in, X. discriminate.
Qed.
Lemma open_none libs r f : libs f = None -> open libs r f = (false, r).
Proof. intros E. unfold open. rewrite E. reflexivity. Qed.
Lemma open_any_ok libs r dll :
  (exists f cs r', file_of libs dll f cs /\ open_any libs r dll extensions = (Some f, r') /\ after_open r r' f cs) \/
  (libs (dll ++ so) = None /\ libs (dll ++ gam) = None /\ libs (dll ++ drv) = None /\ open_any libs r dll extensions = (None, r)).
Proof.
  unfold extensions. cbn [open_any firstn]. fold so gam drv.
  destruct (libs (dll ++ so)) as [cs|] eqn:E1.
  { left. destruct (open_some libs r _ cs E1) as (r' & O & A). rewrite O. exists (dll ++ so), cs, r'. split; [split; [exact E1|left; reflexivity]|]. split; [reflexivity|exact A]. }
  rewrite (open_none _ _ _ E1). destruct (libs (dll ++ gam)) as [cs|] eqn:E2.
  { left. destruct (open_some libs r _ cs E2) as (r' & O & A). rewrite O. exists (dll ++ gam), cs, r'. split; [split; [exact E2|right; left; auto]|]. split; [reflexivity|exact A]. }
  rewrite (open_none _ _ _ E2). destruct (libs (dll ++ drv)) as [cs|] eqn:E3.
  { left. destruct (open_some libs r _ cs E3) as (r' & O & A). rewrite O. exists (dll ++ drv), cs, r'. split; [split; [exact E3|right; right; auto]|]. split; [reflexivity|exact A]. }
  rewrite (open_none _ _ _ E3). right. auto.
Qed.
Lemma after_open_inv r r' f cs : Inv r -> after_open r r' f cs -> Z.of_nat (length (items r')) < 2 ^ 32 ->
  Inv r' /\ (exists l, items r' = items r ++ l /\ map i_name l = if existsb (text_eqb f) (opened r) then [] else cs) /\ In f (opened r').
Proof.
  intros H [(I & ->)|(N & ->)] HL.
  - split; [exact H|]. apply existsb_in in I as I'. rewrite I'. split; [|exact I]. exists []. rewrite app_nil_r. split; reflexivity.
  - cbn [items] in HL. rewrite add_all_len in HL. destruct (add_all cs r H ltac:(lia)) as ((H1 & H2) & (l & E & M) & _).
    split; [split; [exact H1|exact H2]|]. cbn [items opened]. split; [|left; reflexivity]. exists l. split; [exact E|].
    destruct (existsb (text_eqb f) (opened r)) eqn:X; [apply existsb_in in X; contradiction|exact M].
Qed.
Lemma find_len libs r s k r' : find_class libs r s = (k, r') -> exists r1, Inv r -> Z.of_nat (length (items r')) < 2 ^ 32 -> Inv r1 /\ length (items r1) = length (items r') /\ names r1 = names r' /\ Inv r'
   /\ exists l, names r' = names r ++ l.
Proof.
  unfold find_class. intros E. destruct (position (items r) (class_part s)) as [j|] eqn:P.
  - injection E as <- <-. exists r. intros H HL. repeat split; try apply H. exists []. rewrite app_nil_r. reflexivity.
  - destruct (open_any_ok libs r (library_part s)) as [(f & cs & r1 & F & O & A)|(_ & _ & _ & O)]; rewrite O in E.
    + destruct (position (items r1) (class_part s)) as [j|] eqn:P2; injection E as <- <-; exists r1; intros H HL; cbn [items] in HL; rewrite ?set_library_len in HL;
        destruct (after_open_inv _ _ _ _ H A HL) as (I & (l & X & _) & _).
      * split; [exact I|]. cbn [items names]. rewrite set_library_len. unfold names; cbn [items]. rewrite set_library_names. split; [reflexivity|]. split; [reflexivity|].
        split; [apply set_library_inv; exact I|]. exists (map i_name l). rewrite X, map_app. reflexivity.
      * split; [exact I|]. split; [reflexivity|]. split; [reflexivity|]. split; [exact I|]. exists (map i_name l). unfold names. rewrite X, map_app. reflexivity.
    + injection E as <- <-. exists r. intros H HL. repeat split; try apply H. exists []. rewrite app_nil_r. reflexivity.
Qed.
Lemma history_inv libs r : history libs r -> Inv r /\ Z.of_nat (length (items r)) < 2 ^ 32.
Proof.
  induction 1 as [|r name _ IH HL|r s k r' _ IH E HL].
  - split; [|reflexivity]. split; [intros [|k] p; discriminate|reflexivity].
  - destruct IH as (I & B). destruct (add_inv r name I B) as (I' & _). split; [exact I'|]. rewrite add_len. lia.
  - destruct (find_len _ _ _ _ _ E) as (r1 & G). destruct IH as (I & B). destruct (G I HL) as (_ & _ & _ & I' & _). auto.
Qed.
