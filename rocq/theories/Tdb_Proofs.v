(** Proofs about the database of the threads. *)
From Coq Require Import String Permutation.
From Verif Require Import Base Tdb_Model Tdb_Spec.

(** The entries of a table, in its order *)
Fixpoint occ (t : list cell) : list info :=
  match t with [] => [] | Used i :: t => i :: occ t | _ :: t => occ t end.
Definition tidy (t : list cell) : Prop := Forall (fun c => c <> Junk) t.

Lemma occ_app a b : occ (a ++ b) = occ a ++ occ b.
Proof. induction a as [|[|i|] a IH]; cbn; congruence. Qed.
Lemma occ_length t : (List.length (occ t) <= List.length t)%nat.
Proof. induction t as [|[|i|] t IH]; cbn; lia. Qed.
Lemma occ_free k : occ (repeat Free k) = [].
Proof. induction k; cbn; congruence. Qed.
Lemma tidy_free k : tidy (repeat Free k).
Proof. induction k; constructor; [discriminate|exact IHk]. Qed.

Lemma read_mid a c b k : k = Z.of_nat (List.length a) -> c <> Junk -> read (Some (a ++ c :: b)) k = Some c.
Proof.
  intros -> H. unfold read. rewrite app_length. cbn [List.length].
  replace (0 <=? Z.of_nat (List.length a)) with true by lia. replace (_ <? _) with true by lia. cbn [andb].
  rewrite Nat2Z.id, nth_error_app2 by lia. rewrite Nat.sub_diag. cbn. destruct c; congruence.
Qed.
Lemma set_mid a c b x : set_nth (a ++ c :: b) (List.length a) x = a ++ x :: b.
Proof. induction a as [|y a IH]; cbn; congruence. Qed.
Lemma write_mid a c b x k : k = Z.of_nat (List.length a) -> write (Some (a ++ c :: b)) k x = Some (a ++ x :: b).
Proof.
  intros ->. unfold write. rewrite app_length. cbn [List.length].
  replace (0 <=? Z.of_nat (List.length a)) with true by lia. replace (_ <? _) with true by lia. cbn [andb].
  rewrite Nat2Z.id, set_mid. reflexivity.
Qed.
Lemma u32_id z : 0 <= z < 2 ^ 32 -> u32 z = z.
Proof. apply uwrap_id. Qed.

(** Cleaning *)
Lemma clean_all b : forall a k, k = Z.of_nat (List.length a) -> Z.of_nat (List.length (a ++ b)) < 2 ^ 32 ->
  clean (List.length b) (Some (a ++ b)) k = Some (a ++ repeat Free (List.length b)).
Proof.
  induction b as [|c b IH]; intros a k E L; cbn [List.length clean repeat].
  - reflexivity.
  - rewrite write_mid by exact E. rewrite app_length in L. cbn [List.length] in L.
    rewrite u32_id by lia. change (a ++ Free :: b) with (a ++ [Free] ++ b). rewrite app_assoc, IH.
    + rewrite <- app_assoc. reflexivity.
    + rewrite app_length. cbn. lia.
    + rewrite !app_length. cbn. lia.
Qed.

(** Searching *)
Lemma search_from p n m b : forall a k fuel, k = Z.of_nat (List.length a) -> tidy b -> m = Z.of_nat (List.length (a ++ b)) -> m < 2 ^ 32 ->
  (List.length b <= fuel)%nat ->
  (search p fuel (Db n m (Some (a ++ b))) k = Some None /\ (forall i, In i (occ b) -> p i = false)) \/
  (exists x i y, b = x ++ Used i :: y /\ p i = true /\ search p fuel (Db n m (Some (a ++ b))) k = Some (Some (Z.of_nat (List.length (a ++ x)), i))).
Proof.
  induction b as [|c b IH]; intros a k fuel E T M L F.
  - left. rewrite app_nil_r in *. split; [|contradiction]. destruct fuel; cbn [search max_of]; replace (k <? m) with false by lia; reflexivity.
  - destruct fuel as [|fuel]; [cbn in F; lia|]. cbn [search max_of entries]. pose proof M as M'. rewrite app_length in M'. cbn [List.length] in M', F.
    replace (k <? m) with true by lia. pose proof (Forall_inv T) as Hc; pose proof (Forall_inv_tail T) as T'; cbv beta in Hc. rewrite read_mid by assumption. rewrite u32_id by lia.
    assert (R : a ++ c :: b = (a ++ [c]) ++ b) by (rewrite <- app_assoc; reflexivity).
    assert (G : (search p fuel (Db n m (Some (a ++ c :: b))) (k + 1) = Some None /\ (forall i, In i (occ b) -> p i = false)) \/
      (exists x i y, b = x ++ Used i :: y /\ p i = true /\ search p fuel (Db n m (Some (a ++ c :: b))) (k + 1) = Some (Some (Z.of_nat (List.length (a ++ c :: x)), i)))).
    { rewrite R. destruct (IH (a ++ [c]) (k + 1) fuel) as [[S0 S1]|(x & i & y & B & P & S0)].
      - rewrite app_length. cbn. lia.
      - exact T'.
      - rewrite <- R. exact M.
      - exact L.
      - lia.
      - left. auto.
      - right. exists x, i, y. rewrite S0. repeat split; auto. rewrite <- app_assoc. reflexivity. }
    destruct c as [|i0|]; [| |congruence].
    + destruct G as [[S0 S1]|(x & i & y & B & P & S0)].
      * left. split; [exact S0|exact S1].
      * right. exists (Free :: x), i, y. subst b. repeat split; auto.
    + destruct (p i0) eqn:P0.
      * right. exists [], i0, b. rewrite app_nil_r, <- E. repeat split; auto.
      * destruct G as [[S0 S1]|(x & i & y & B & P & S0)].
        -- left. split; [exact S0|]. intros i [<-|H]; auto.
        -- right. exists (Used i0 :: x), i, y. subst b. repeat split; auto.
Qed.

(** The places that NewEntry looks at *)
Lemma new_first i n m b : forall a k fuel, k = Z.of_nat (List.length a) -> tidy b -> m = Z.of_nat (List.length (a ++ b)) -> m < 2 ^ 32 - 1 ->
  1 <= n <= k -> (List.length b <= fuel)%nat ->
  (exists x y, b = x ++ Free :: y /\ new_loop (S fuel) (Db n m (Some (a ++ b))) i k = Some (true, Db (n + 1) m (Some (a ++ x ++ Used i :: y)))) \/
  (List.length (occ b) = List.length b /\ (b <> [] -> new_loop (S fuel) (Db n m (Some (a ++ b))) i k = new_loop (S fuel - List.length b) (Db n m (Some (a ++ b))) i 0)).
Proof.
  induction b as [|c b IH]; intros a k fuel E T M L N F.
  - right. split; [reflexivity|congruence].
  - cbn [new_loop n_of max_of entries]. pose proof M as M'. rewrite app_length in M'. cbn [List.length] in M', F.
    rewrite (u32_id (n - 1)) by lia. replace (k =? n - 1) with false by lia.
    pose proof (Forall_inv T) as Hc; pose proof (Forall_inv_tail T) as T'; cbv beta in Hc. rewrite read_mid by assumption.
    destruct c as [|i0|]; [| |congruence].
    + left. exists [], b. rewrite write_mid by exact E. rewrite u32_id by lia. split; reflexivity.
    + rewrite (u32_id (k + 1)) by lia.
      destruct b as [|c' b'].
      * right. split; [reflexivity|]. intros _. cbn [List.length] in *. replace (m <=? k + 1) with true by lia.
        replace (k + 1 - m) with 0 by lia. replace (S fuel - 1)%nat with fuel by lia. reflexivity.
      * cbn [List.length] in *. replace (m <=? k + 1) with false by lia. destruct fuel as [|fuel]; [lia|].
        assert (R : a ++ Used i0 :: c' :: b' = (a ++ [Used i0]) ++ c' :: b') by (rewrite <- app_assoc; reflexivity).
        rewrite R. destruct (IH (a ++ [Used i0]) (k + 1) fuel) as [(x & y & B & S0)|[B S0]].
        -- rewrite app_length. cbn. lia.
        -- exact T'.
        -- rewrite <- R. exact M.
        -- exact L.
        -- lia.
        -- cbn. lia.
        -- left. exists (Used i0 :: x), y. rewrite S0, B. split; [reflexivity|]. rewrite <- app_assoc. reflexivity.
        -- right. split; [cbn [occ List.length] in *; lia|]. intros _. rewrite S0 by discriminate. cbn [List.length]. reflexivity.
Qed.
Lemma new_second i n m c0 d b : forall a k fuel, k = Z.of_nat (List.length a) -> tidy (b ++ c0 :: d) -> m = Z.of_nat (List.length (a ++ b ++ c0 :: d)) -> m < 2 ^ 32 - 1 ->
  n - 1 = Z.of_nat (List.length (a ++ b)) -> (List.length b <= fuel)%nat ->
  (exists x y, b = x ++ Free :: y /\ new_loop (S fuel) (Db n m (Some (a ++ b ++ c0 :: d))) i k = Some (true, Db (n + 1) m (Some (a ++ x ++ Used i :: y ++ c0 :: d)))) \/
  (List.length (occ b) = List.length b /\ new_loop (S fuel) (Db n m (Some (a ++ b ++ c0 :: d))) i k = Some (false, Db n m (Some (a ++ b ++ c0 :: d)))).
Proof.
  induction b as [|c b IH]; intros a k fuel E T M L N F.
  - right. rewrite app_nil_r in *. split; [reflexivity|]. cbn [app] in *. rewrite app_length in M. cbn [List.length] in M. cbn [new_loop n_of max_of entries app]. rewrite u32_id by lia. replace (k =? n - 1) with true by lia. reflexivity.
  - cbn [new_loop n_of max_of entries app]. pose proof M as M'. rewrite !app_length in M', N. cbn [List.length] in M', N, F. rewrite app_length in M'. cbn [List.length] in M'.
    rewrite (u32_id (n - 1)) by lia. replace (k =? n - 1) with false by lia.
    pose proof (Forall_inv T) as Hc; pose proof (Forall_inv_tail T) as T'; cbv beta in Hc. subst k. rewrite read_mid by (assumption || reflexivity).
    destruct c as [|i0|]; [| |congruence].
    + left. exists [], b. rewrite write_mid by reflexivity. rewrite u32_id by lia. split; reflexivity.
    + rewrite (u32_id (_ + 1)) by lia. replace (_ <=? _ + 1) with false by lia. destruct fuel as [|fuel]; [lia|].
      assert (R : a ++ Used i0 :: b ++ c0 :: d = (a ++ [Used i0]) ++ b ++ c0 :: d) by (rewrite <- app_assoc; reflexivity).
      cbn [app] in *. rewrite R. destruct (IH (a ++ [Used i0]) (Z.of_nat (List.length a) + 1) fuel) as [(x & y & B & S0)|[B S0]].
      * rewrite app_length. cbn. lia.
      * exact T'.
      * rewrite <- R. exact M.
      * exact L.
      * rewrite !app_length. cbn. lia.
      * lia.
      * left. exists (Used i0 :: x), y. rewrite S0, B. split; [reflexivity|]. rewrite <- app_assoc. reflexivity.
      * right. split; [cbn [occ List.length] in *; lia|]. exact S0.
Qed.
