(** What each matrix operation leaves in memory. *)
From Verif Require Import Base Mtx_Model Mtx_Spec Mtx_Loops.
Open Scope nat_scope.

Section mem.
  Context {T : Type}.
  Variable O : ops T.

  Lemma in_cell v i j : i < nrows v -> j < ncols v -> inside v (cell v i j).
  Proof. intros Hi Hj. exists i, j. auto. Qed.

  Lemma not_cell v a : ~ inside v a -> forall i j, i < nrows v -> j < ncols v -> a <> cell v i j.
  Proof. intros N i j Hi Hj ->. apply N. apply in_cell; assumption. Qed.

  (** A disjoint cell is not one of the written ones. *)
  Lemma apart_cells v w i j i' j' : disjoint v w -> i < nrows v -> j < ncols v -> i' < nrows w -> j' < ncols w -> cell w i' j' <> cell v i j.
  Proof. intros D Hi Hj Hi' Hj' E. apply (D (cell v i j)); [apply in_cell; assumption|]. rewrite <- E. apply in_cell; assumption. Qed.

  Lemma dot_loop (x y : nat -> Z) K r (m : memory T) : (forall k, k < K -> x k <> r /\ y k <> r) ->
    loop K (fun k m => set m r (add O (m r) (mul O (m (x k)) (m (y k))))) (set m r (zero O)) r
      = loop K (fun k acc => add O acc (mul O (m (x k)) (m (y k)))) (zero O)
    /\ forall a, a <> r -> loop K (fun k m => set m r (add O (m r) (mul O (m (x k)) (m (y k))))) (set m r (zero O)) a = m a.
  Proof.
    intros H. induction K as [|K IH].
    - cbn [loop]. split; [apply set_same|]. intros a Ha. apply set_other. exact Ha.
    - destruct IH as [I1 I2]; [intros k Hk; apply H; lia|]. cbn [loop]. split.
      + rewrite set_same, I1. destruct (H K ltac:(lia)) as [X Y]. rewrite (I2 _ X), (I2 _ Y). reflexivity.
      + intros a Ha. rewrite set_other by exact Ha. apply I2. exact Ha.
  Qed.

  Lemma product_mem this factor result m : nrows factor = ncols this -> nrows result = nrows this -> ncols result = ncols factor ->
    apart result -> disjoint result this -> disjoint result factor ->
    exists m', product O this factor result m = (true, m') /\ only result m m'
      /\ forall i j, i < nrows this -> j < ncols factor ->
           m' (cell result i j) = loop (ncols this) (fun k acc => add O acc (mul O (m (cell this i k)) (m (cell factor k j)))) (zero O).
  Proof.
    intros E1 E2 E3 A D1 D2. unfold product. rewrite E1, E2, E3, !Nat.eqb_refl. cbn [andb]. eexists. split; [reflexivity|].
    edestruct (@fill T (memory T) (fun m => m) (nrows this) (ncols factor) (cell result)
      (fun i j m => loop (ncols this) (fun k m =>
                 set m (cell result i j) (add O (m (cell result i j)) (mul O (m (cell this i k)) (m (cell factor k j)))))
               (set m (cell result i j) (zero O)))
      (fun i j => loop (ncols this) (fun k acc => add O acc (mul O (m (cell this i k)) (m (cell factor k j)))) (zero O)) m) as [F1 F2].
    - intros i j i' j' Hi Hj Hi' Hj'. apply A; lia.
    - intros i j x Hi Hj Hx.
      destruct (dot_loop (fun k => cell this i k) (fun k => cell factor k j) (ncols this) (cell result i j) x) as [L1 L2].
      { intros k Hk. split; [apply (apart_cells result this)|apply (apart_cells result factor)]; try assumption; lia. }
      split; [|exact L2]. rewrite L1.
      assert (forall K, K <= ncols this ->
        loop K (fun k acc => add O acc (mul O (x (cell this i k)) (x (cell factor k j)))) (zero O)
        = loop K (fun k acc => add O acc (mul O (m (cell this i k)) (m (cell factor k j)))) (zero O)) as LK; [|apply LK; lia].
      induction K as [|K IH]; intros HK; [reflexivity|]. cbn [loop]. rewrite IH by lia.
      rewrite (Hx (cell this i K)), (Hx (cell factor K j)); [reflexivity| |].
      + intros i' j' B. unfold before in B. apply (apart_cells result factor); try assumption; lia.
      + intros i' j' B. unfold before in B. apply (apart_cells result this); try assumption; lia.
    - reflexivity.
    - split; [|exact F1]. intros a Na. apply F2. intros i j Hi Hj. apply (not_cell _ _ Na); lia.
  Qed.

  Lemma product_shape this factor result m : fst (product O this factor result m) = true <->
    nrows factor = ncols this /\ nrows result = nrows this /\ ncols result = ncols factor.
  Proof.
    unfold product. destruct (Nat.eqb_spec (nrows factor) (ncols this)), (Nat.eqb_spec (nrows result) (nrows this)),
      (Nat.eqb_spec (ncols result) (ncols factor)); cbn [andb fst]; intuition; discriminate.
  Qed.

  Lemma product_false this factor result m : fst (product O this factor result m) = false -> snd (product O this factor result m) = m.
  Proof. unfold product. destruct (_ && _ && _); [discriminate|reflexivity]. Qed.

  Lemma sum_mem this addend result m : nrows addend = nrows this -> nrows result = nrows this -> ncols addend = ncols this -> ncols result = ncols this ->
    apart result -> aligned result this -> aligned result addend ->
    exists m', sum O this addend result m = (true, m') /\ only result m m'
      /\ forall i j, i < nrows this -> j < ncols this -> m' (cell result i j) = add O (m (cell this i j)) (m (cell addend i j)).
  Proof.
    intros E1 E2 E3 E4 A D1 D2. unfold sum. rewrite E1, E2, E3, E4, !Nat.eqb_refl. cbn [andb]. eexists. split; [reflexivity|].
    edestruct (@fill T (memory T) (fun m => m) (nrows this) (ncols this) (cell result)
      (fun i j m => set m (cell result i j) (add O (m (cell this i j)) (m (cell addend i j))))
      (fun i j => add O (m (cell this i j)) (m (cell addend i j))) m) as [F1 F2].
    - intros i j i' j' Hi Hj Hi' Hj'. apply A; lia.
    - intros i j x Hi Hj Hx. split; [|intros a Ha; apply set_other; exact Ha].
      rewrite set_same. rewrite (Hx (cell this i j)), (Hx (cell addend i j)); [reflexivity| |];
        intros i' j' B E; unfold before in B; symmetry in E.
      + apply D2 in E; lia.
      + apply D1 in E; lia.
    - reflexivity.
    - split; [|exact F1]. intros a Na. apply F2. intros i j Hi Hj. apply (not_cell _ _ Na); lia.
  Qed.

  Lemma sum_shape this addend result m : fst (sum O this addend result m) = true <->
    nrows addend = nrows this /\ nrows result = nrows this /\ ncols addend = ncols this /\ ncols result = ncols this.
  Proof.
    unfold sum. destruct (Nat.eqb_spec (nrows addend) (nrows this)), (Nat.eqb_spec (nrows result) (nrows this)),
      (Nat.eqb_spec (ncols addend) (ncols this)), (Nat.eqb_spec (ncols result) (ncols this)); cbn [andb fst]; intuition; discriminate.
  Qed.

  Lemma sum_false this addend result m : fst (sum O this addend result m) = false -> snd (sum O this addend result m) = m.
  Proof. unfold sum. destruct (_ && _ && _); [discriminate|reflexivity]. Qed.

  Lemma copy_mem this from m : nrows from = nrows this -> ncols from = ncols this -> apart this -> aligned this from ->
    exists m', copy this from m = (true, m') /\ only this m m'
      /\ forall i j, i < nrows this -> j < ncols this -> m' (cell this i j) = m (cell from i j) :> T.
  Proof.
    intros E1 E2 A D. unfold copy. rewrite E1, E2, !Nat.eqb_refl. cbn [andb]. eexists. split; [reflexivity|].
    edestruct (@fill T (memory T) (fun m => m) (nrows this) (ncols this) (cell this)
      (fun i j m => set m (cell this i j) (m (cell from i j))) (fun i j => m (cell from i j)) m) as [F1 F2].
    - intros i j i' j' Hi Hj Hi' Hj'. apply A; lia.
    - intros i j x Hi Hj Hx. split; [|intros a Ha; apply set_other; exact Ha].
      rewrite set_same. apply Hx. intros i' j' B E. unfold before in B. symmetry in E. apply D in E; lia.
    - reflexivity.
    - split; [|exact F1]. intros a Na. apply F2. intros i j Hi Hj. apply (not_cell _ _ Na); lia.
  Qed.

  Lemma copy_shape this from (m : memory T) : fst (copy this from m) = true <-> nrows from = nrows this /\ ncols from = ncols this.
  Proof.
    unfold copy. destruct (Nat.eqb_spec (nrows from) (nrows this)), (Nat.eqb_spec (ncols from) (ncols this)); cbn [andb fst]; intuition; discriminate.
  Qed.

  Lemma copy_false this from (m : memory T) : fst (copy this from m) = false -> snd (copy this from m) = m.
  Proof. unfold copy. destruct (_ && _); [discriminate|reflexivity]. Qed.

  Lemma submatrix_mem this r0 r1 c0 c1 sub m : r0 <= r1 -> c0 <= c1 -> r1 < nrows this -> c1 < ncols this ->
    nrows sub = r1 - r0 + 1 -> ncols sub = c1 - c0 + 1 -> apart sub -> disjoint sub this ->
    exists m', submatrix this r0 r1 c0 c1 sub m = (true, m') /\ only sub m m'
      /\ forall i j, i < nrows sub -> j < ncols sub -> m' (cell sub i j) = m (cell this (r0 + i) (c0 + j)) :> T.
  Proof.
    intros H1 H2 H3 H4 E1 E2 A D. unfold submatrix.
    rewrite (proj2 (Nat.leb_le _ _) H1), (proj2 (Nat.leb_le _ _) H2), (proj2 (Nat.ltb_lt _ _) H3), (proj2 (Nat.ltb_lt _ _) H4), E1, E2, !Nat.eqb_refl.
    cbn [andb]. eexists. split; [reflexivity|].
    edestruct (@fill T (memory T) (fun m => m) (r1 - r0 + 1) (c1 - c0 + 1) (cell sub)
      (fun i j m => set m (cell sub i j) (m (cell this (r0 + i) (c0 + j)))) (fun i j => m (cell this (r0 + i) (c0 + j))) m) as [F1 F2].
    - intros i j i' j' Hi Hj Hi' Hj'. apply A; lia.
    - intros i j x Hi Hj Hx. split; [|intros a Ha; apply set_other; exact Ha].
      rewrite set_same. apply Hx. intros i' j' B. unfold before in B. apply (apart_cells sub this); try assumption; lia.
    - reflexivity.
    - split; [|exact F1]. intros a Na. apply F2. intros i j Hi Hj. apply (not_cell _ _ Na); lia.
  Qed.

  Lemma submatrix_shape this r0 r1 c0 c1 sub (m : memory T) : fst (submatrix this r0 r1 c0 c1 sub m) = true <->
    r0 <= r1 < nrows this /\ c0 <= c1 < ncols this /\ nrows sub = r1 - r0 + 1 /\ ncols sub = c1 - c0 + 1.
  Proof.
    unfold submatrix. destruct (Nat.leb_spec r0 r1), (Nat.leb_spec c0 c1), (Nat.ltb_spec r1 (nrows this)), (Nat.ltb_spec c1 (ncols this)),
      (Nat.eqb_spec (nrows sub) (r1 - r0 + 1)), (Nat.eqb_spec (ncols sub) (c1 - c0 + 1)); cbn [andb fst]; split; intros; try discriminate; lia.
  Qed.

  Lemma submatrix_false this r0 r1 c0 c1 sub (m : memory T) : fst (submatrix this r0 r1 c0 c1 sub m) = false -> snd (submatrix this r0 r1 c0 c1 sub m) = m.
  Proof. unfold submatrix. destruct (_ && _ && _ && _); [destruct (_ && _)|]; [discriminate|reflexivity|reflexivity]. Qed.

  Lemma transpose_mem this tr m : nrows this = ncols tr -> ncols this = nrows tr -> apart tr -> disjoint tr this ->
    exists m', transpose this tr m = (true, m') /\ only tr m m'
      /\ forall i j, i < nrows this -> j < ncols this -> m' (cell tr j i) = m (cell this i j) :> T.
  Proof.
    intros E1 E2 A D. unfold transpose. rewrite E1, E2, !Nat.eqb_refl. cbn [andb]. eexists. split; [reflexivity|].
    edestruct (@fill T (memory T) (fun m => m) (ncols tr) (nrows tr) (fun i j => cell tr j i)
      (fun i j m => set m (cell tr j i) (m (cell this i j))) (fun i j => m (cell this i j)) m) as [F1 F2].
    - intros i j i' j' Hi Hj Hi' Hj' E. apply A in E; lia.
    - intros i j x Hi Hj Hx. split; [|intros a Ha; apply set_other; exact Ha].
      rewrite set_same. apply Hx. intros i' j' B. unfold before in B. apply (apart_cells tr this); try assumption; lia.
    - reflexivity.
    - split; [|exact F1]. intros a Na. apply F2. intros i j Hi Hj. apply (not_cell _ _ Na); lia.
  Qed.

  Lemma transpose_shape this tr (m : memory T) : fst (transpose this tr m) = true <-> nrows tr = ncols this /\ ncols tr = nrows this.
  Proof.
    unfold transpose. destruct (Nat.eqb_spec (nrows this) (ncols tr)), (Nat.eqb_spec (ncols this) (nrows tr)); cbn [andb fst]; split; intros; try discriminate; try reflexivity; lia.
  Qed.

  Lemma transpose_false this tr (m : memory T) : fst (transpose this tr m) = false -> snd (transpose this tr m) = m.
  Proof. unfold transpose. destruct (_ && _); [discriminate|reflexivity]. Qed.

  Lemma inverse_mem this inv m n d : nrows this = n -> ncols this = n -> nrows inv = n -> ncols inv = n ->
    determinant O this m = Some d -> is0 O d = false -> apart inv -> disjoint inv this ->
    exists m', inverse O this inv m = (true, m') /\ only inv m m'
      /\ forall i j, i < n -> j < n -> m' (cell inv j i) =
           div O (mul O (det O (n - 1) (fun r c => m (cell this (skip i r) (skip j c)))) (sign O (i + j))) d.
  Proof.
    intros E1 E2 E3 E4 Ed Z0 A D. unfold inverse. rewrite Ed, E1, E2, E3, E4, !Nat.eqb_refl, Z0. cbn [andb negb]. eexists. split; [reflexivity|].
    edestruct (@fill T (memory T * @fresh T) fst n n (fun i j => cell inv j i)
      (fun i j st => let s := minor_into n i j (elements this (fst st)) (snd st) in
                    (set (fst st) (cell inv j i) (div O (mul O (det O (n - 1) s) (sign O (i + j))) d), s))
      (fun i j => div O (mul O (det O (n - 1) (fun r c => m (cell this (skip i r) (skip j c)))) (sign O (i + j))) d) m) as [F1 F2].
    - intros i j i' j' Hi Hj Hi' Hj' E. apply A in E; lia.
    - intros i j x Hi Hj Hx. cbn zeta. cbn [fst]. split; [|intros a Ha; apply set_other; exact Ha].
      rewrite set_same. do 2 f_equal. apply det_ext. intros r c Hr Hc. rewrite minor_into_spec by assumption.
      unfold elements. apply Hx. intros i' j' B. unfold before in B. apply (apart_cells inv this); try assumption; try lia.
      + unfold skip. destruct (Nat.ltb_spec r i); lia.
      + unfold skip. destruct (Nat.ltb_spec c j); lia.
    - instantiate (1 := (m, fun _ _ => junk O)). reflexivity.
    - split; [|exact F1]. intros a Na. apply F2. intros i j Hi Hj. apply (not_cell _ _ Na); lia.
  Qed.

  Lemma inverse_true this inv m : fst (inverse O this inv m) = true <->
    ncols this = nrows this /\ nrows inv = nrows this /\ ncols inv = nrows this
    /\ exists d, determinant O this m = Some d /\ is0 O d = false.
  Proof.
    unfold inverse, determinant.
    destruct (Nat.eqb_spec (ncols this) (nrows this)) as [E|], (Nat.eqb_spec (nrows inv) (nrows this)), (Nat.eqb_spec (ncols inv) (ncols this));
      cbn [andb fst]; try (split; [discriminate|]; intros; exfalso; lia).
    rewrite E, Nat.eqb_refl. cbn [andb]. destruct (is0 O _) eqn:Z0; cbn [negb fst].
    - split; [discriminate|]. intros [_ [_ [_ [d [H1 H2]]]]]. injection H1 as <-. congruence.
    - split; [|reflexivity]. intros _. split; [reflexivity|]. split; [assumption|]. split; [lia|]. eexists. split; [reflexivity|exact Z0].
  Qed.

  Lemma inverse_false this inv m : fst (inverse O this inv m) = false -> snd (inverse O this inv m) = m.
  Proof. unfold inverse. destruct (_ && _ && _ && _ && _); [discriminate|reflexivity]. Qed.
End mem.
