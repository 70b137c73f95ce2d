(** The loops of the matrix operations. *)
From Verif Require Import Base Mtx_Model Mtx_Spec.
Open Scope nat_scope.

Lemma loop_inv {A} (P : nat -> A -> Prop) n body a : P 0 a -> (forall k x, k < n -> P k x -> P (S k) (body k x)) -> P n (loop n body a).
Proof.
  intros H0 H. assert (forall k, k <= n -> P k (loop k body a)) as G; [|apply G; lia].
  induction k as [|k IH]; intros Hk; [exact H0|]. cbn [loop]. apply H; [lia|]. apply IH. lia.
Qed.

Lemma set_same {T} (m : memory T) a x : set m a x a = x.
Proof. unfold set. rewrite Z.eqb_refl. reflexivity. Qed.

Lemma set_other {T} (m : memory T) a x b : b <> a -> set m a x b = m b.
Proof. intros H. unfold set. destruct (Z.eqb_spec b a); [contradiction|reflexivity]. Qed.

(** Two nested loops that write element (i, j) at [c i j], reading nothing that was written. *)
Section fill.
  Context {T A : Type}.
  Variable proj : A -> memory T.
  Variables (R C : nat) (c : nat -> nat -> Z) (body : nat -> nat -> A -> A) (val : nat -> nat -> T) (m0 : memory T).

  Definition before (i j i' j' : nat) : Prop := i' < i /\ j' < C \/ i' = i /\ j' < j.

  Hypothesis inj : forall i j i' j', i < R -> j < C -> i' < R -> j' < C -> c i j = c i' j' -> i = i' /\ j = j'.
  Hypothesis step : forall i j x, i < R -> j < C ->
    (forall a, (forall i' j', before i j i' j' -> a <> c i' j') -> proj x a = m0 a) ->
    proj (body i j x) (c i j) = val i j /\ forall a, a <> c i j -> proj (body i j x) a = proj x a.

  Definition state (i j : nat) (x : A) : Prop :=
    (forall i' j', before i j i' j' -> proj x (c i' j') = val i' j')
    /\ (forall a, (forall i' j', before i j i' j' -> a <> c i' j') -> proj x a = m0 a).

  Lemma fill_row i x : i < R -> state i 0 x -> state i C (loop C (body i) x).
  Proof.
    intros Hi H. apply (loop_inv (fun j x => state i j x)); [exact H|].
    intros j y Hj [S1 S2]. destruct (step i j y Hi Hj S2) as [E1 E2]. split.
    - intros i' j' B. destruct (Nat.eq_dec i' i) as [->|N1]; [destruct (Nat.eq_dec j' j) as [->|N2]|].
      + exact E1.
      + unfold before in B. rewrite E2; [apply S1; unfold before; lia|].
        intros E. apply inj in E; lia.
      + unfold before in B. rewrite E2; [apply S1; unfold before; lia|].
        intros E. apply inj in E; lia.
    - intros a H0. rewrite E2.
      + apply S2. intros i' j' B. apply H0. unfold before in *. lia.
      + apply H0. unfold before. lia.
  Qed.

  Lemma fill x0 : proj x0 = m0 ->
    (forall i j, i < R -> j < C -> proj (loop R (fun i => loop C (body i)) x0) (c i j) = val i j)
    /\ (forall a, (forall i j, i < R -> j < C -> a <> c i j) -> proj (loop R (fun i => loop C (body i)) x0) a = m0 a).
  Proof.
    intros E0.
    assert (state R 0 (loop R (fun i => loop C (body i)) x0)) as [S1 S2].
    { apply (loop_inv (fun i x => state i 0 x)).
      - split; [intros i' j' B; unfold before in B; lia|]. intros a _. rewrite E0. reflexivity.
      - intros i x Hi H. destruct (fill_row i x Hi H) as [S1 S2]. split.
        + intros i' j' B. apply S1. unfold before in *. lia.
        + intros a H0. apply S2. intros i' j' B. apply H0. unfold before in *. lia. }
    split.
    - intros i j Hi Hj. apply S1. unfold before. lia.
    - intros a Ha. apply S2. intros i' j' B. unfold before in B. apply Ha; lia.
  Qed.
End fill.

(** ** Rows without a column *)
Section rows.
  Context {T : Type}.

  Definition width (cols k : nat) : nat := if cols <=? k then cols else cols - 1.

  Lemma copy_row_spec cols k n (row : nat -> T) s r c :
    copy_row cols k n row s r c = if (r =? n) && (c <? width cols k) then row (skip k c) else s r c.
  Proof.
    unfold copy_row.
    set (body := fun j (st : fresh * nat) => if j =? k then st else (put (fst st) n (snd st) (row j), S (snd st))).
    assert (snd (loop cols body (s, 0)) = width cols k
      /\ forall r c, fst (loop cols body (s, 0)) r c = if (r =? n) && (c <? width cols k) then row (skip k c) else s r c) as H.
    { apply (loop_inv (fun j st => snd st = width j k /\ forall r c, fst st r c = if (r =? n) && (c <? width j k) then row (skip k c) else s r c)).
      - unfold width. cbn. split; [reflexivity|]. intros r' c'. rewrite andb_false_r. reflexivity.
      - intros j st Hj [E1 E2]. unfold body. destruct (Nat.eqb_spec j k) as [->|N].
        + assert (width (S k) k = width k k) as W.
          { unfold width. rewrite Nat.leb_refl. destruct (Nat.leb_spec (S k) k); lia. }
          rewrite W. split; assumption.
        + assert (width (S j) k = S (width j k)) as W.
          { unfold width. destruct (Nat.leb_spec (S j) k), (Nat.leb_spec j k); lia. }
          unfold fresh in *. cbn [fst snd]. rewrite W, E1. split; [reflexivity|].
          intros r' c'. unfold put. destruct (Nat.eqb_spec r' n) as [->|]; cbn [andb].
          * destruct (Nat.eqb_spec c' (width j k)) as [->|].
            -- destruct (Nat.ltb_spec (width j k) (S (width j k))); [|lia]. f_equal.
               unfold skip, width. destruct (Nat.leb_spec j k).
               ++ destruct (Nat.ltb_spec j k); lia.
               ++ destruct (Nat.ltb_spec (j - 1) k); lia.
            -- rewrite E2, Nat.eqb_refl. cbn [andb].
               destruct (Nat.ltb_spec c' (width j k)), (Nat.ltb_spec c' (S (width j k))); try reflexivity; lia.
          * rewrite E2. destruct (Nat.eqb_spec r' n); [contradiction|]. reflexivity. }
    apply H.
  Qed.

  Lemma first_minor_spec (O : ops T) n k a r c : k < n -> r < n - 1 -> c < n - 1 -> first_minor O n k a r c = a (S r) (skip k c).
  Proof.
    intros Hk Hr Hc. unfold first_minor.
    assert (width n k = n - 1) as W by (unfold width; destruct (Nat.leb_spec n k); lia).
    set (body := fun i (st : fresh * nat) => (copy_row n k (snd st) (a (S i)) (fst st), S (snd st))).
    assert (snd (loop (n - 1) body (fun _ _ => junk O, 0)) = n - 1
      /\ forall r c, r < n - 1 -> c < n - 1 -> fst (loop (n - 1) body (fun _ _ => junk O, 0)) r c = a (S r) (skip k c)) as H.
    { apply (loop_inv (fun i st => snd st = i /\ forall r c, r < i -> c < n - 1 -> fst st r c = a (S r) (skip k c))).
      - split; [reflexivity|]. intros; lia.
      - intros i st Hi [E1 E2]. unfold body. unfold fresh in *. cbn [fst snd]. rewrite E1. split; [reflexivity|].
        intros r' c' Hr' Hc'. rewrite copy_row_spec, W. destruct (Nat.eqb_spec r' i) as [->|].
        + destruct (Nat.ltb_spec c' (n - 1)); [reflexivity|lia].
        + cbn [andb]. apply E2; lia. }
    apply H; assumption.
  Qed.

  Lemma minor_into_spec n i j (a s : @fresh T) r c : i < n -> j < n -> r < n - 1 -> c < n - 1 ->
    minor_into n i j a s r c = a (skip i r) (skip j c).
  Proof.
    intros Hi Hj Hr Hc. unfold minor_into.
    assert (width n j = n - 1) as W by (unfold width; destruct (Nat.leb_spec n j); lia).
    assert (width n i = n - 1) as W' by (unfold width; destruct (Nat.leb_spec n i); lia).
    set (body := fun h (st : fresh * nat) => if h =? i then st else (copy_row n j (snd st) (a h) (fst st), S (snd st))).
    assert (snd (loop n body (s, 0)) = width n i
      /\ forall r c, r < width n i -> c < n - 1 -> fst (loop n body (s, 0)) r c = a (skip i r) (skip j c)) as H.
    { apply (loop_inv (fun h st => snd st = width h i /\ forall r c, r < width h i -> c < n - 1 -> fst st r c = a (skip i r) (skip j c))).
      - unfold width. cbn. split; [reflexivity|]. intros; lia.
      - intros h st Hh [E1 E2]. unfold body. destruct (Nat.eqb_spec h i) as [->|N].
        + assert (width (S i) i = width i i) as V by (unfold width; rewrite Nat.leb_refl; destruct (Nat.leb_spec (S i) i); lia).
          rewrite V. split; assumption.
        + assert (width (S h) i = S (width h i)) as V by (unfold width; destruct (Nat.leb_spec (S h) i), (Nat.leb_spec h i); lia).
          unfold fresh in *. cbn [fst snd]. rewrite V, E1. split; [reflexivity|].
          intros r' c' Hr' Hc'. rewrite copy_row_spec, W. destruct (Nat.eqb_spec r' (width h i)) as [->|].
          * destruct (Nat.ltb_spec c' (n - 1)); [|lia]. cbn [andb]. f_equal.
            unfold skip, width. destruct (Nat.leb_spec h i).
            -- destruct (Nat.ltb_spec h i); lia.
            -- destruct (Nat.ltb_spec (h - 1) i); lia.
          * cbn [andb]. apply E2; lia. }
    rewrite W' in H. apply H; assumption.
  Qed.

  Lemma det_SS (O : ops T) n a : det O (S (S n)) a =
    loop (S (S n)) (fun k acc => add O acc (mul O (mul O (sign O k) (a 0 k)) (det O (S n) (first_minor O (S (S n)) k a)))) (zero O).
  Proof. reflexivity. Qed.

  (** The determinant depends on the elements only. *)
  Lemma det_ext (O : ops T) n : forall a b, (forall i j, i < n -> j < n -> a i j = b i j) -> det O n a = det O n b.
  Proof.
    induction n as [|n IH]; intros a b H; [reflexivity|]. destruct n as [|n]; [apply H; lia|].
    rewrite !det_SS. remember (S n) as p eqn:Ep.
    set (fa := fun k acc => add O acc (mul O (mul O (sign O k) (a 0 k)) (det O p (first_minor O (S p) k a)))).
    set (fb := fun k acc => add O acc (mul O (mul O (sign O k) (b 0 k)) (det O p (first_minor O (S p) k b)))).
    assert (forall q, q <= S p -> loop q fa (zero O) = loop q fb (zero O)) as L; [|apply L; lia].
    induction q as [|q IHq]; intros Hq; [reflexivity|]. cbn [loop]. rewrite IHq by lia. unfold fa, fb.
    rewrite (H 0 q) by lia. do 2 f_equal. apply IH. intros i j Hi Hj.
    rewrite !first_minor_spec by lia. apply H; [lia|]. unfold skip. destruct (Nat.ltb_spec j q); lia.
  Qed.
End rows.

(** ** Addresses *)
Lemma block_apart base r c : (Z.of_nat r * Z.of_nat c <= 2 ^ 32)%Z -> apart (block base r c).
Proof.
  intros L i j i' j' Hi Hj Hi' Hj' E. cbn [nrows ncols cell block] in *.
  rewrite !uwrap_id in E by nia. assert (i = i') by nia. subst i'. split; [reflexivity|]. lia.
Qed.

Lemma by_rows_apart ptrs c :
  (forall i i' : nat, i < List.length ptrs -> i' < List.length ptrs -> i <> i' ->
     (nth i ptrs 0%Z + Z.of_nat c <= nth i' ptrs 0%Z \/ nth i' ptrs 0%Z + Z.of_nat c <= nth i ptrs 0%Z)%Z) -> apart (by_rows ptrs c).
Proof.
  intros H i j i' j' Hi Hj Hi' Hj' E. cbn [nrows ncols cell by_rows] in *.
  destruct (Nat.eq_dec i i') as [->|N]; [split; [reflexivity|lia]|]. destruct (H i i' Hi Hi' N); lia.
Qed.
