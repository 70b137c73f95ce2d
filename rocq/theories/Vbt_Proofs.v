From Verif Require Import Vbt_Model Vbt_Spec.
From Coq Require Import List Arith ZArith Lia Bool.
Import ListNotations.
Open Scope Z_scope.

Lemma compare_ok a : forall b, (compare a b = 0 /\ a = b) \/ (compare a b = 1 /\ before a b) \/ (compare a b = 2 /\ before b a).
Proof.
  induction a as [|x a IH]; intros [|y b]; cbn [compare].
  - left. auto.
  - right. left. split; [reflexivity|constructor].
  - right. right. split; [reflexivity|constructor].
  - destruct (Z.ltb_spec x y); [right; left; split; [reflexivity|constructor; assumption]|]. destruct (Z.ltb_spec y x); [right; right; split; [reflexivity|constructor; assumption]|].
    assert (x = y) by lia. subst. destruct (IH b) as [[E C]|[[E C]|[E C]]]; rewrite E; [left; subst; auto|right; left|right; right]; (split; [reflexivity|apply B_same; exact C]).
Qed.
Lemma before_irrefl a : ~ before a a.
Proof. induction a; intros H; inversion H; subst; [lia|contradiction]. Qed.
Lemma before_asym a : forall b, before a b -> ~ before b a.
Proof. induction a; intros b H K; inversion H; subst; inversion K; subst; try lia. apply (IHa b0); assumption. Qed.
Lemma compare_1 a b : compare a b = 1 <-> before a b.
Proof.
  destruct (compare_ok a b) as [[E C]|[[E C]|[E C]]]; rewrite E; split; intros H; try discriminate; try reflexivity; try assumption.
  - subst. apply before_irrefl in H. contradiction.
  - exfalso. apply (before_asym _ _ C H).
Qed.
Lemma compare_2 a b : compare a b = 2 <-> before b a.
Proof.
  destruct (compare_ok a b) as [[E C]|[[E C]|[E C]]]; rewrite E; split; intros H; try discriminate; try reflexivity; try assumption.
  - subst. apply before_irrefl in H. contradiction.
  - exfalso. apply (before_asym _ _ C H).
Qed.
Lemma compare_0 a b : compare a b = 0 <-> a = b.
Proof.
  destruct (compare_ok a b) as [[E C]|[[E C]|[E C]]]; rewrite E; split; intros H; try discriminate; try reflexivity; try assumption; subst; exfalso; apply (before_irrefl _ C).
Qed.

Lemma pow10 d : 0 <= d -> 10 ^ (d + 1) = 10 * 10 ^ d.
Proof. intros H. rewrite Z.pow_add_r by lia. lia. Qed.
Lemma digits_ok f : forall n, 0 <= n < 10 ^ Z.of_nat (S f) -> 1 <= digits f n /\ n < 10 ^ digits f n /\ (digits f n = 1 \/ 10 ^ (digits f n - 1) <= n).
Proof.
  induction f as [|f IH]; intros n H.
  - cbn [digits]. change (10 ^ Z.of_nat 1) with 10 in H. change (10 ^ 1) with 10. lia.
  - cbn [digits]. destruct (Z.ltb_spec n 10); [change (10 ^ 1) with 10; lia|].
    assert (Q : 0 <= n / 10 < 10 ^ Z.of_nat (S f)).
    { split; [apply Z.div_pos; lia|]. apply Z.div_lt_upper_bound; [lia|]. rewrite <- pow10 by lia. replace (Z.of_nat (S f) + 1) with (Z.of_nat (S (S f))) by lia. lia. }
    destruct (IH (n / 10) Q) as (D1 & D2 & D3). set (d := digits f (n / 10)) in *. pose proof (Z.div_mod n 10 ltac:(lia)). pose proof (Z.mod_pos_bound n 10 ltac:(lia)).
    split; [lia|]. split; [replace (1 + d) with (d + 1) by lia; rewrite pow10 by lia; lia|]. right. replace (1 + d - 1) with d by lia.
    destruct D3 as [->|D3]; [change (10 ^ 1) with 10; lia|]. replace d with ((d - 1) + 1) by lia. rewrite pow10 by lia. lia.
Qed.
Lemma written_iff z c : Z.abs z < 2 ^ 64 -> (written z c <-> c = length_n z).
Proof.
  intros B. assert (Q : 0 <= Z.abs z < 10 ^ Z.of_nat 21) by (split; [lia|]; apply (Z.lt_trans _ (2 ^ 64)); [exact B|reflexivity]).
  destruct (digits_ok 20 (Z.abs z) Q) as (D1 & D2 & D3). unfold length_n. set (d := digits 20 (Z.abs z)) in *. clearbody d. clear Q B. split.
  - intros (e & E1 & E2 & E3 & ->). f_equal. destruct (Z.lt_trichotomy d e) as [L|[L|L]]; [exfalso| |exfalso]; [|lia|].
    + destruct E3 as [E3|E3]; [lia|]. assert (10 ^ d <= 10 ^ (e - 1)) by (apply Z.pow_le_mono_r; lia). lia.
    + destruct D3 as [D3|D3]; [lia|]. assert (10 ^ e <= 10 ^ (d - 1)) by (apply Z.pow_le_mono_r; lia). lia.
  - intros ->. exists d. auto.
Qed.

Lemma opt_iff {A} (o : option A) bad (P : A -> Prop) : (forall x, bad x = false <-> P x) -> (opt o bad = true <-> forall x, o = Some x -> P x).
Proof.
  intros H. unfold opt. destruct o as [x|]; [|split; [discriminate|reflexivity]]. rewrite negb_true_iff, H. split; [intros Q y E; injection E as <-; exact Q|intros Q; apply Q; reflexivity].
Qed.
Lemma ltb_le x y : (x <? y) = false <-> y <= x.
Proof. rewrite Z.ltb_ge. tauto. Qed.
Lemma eqb_not (a b : Z) P : (a = b <-> P) -> ((a =? b) = false <-> ~ P).
Proof. intros H. rewrite Z.eqb_neq. tauto. Qed.
Lemma list_iff {A} (o : option (list A)) (f : A -> bool) v : (forall x, f x = true <-> x = v) ->
  ((match o with Some l => existsb f l | None => true end) = true <-> forall l, o = Some l -> In v l).
Proof.
  intros H. destruct o as [l|]; [|split; [discriminate|reflexivity]]. rewrite existsb_exists. split.
  - intros (x & I & E) l' Q. injection Q as <-. apply H in E. subst. exact I.
  - intros Q. exists v. split; [apply Q; reflexivity|apply H; reflexivity].
Qed.

Definition okb (k : kind) (a : limits) (e : elem) : bool :=
  match k, e with Int _ _, Num z => check_n a z | Chr, Num z => check_c a z | Str, Ptr (Some t) => check_t a t | _, _ => true end.
Lemma okb_iff k a e : proper a -> of_kind k e -> (okb k a e = true <-> meets k a e).
Proof.
  intros P K. destruct k as [s b| | |]; destruct e as [z|[t|]]; cbn [of_kind] in K; try contradiction; cbn [okb meets].
  - unfold check_n, number_meets, size_meets. rewrite !andb_true_iff.
    rewrite (opt_iff (max_n a) _ (fun m => z <= m)) by (intros x; apply ltb_le). rewrite (opt_iff (min_n a) _ (fun m => m <= z)) by (intros x; apply ltb_le).
    rewrite (opt_iff (min_size a) _ (fun m => m <= length_n z)) by (intros x; apply ltb_le). rewrite (opt_iff (max_size a) _ (fun m => length_n z <= m)) by (intros x; apply ltb_le).
    rewrite (list_iff (values_n a) _ z) by (intros x; rewrite Z.eqb_eq; split; congruence). split.
    + intros ((((A & B) & C) & D) & E). repeat split; try assumption; intros x X; apply (written_iff z) in H; try exact K; subst; auto.
    + intros ((A & B & C) & D). destruct (D (length_n z)) as [D1 D2]; [apply written_iff; auto|]. tauto.
  - unfold check_c, number_meets, size_meets. rewrite !andb_true_iff.
    rewrite (opt_iff (max_n a) _ (fun m => z <= m)) by (intros x; apply ltb_le). rewrite (opt_iff (min_n a) _ (fun m => m <= z)) by (intros x; apply ltb_le).
    rewrite (opt_iff (min_size a) _ (fun m => m <= 1)) by (intros x; apply ltb_le).
    rewrite (opt_iff (max_size a) _ (fun m => m <> 0)) by (intros x; apply Z.eqb_neq). rewrite (list_iff (values_n a) _ z) by (intros x; rewrite Z.eqb_eq; split; congruence).
    split.
    + intros ((((A & B) & C) & D) & E). repeat split; try assumption. intros x X. specialize (D x X). specialize (P x X). lia.
    + intros ((A & B & C) & D & E). repeat split; try assumption. intros x X. specialize (E x X). lia.
  - unfold check_t, text_meets, size_meets. rewrite !andb_true_iff.
    rewrite (opt_iff (max_t a) _ (fun m => ~ before m t)) by (intros x; apply eqb_not; apply compare_1).
    rewrite (opt_iff (min_t a) _ (fun m => ~ before t m)) by (intros x; apply eqb_not; apply compare_2).
    rewrite (opt_iff (min_size a) _ (fun m => m <= Z.of_nat (length t))) by (intros x; apply ltb_le).
    rewrite (opt_iff (max_size a) _ (fun m => Z.of_nat (length t) <= m)) by (intros x; apply ltb_le).
    rewrite (list_iff (values_t a) _ t) by (intros x; rewrite Z.eqb_eq; apply compare_0). tauto.
Qed.

(** The loops *)
Lemma columns_ok a v i f n : forall j, (forall j', (j <= j' < j + n)%nat -> check a v i j' = Some (f j', true)) ->
  columns a v i j n = Some (forallb f (seq j n), true).
Proof.
  induction n as [|n IH]; intros j H; cbn [columns seq forallb]; [reflexivity|]. rewrite H by lia. destruct (f j) eqn:F; [|reflexivity]. cbn [andb]. apply IH. intros j' J. apply H. lia.
Qed.
Lemma lines_ok a v f m n : forall i, (forall i' j, (i <= i' < i + m)%nat -> (j < n)%nat -> check a v i' j = Some (f i' j, true)) ->
  lines a v i m n = Some (forallb (fun i => forallb (f i) (seq 0 n)) (seq i m), true).
Proof.
  induction m as [|m IH]; intros i H; cbn [lines seq forallb]; [reflexivity|]. rewrite (columns_ok a v i (f i) n 0) by (intros j J; apply H; lia).
  destruct (forallb (f i) (seq 0 n)); [|reflexivity]. cbn [andb]. apply IH. intros i' j I J. apply H; lia.
Qed.
Lemma loops m n f : forallb (fun i => forallb (f i) (seq 0 n)) (seq 0 m) = true <-> forall i j, (i < m)%nat -> (j < n)%nat -> f i j = true.
Proof.
  rewrite forallb_forall. split.
  - intros H i j I J. specialize (H i). rewrite in_seq, forallb_forall in H. apply H; [lia|]. apply in_seq. lia.
  - intros H i I. apply in_seq in I. apply forallb_forall. intros j J. apply in_seq in J. apply H; lia.
Qed.

Lemma nth_firstn {A} n (l : list A) : forall i e, nth_error (firstn n l) i = Some e <-> (i < n)%nat /\ nth_error l i = Some e.
Proof.
  revert l. induction n as [|n IH]; intros l i e.
  - cbn. destruct i; split; [discriminate|lia|discriminate|lia].
  - destruct l as [|x l]; cbn [firstn]; [destruct i; split; try discriminate; intros [_ H]; exact H|]. destruct i as [|i]; cbn [nth_error]; [split; [intros H; split; [lia|exact H]|tauto]|].
    rewrite IH. split; intros [P Q]; (split; [lia|exact Q]).
Qed.
Lemma in_nth {A} (l : list A) e : In e l <-> exists i, nth_error l i = Some e.
Proof. split; [apply In_nth_error|]. intros [i H]. apply (nth_error_In _ _ H). Qed.
Lemma nth_some {A} (l : list A) i : (i < length l)%nat -> exists e, nth_error l i = Some e.
Proof. intros H. destruct (nth_error l i) eqn:E; [eauto|]. apply nth_error_None in E. lia. Qed.
Lemma read_ok k l i e : nth_error l i = Some e -> of_kind k e -> read l i = Some (At e).
Proof. intros N K. unfold read. rewrite N. destruct e as [z|[t|]]; try reflexivity. destruct k; contradiction. Qed.

(** Where the loops go *)
Definition reach (v : value) (i j : nat) : Prop := (i < match dims v with 2%nat => n0 v | _ => n0 v end)%nat /\ (j < match dims v with 2%nat => n1 v | _ => n0 v end)%nat.
Lemma reached v i j : complete v -> (dims v = 2%nat -> n0 v = n1 v) -> reach v i j -> exists e, element v i j = Some (At e) /\ In e (elements v).
Proof.
  intros [K C] SQ [I J]. unfold element, elements in *. destruct (dims v) as [|[|[|d]]] eqn:D; [| | |contradiction].
  - destruct C as [_ C]. destruct (nth_some (block v) 0 C) as [e N]. exists e. assert (Q : In e (firstn 1 (block v))) by (apply in_nth; exists 0%nat; apply nth_firstn; split; [lia|exact N]).
    split; [|exact Q]. apply (read_ok (kd v)); [exact N|]. rewrite Forall_forall in K. apply K. exact Q.
  - destruct (Nat.ltb_spec j (n0 v)); [|lia]. destruct (nth_some (block v) j ltac:(lia)) as [e N]. exists e.
    assert (Q : In e (firstn (n0 v) (block v))) by (apply in_nth; exists j; apply nth_firstn; split; [lia|exact N]).
    split; [|exact Q]. apply (read_ok (kd v)); [exact N|]. rewrite Forall_forall in K. apply K. exact Q.
  - specialize (SQ eq_refl). destruct (Nat.ltb_spec i (n1 v)); [|lia]. destruct (static v) eqn:S.
    + destruct (Nat.ltb_spec j (n1 v)); [|lia]. destruct (nth_some (block v) (i * n0 v + j) ltac:(nia)) as [e N]. exists e.
      assert (Q : In e (firstn (n0 v * n1 v) (block v))) by (apply in_nth; exists (i * n0 v + j)%nat; apply nth_firstn; split; [nia|exact N]).
      split; [|exact Q]. apply (read_ok (kd v)); [exact N|]. rewrite Forall_forall in K. apply K. exact Q.
    + destruct C as [LR FR]. destruct (nth_some (rows v) i ltac:(lia)) as [r N]. rewrite N. destruct (Nat.ltb_spec j (n1 v)); [|lia].
      assert (LL : length r = n0 v) by (rewrite Forall_forall in FR; apply FR; apply (nth_error_In _ _ N)). destruct (nth_some r j ltac:(lia)) as [e M]. exists e.
      assert (Q : In e (concat (map (firstn (n0 v)) (firstn (n1 v) (rows v))))).
      { apply in_concat. exists (firstn (n0 v) r). split; [apply in_map; apply in_nth; exists i; apply nth_firstn; split; [lia|exact N]|]. apply in_nth. exists j. apply nth_firstn. split; [lia|exact M]. }
      split; [|exact Q]. apply (read_ok (kd v)); [exact M|]. rewrite Forall_forall in K. apply K. exact Q.
Qed.
Lemma covered v e : complete v -> (dims v = 2%nat -> n0 v = n1 v) -> In e (elements v) -> exists i j, reach v i j /\ element v i j = Some (At e).
Proof.
  intros [K C] SQ I. assert (KE : of_kind (kd v) e) by (rewrite Forall_forall in K; apply K; exact I). unfold element, elements, reach in *.
  destruct (dims v) as [|[|[|d]]] eqn:D; [| | |contradiction].
  - apply in_nth in I. destruct I as [i I]. apply nth_firstn in I. destruct I as [L N]. assert (i = 0%nat) by lia. subst. exists 0%nat, 0%nat. split; [lia|]. apply (read_ok (kd v)); assumption.
  - apply in_nth in I. destruct I as [i I]. apply nth_firstn in I. destruct I as [L N]. exists 0%nat, i. split; [lia|]. destruct (Nat.ltb_spec i (n0 v)); [|lia]. apply (read_ok (kd v)); assumption.
  - specialize (SQ eq_refl). destruct (static v) eqn:S.
    + apply in_nth in I. destruct I as [i I]. apply nth_firstn in I. destruct I as [L N]. assert (P : n0 v <> 0%nat) by nia.
      exists (i / n0 v)%nat, (i mod n0 v)%nat. pose proof (Nat.mod_upper_bound i (n0 v) P). pose proof (Nat.div_mod i (n0 v) P). assert (i / n0 v < n1 v)%nat by (apply Nat.div_lt_upper_bound; lia).
      split; [lia|]. destruct (Nat.ltb_spec (i / n0 v) (n1 v)); [|lia]. destruct (Nat.ltb_spec (i mod n0 v) (n1 v)); [|lia].
      apply (read_ok (kd v)); [|exact KE]. replace (i / n0 v * n0 v + i mod n0 v)%nat with i by lia. exact N.
    + apply in_concat in I. destruct I as (r' & R & I). apply in_map_iff in R. destruct R as (r & <- & R). apply in_nth in R. destruct R as [i R]. apply nth_firstn in R. destruct R as [LI NI].
      apply in_nth in I. destruct I as [j I]. apply nth_firstn in I. destruct I as [LJ NJ]. exists i, j. split; [lia|]. destruct (Nat.ltb_spec i (n1 v)); [|lia]. rewrite NI.
      destruct (Nat.ltb_spec j (n1 v)); [|lia]. apply (read_ok (kd v)); assumption.
Qed.

Theorem validate_ok v a : proper a -> complete v -> kd v <> Other -> (kd v = Int false 32 -> dims v = 0%nat) -> (dims v = 2%nat -> n0 v = n1 v) ->
  exists b, validate v (Some a) = Some b /\ (b = true <-> Forall (meets (kd v) a) (elements v)).
Proof.
  intros P C NO U SQ. pose proof C as [K CD].
  set (f := fun i j => match element v i j with Some (At e) => okb (kd v) a e | _ => true end).
  assert (CH : forall i j, reach v i j -> check a v i j = Some (f i j, true)).
  { intros i j R. destruct (reached v i j C SQ R) as (e & E & I). unfold check, f. rewrite E. assert (KE : of_kind (kd v) e) by (rewrite Forall_forall in K; apply K; exact I).
    assert (Q : (match kd v with Int false 32 => first v | _ => Some (At e) end) = Some (At e)).
    { destruct (kd v) as [s b| | |] eqn:KV; try reflexivity. destruct s; [reflexivity|]. destruct (Z.eq_dec b 32) as [->|NB].
      - specialize (U eq_refl). unfold first. rewrite U. unfold element in E. rewrite U in E. exact E.
      - destruct b as [|p|p]; try reflexivity. do 6 (destruct p as [p|p|]; try reflexivity). congruence. }
    rewrite Q. destruct (kd v) as [s b| | |], e as [z|[t|]]; try contradiction; try reflexivity. }
  assert (CNT : exists m n, count v (pred (dims v)) = Some n /\ count v (pred (pred (dims v))) = Some m /\ forall i j, reach v i j <-> (i < m)%nat /\ (j < n)%nat).
  { unfold reach. destruct (dims v) as [|[|[|d]]]; [| | |contradiction]; cbn [pred count nth_error]; eexists; eexists; (split; [reflexivity|split; [reflexivity|]]); intros; tauto. }
  destruct CNT as (m & n & C1 & C2 & RC). unfold validate. rewrite C1, C2. rewrite (lines_ok a v f m n 0) by (intros i j I J; apply CH; apply RC; lia).
  eexists. split; [reflexivity|]. rewrite loops, Forall_forall. split.
  - intros H e I. destruct (covered v e C SQ I) as (i & j & R & E). apply RC in R. specialize (H i j (proj1 R) (proj2 R)). unfold f in H. rewrite E in H.
    apply (okb_iff (kd v) a e P); [|exact H]. rewrite Forall_forall in K. apply K. exact I.
  - intros H i j I J. assert (R : reach v i j) by (apply RC; tauto). destruct (reached v i j C SQ R) as (e & E & IN). unfold f. rewrite E.
    apply (okb_iff (kd v) a e P); [|apply H; exact IN]. rewrite Forall_forall in K. apply K. exact IN.
Qed.
