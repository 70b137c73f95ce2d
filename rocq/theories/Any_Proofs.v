(** Proofs: the memory, the copies, and what CleanUp frees. *)
From Verif Require Import Any_Model Any_Spec.
From Coq Require Import List Arith ZArith Lia Bool.
Import ListNotations.
Open Scope nat_scope.

Definition live (h : heap) (i : nat) : Prop := get h i <> None.
Definition bounded (h : heap) : Prop := forall i, live h i -> i < next h.
Definition inr (lo hi i : nat) : bool := (lo <=? i) && (i <? hi).
Definition restr (h : heap) (lo hi : nat) : heap := Heap (next h) (filter (fun p => inr lo hi (fst p)) (blocks h)).
Definition ext (h h' : heap) : Prop := forall i b, get h i = Some b -> get h' i = Some b.

Lemma inr_true lo hi i : inr lo hi i = true <-> lo <= i < hi.
Proof. unfold inr. rewrite andb_true_iff, Nat.leb_le, Nat.ltb_lt. tauto. Qed.
Lemma inr_false lo hi i : inr lo hi i = false <-> ~ (lo <= i < hi).
Proof. rewrite <- inr_true. destruct (inr lo hi i); split; congruence. Qed.
Lemma lookup_filter f l i : lookup (filter (fun p => f (fst p)) l) i = if f i then lookup l i else None.
Proof.
  induction l as [|[j b] t IH]; cbn [filter lookup fst]; [destruct (f i); reflexivity|].
  destruct (f j) eqn:F; cbn [lookup]; destruct (Nat.eqb_spec j i) as [->|N]; try (rewrite F; reflexivity); rewrite IH; [reflexivity|rewrite F; reflexivity|reflexivity].
Qed.
Lemma get_restr h lo hi i : get (restr h lo hi) i = if inr lo hi i then get h i else None.
Proof. unfold get, restr. cbn [blocks]. apply (lookup_filter (inr lo hi)). Qed.
Lemma get_put h j b i : get (put h j b) i = if j =? i then Some b else get h i.
Proof. reflexivity. Qed.
Lemma free_ok h i : live h i -> exists h', free h i = Some h' /\ next h' = next h /\ forall j, get h' j = if i =? j then None else get h j.
Proof.
  intros L. unfold free, live in *. destruct (get h i); [|congruence]. eexists. split; [reflexivity|]. split; [reflexivity|].
  intros j. unfold get. cbn [blocks]. rewrite (lookup_filter (fun x => negb (x =? i))). rewrite Nat.eqb_sym. destruct (i =? j); reflexivity.
Qed.

(** Reading is monotone. *)
Lemma ext_refl h : ext h h. Proof. intros i b H. exact H. Qed.
Lemma ext_restr h lo hi : ext (restr h lo hi) h.
Proof. intros i b. rewrite get_restr. destruct (inr lo hi i); congruence. Qed.
Lemma ext_restr2 h h' lo hi lo' hi' : lo' <= lo -> hi <= hi' -> (forall i, lo <= i < hi -> get h' i = get h i) -> ext (restr h lo hi) (restr h' lo' hi').
Proof.
  intros A B H i b. rewrite !get_restr. destruct (inr lo hi i) eqn:E; [|congruence]. apply inr_true in E.
  assert (F : inr lo' hi' i = true) by (apply inr_true; lia). rewrite F, H by lia. tauto.
Qed.
Lemma load_ext h h' c n b : ext h h' -> load h c n = Some b -> load h' c n = Some b.
Proof. intros E. unfold load. destruct c; try congruence. destruct (get h i) eqn:G; [|congruence]. rewrite (E _ _ G). tauto. Qed.
Lemma text_ext h h' c t : ext h h' -> text_at h c = Some t -> text_at h' c = Some t.
Proof. intros E. unfold text_at. destruct c; try congruence. destruct (get h i) eqn:G; [|congruence]. rewrite (E _ _ G). tauto. Qed.
Lemma all_iff {A B} (f : A -> option B) l r : all f l = Some r <-> Forall2 (fun a b => f a = Some b) l r.
Proof.
  revert r. induction l as [|a t IH]; intros r; cbn [all].
  - split; [intros H; injection H as <-; constructor|inversion 1; reflexivity].
  - split.
    + destruct (f a) eqn:F; [|congruence]. destruct (all f t) eqn:G; [|congruence]. intros H; injection H as <-. constructor; [exact F|apply IH; reflexivity].
    + inversion 1; subst. rewrite H2. apply IH in H4. rewrite H4. reflexivity.
Qed.
Lemma F2_impl {A B} (P Q : A -> B -> Prop) l r : (forall a b, P a b -> Q a b) -> Forall2 P l r -> Forall2 Q l r.
Proof. intros H F. induction F; constructor; auto. Qed.
Lemma all_ext {A B} (f g : A -> option B) l r : (forall a b, f a = Some b -> g a = Some b) -> all f l = Some r -> all g l = Some r.
Proof. intros H. rewrite !all_iff. apply F2_impl. exact H. Qed.
Lemma texts_ext h h' n c t : ext h h' -> texts_at h n c = Some t -> texts_at h' n c = Some t.
Proof.
  intros E. unfold texts_at. destruct (load h c n) eqn:L; [|congruence]. rewrite (load_ext _ _ _ _ _ E L). apply all_ext. intros a b. apply text_ext; exact E.
Qed.
Lemma flat_ext h h' k c n v : ext h h' -> flat h k c n = Some v -> flat h' k c n = Some v.
Proof.
  intros E. unfold flat. destruct k; try congruence.
  - destruct (load h c (s * n)) eqn:L; [|cbn; congruence]. rewrite (load_ext _ _ _ _ _ E L). tauto.
  - destruct (texts_at h n c) eqn:L; [|cbn; congruence]. rewrite (texts_ext _ _ _ _ _ E L). tauto.
  - destruct (texts_at h n c) eqn:L; [|cbn; congruence]. rewrite (texts_ext _ _ _ _ _ E L). tauto.
Qed.
Lemma rows_ext h h' k c n m v : ext h h' -> by_rows h k c n m = Some v -> by_rows h' k c n m = Some v.
Proof.
  intros E. unfold by_rows. destruct (load h c m) as [cs|] eqn:L; [|congruence]. rewrite (load_ext _ _ _ _ _ E L). destruct k; try congruence.
  - destruct (all (fun c => load h c (s * n)) cs) as [r|] eqn:A; [|cbn; congruence]. rewrite (all_ext _ (fun c => load h' c (s * n)) _ r (fun a b => load_ext _ _ _ _ _ E) A). tauto.
  - destruct (all (texts_at h n) cs) as [r|] eqn:A; [|cbn; congruence]. rewrite (all_ext _ (texts_at h' n) _ r (fun a b => texts_ext _ _ _ _ _ E) A). tauto.
  - destruct (all (texts_at h n) cs) as [r|] eqn:A; [|cbn; congruence]. rewrite (all_ext _ (texts_at h' n) _ r (fun a b => texts_ext _ _ _ _ _ E) A). tauto.
Qed.
Lemma value_ext h h' d v : ext h h' -> value h d = Some v -> value h' d = Some v.
Proof.
  intros E. unfold value. destruct (nd d) as [|[|[|[|m]]]]; try congruence.
  - destruct (kd d); try congruence.
    + destruct (load h (ptr d) s) eqn:L; [|cbn; congruence]. rewrite (load_ext _ _ _ _ _ E L). tauto.
    + destruct (text_at h (ptr d)) eqn:L; [|congruence]. rewrite (text_ext _ _ _ _ E L). tauto.
    + destruct (text_at h (ptr d)) eqn:L; [|congruence]. rewrite (text_ext _ _ _ _ E L). tauto.
  - apply flat_ext; exact E.
  - destruct (static d); [apply flat_ext; exact E|apply rows_ext; exact E].
  - destruct (static d); [|congruence]. destruct (kd d); try congruence.
    destruct (load h (ptr d) (s * (n0 d * n1 d * n2 d))) eqn:L; [|cbn; congruence]. rewrite (load_ext _ _ _ _ _ E L). tauto.
Qed.

(** What a copy adds. *)
Record grow (h h' : heap) : Prop := Grow {
  g_next : next h <= next h'; g_old : forall i, i < next h -> get h' i = get h i;
  g_bound : bounded h'; g_live : forall i, next h <= i < next h' -> live h' i }.
Lemma grow_refl h : bounded h -> grow h h.
Proof. intros B. constructor; [lia|reflexivity|exact B|lia]. Qed.
Lemma grow_trans h1 h2 h3 : grow h1 h2 -> grow h2 h3 -> grow h1 h3.
Proof.
  intros A B. destruct A as [A1 A2 A3 A4], B as [B1 B2 B3 B4]. constructor; [lia| |exact B3|].
  - intros i L. rewrite B2 by lia. apply A2. exact L.
  - intros i L. destruct (le_lt_dec (next h2) i); [apply B4; lia|]. unfold live. rewrite B2 by lia. apply A4. lia.
Qed.
Lemma grow_ext h h' : bounded h -> grow h h' -> ext h h'.
Proof. intros B G i b E. rewrite (g_old _ _ G); [exact E|]. apply B. unfold live. congruence. Qed.
Lemma grow_alloc h b : bounded h -> grow h (snd (alloc h b)).
Proof.
  intros B. constructor; cbn [snd alloc next].
  - lia.
  - intros i L. unfold get. cbn [blocks lookup]. destruct (Nat.eqb_spec (next h) i); [lia|reflexivity].
  - intros i L. unfold live, get in L. cbn [blocks lookup] in L. cbn [next]. destruct (Nat.eqb_spec (next h) i); [lia|]. apply B in L. lia.
  - intros i L. assert (i = next h) by lia. subst. unfold live, get. cbn [blocks lookup]. rewrite Nat.eqb_refl. congruence.
Qed.
(** Writing a new block *)
Lemma grow_put h h' j b : grow h h' -> next h <= j < next h' -> grow h (put h' j b).
Proof.
  intros [A1 A2 A3 A4] J. constructor; cbn [put next]; [exact A1| | |].
  - intros i L. rewrite get_put. destruct (Nat.eqb_spec j i); [lia|apply A2; exact L].
  - intros i L. unfold live in L. rewrite get_put in L. cbn [put next]. destruct (Nat.eqb_spec j i); [lia|apply A3; exact L].
  - intros i L. unfold live. rewrite get_put. destruct (j =? i); [congruence|apply A4; exact L].
Qed.

Lemma text_zero b t : c_text b = Some t -> c_text (map Byte (t ++ [0%Z])) = Some t.
Proof.
  revert t. induction b as [|c b IH]; intros t; cbn [c_text]; [congruence|]. destruct c; try congruence. destruct (Z.eqb_spec z 0).
  - intros H; injection H as <-. reflexivity.
  - destruct (c_text b) eqn:E; [|congruence]. intros H; injection H as <-. cbn [app map c_text]. destruct (Z.eqb_spec z 0); [contradiction|].
    rewrite (IH l eq_refl). reflexivity.
Qed.

Lemma copy_token_ok h c t : bounded h -> text_at h c = Some t ->
  exists h', copy_token h c = Some (true, h', Addr (next h)) /\ next h' = S (next h) /\ grow h h' /\
    text_at (restr h' (next h) (next h')) (Addr (next h)) = Some t.
Proof.
  intros B T. unfold text_at in T. destruct c; try congruence. unfold copy_token. destruct (get h i) as [b|] eqn:G; [|congruence]. rewrite T.
  pose proof (grow_alloc h (map Byte (t ++ [0%Z])) B) as GA. unfold alloc in *. cbn [snd] in GA. eexists. split; [reflexivity|]. split; [reflexivity|]. split; [exact GA|].
  unfold text_at. rewrite get_restr. cbn [next]. assert (E : inr (next h) (S (next h)) (next h) = true) by (apply inr_true; lia). rewrite E.
  unfold get. cbn [blocks lookup]. rewrite Nat.eqb_refl. apply (text_zero b). exact T.
Qed.

Lemma copy_tokens_ok cs : forall h ts, bounded h -> Forall2 (fun c t => text_at h c = Some t) cs ts ->
  exists h', copy_tokens h cs = Some (true, h', map Addr (seq (next h) (length cs))) /\ next h' = next h + length cs /\ grow h h' /\
    Forall2 (fun c t => text_at (restr h' (next h) (next h')) c = Some t) (map Addr (seq (next h) (length cs))) ts.
Proof.
  induction cs as [|c cs IH]; intros h ts B F; inversion F; subst.
  - exists h. cbn. split; [reflexivity|]. split; [lia|]. split; [apply grow_refl; exact B|constructor].
  - destruct (copy_token_ok h c y B H1) as (h1 & E1 & N1 & G1 & T1).
    assert (F1 : Forall2 (fun c t => text_at h1 c = Some t) cs l') by (apply (F2_impl _ _ _ _ (fun a b => text_ext _ _ a b (grow_ext _ _ B G1)) H3)).
    destruct (IH h1 l' (g_bound _ _ G1) F1) as (h2 & E2 & N2 & G2 & T2).
    exists h2. cbn [copy_tokens length seq map]. rewrite E1, E2, N1. split; [reflexivity|]. split; [lia|]. split; [apply (grow_trans _ _ _ G1 G2)|].
    constructor.
    + refine (text_ext _ _ _ _ _ T1). apply ext_restr2; [lia|lia|]. intros i L. apply (g_old _ _ G2). lia.
    + rewrite N1 in T2. refine (F2_impl _ _ _ _ (fun a b => text_ext _ _ a b _) T2). apply ext_restr2; [lia|lia|]. reflexivity.
Qed.

Lemma inr_in lo hi i : lo <= i < hi -> inr lo hi i = true. Proof. apply inr_true. Qed.

Lemma copy_block_ok h c m b : bounded h -> 0 < m -> load h c m = Some b ->
  exists h', copy_block h c m = Some (true, h', Addr (next h)) /\ next h' = S (next h) /\ grow h h' /\ load (restr h' (next h) (next h')) (Addr (next h)) m = Some b.
Proof.
  intros B M L. unfold copy_block. destruct (Nat.eqb_spec m 0); [lia|]. pose proof (grow_alloc h (repeat Junk m) B) as GA. unfold alloc in *. cbn [snd] in GA.
  pose proof (load_ext _ _ _ _ _ (grow_ext _ _ B GA) L) as L1. rewrite L1. destruct c; try discriminate L. eexists. split; [reflexivity|]. split; [reflexivity|].
  split; [apply grow_put; [exact GA|cbn; lia]|]. unfold load. rewrite get_restr. cbn [put next]. rewrite inr_in by lia. rewrite get_put, Nat.eqb_refl.
  assert (LB : length b = m).
  { unfold load in L. destruct (get h i); [|congruence]. destruct (Nat.leb_spec m (length l)); [|congruence]. injection L as <-. apply firstn_length_le. exact H. }
  rewrite <- LB, Nat.leb_refl, firstn_all. reflexivity.
Qed.

Lemma load_len h c n b : load h c n = Some b -> length b = n.
Proof.
  unfold load. destruct c; try congruence. destruct (get h i); [|congruence]. destruct (Nat.leb_spec n (length l)); [|congruence].
  intros E; injection E as <-. apply firstn_length_le. exact H.
Qed.
Lemma load_full h i b : get h i = Some b -> load h (Addr i) (length b) = Some b.
Proof. intros G. unfold load. rewrite G, Nat.leb_refl, firstn_all. reflexivity. Qed.

Lemma copy_table_ok h c n ts : bounded h -> 0 < n -> texts_at h n c = Some ts ->
  exists h', copy_table h c n = Some (true, h', Addr (next h)) /\ next h' = S (next h) + n /\ grow h h' /\
    get h' (next h) = Some (map Addr (seq (S (next h)) n)) /\ texts_at (restr h' (next h) (next h')) n (Addr (next h)) = Some ts.
Proof.
  intros B M L. unfold copy_table. destruct (Nat.eqb_spec n 0); [lia|]. pose proof (grow_alloc h (repeat Junk n) B) as GA. unfold alloc in *. cbn [snd] in GA.
  apply (texts_ext _ _ _ _ _ (grow_ext _ _ B GA)) in L. set (h1 := {| next := S (next h); blocks := (next h, repeat Junk n) :: blocks h |}) in *.
  unfold texts_at in L. destruct (load h1 c n) as [cs|] eqn:LL; [|congruence]. pose proof (load_len _ _ _ _ LL) as LN. apply all_iff in L.
  destruct (copy_tokens_ok cs h1 ts (g_bound _ _ GA) L) as (h2 & E2 & N2 & G2 & T2). rewrite E2. rewrite LN in *. change (next h1) with (S (next h)) in *.
  exists (put h2 (next h) (map Addr (seq (S (next h)) n))). split; [reflexivity|]. split; [cbn [put next]; lia|].
  split; [apply grow_put; [apply (grow_trans _ _ _ GA G2)|lia]|]. rewrite get_put, Nat.eqb_refl. split; [reflexivity|].
  assert (W : forall i, S (next h) <= i < next h2 -> get (put h2 (next h) (map Addr (seq (S (next h)) n))) i = get h2 i).
  { intros i I. rewrite get_put. destruct (Nat.eqb_spec (next h) i); [lia|reflexivity]. }
  assert (X : get (restr (put h2 (next h) (map Addr (seq (S (next h)) n))) (next h) (next h2)) (next h) = Some (map Addr (seq (S (next h)) n))).
  { rewrite get_restr, inr_in by lia. rewrite get_put, Nat.eqb_refl. reflexivity. }
  unfold texts_at. change (next (put h2 (next h) (map Addr (seq (S (next h)) n)))) with (next h2).
  apply load_full in X. rewrite map_length, seq_length in X. rewrite X. apply all_iff. refine (F2_impl _ _ _ _ (fun a b => text_ext _ _ a b _) T2).
  apply ext_restr2; [lia|lia|exact W].
Qed.

(** The rows of a stored matrix *)
Definition wide (k : kind) (n : nat) : nat := if is_text k then n else 0.
Inductive Rows (h : heap) (k : kind) (n : nat) : list cell -> nat -> nat -> Prop :=
| R_nil a : Rows h k n [] a a
| R_cons a t b : (is_text k = true -> get h a = Some (map Addr (seq (S a) n))) -> (forall i, a <= i < S a + wide k n -> live h i) ->
    Rows h k n t (S a + wide k n) b -> Rows h k n (Addr a :: t) a b.
Lemma live_ext h h' i : ext h h' -> live h i -> live h' i.
Proof. unfold live. intros E L. destruct (get h i) eqn:G; [|congruence]. rewrite (E _ _ G). congruence. Qed.
Lemma Rows_ext h h' k n cs a b : ext h h' -> Rows h k n cs a b -> Rows h' k n cs a b.
Proof. intros E R. induction R; constructor; auto. intros i L. apply (live_ext h); auto. Qed.
Lemma Rows_le h k n cs a b : Rows h k n cs a b -> a <= b.
Proof. induction 1; lia. Qed.
Lemma Rows_live h k n cs a b : Rows h k n cs a b -> forall i, a <= i < b -> live h i.
Proof. induction 1; intros i I; [lia|]. destruct (lt_dec i (S a + wide k n)); [apply H0; lia|apply IHRows; lia]. Qed.

Lemma copy_flat_ok h k c n v : bounded h -> 0 < n -> 0 < size k -> flat h k c n = Some v ->
  exists h', copy_flat h k c n = Some (true, h', Addr (next h)) /\ next h' = S (next h) + wide k n /\ grow h h' /\
    (is_text k = true -> get h' (next h) = Some (map Addr (seq (S (next h)) n))) /\ flat (restr h' (next h) (next h')) k (Addr (next h)) n = Some v.
Proof.
  intros B N K F. assert (T : is_text k = true -> exists h', copy_flat h k c n = Some (true, h', Addr (next h)) /\ next h' = S (next h) + wide k n /\ grow h h' /\
    (is_text k = true -> get h' (next h) = Some (map Addr (seq (S (next h)) n))) /\ flat (restr h' (next h) (next h')) k (Addr (next h)) n = Some v).
  { intros T. unfold copy_flat, wide. rewrite T. assert (F' : exists ts, texts_at h n c = Some ts /\ v = Texts [ts]).
    { destruct k; cbn in T; try congruence; cbn [flat] in F; destruct (texts_at h n c); cbn in F; try congruence; injection F as <-; eauto. }
    destruct F' as (ts & F' & ->). destruct (copy_table_ok h c n ts B N F') as (h' & A1 & A2 & A3 & A4 & A5). exists h'. repeat split; try assumption; try apply A3; auto.
    unfold flat. destruct k; cbn in T; try congruence; rewrite A5; reflexivity. }
  destruct k; try (apply T; reflexivity); [|cbn in F; congruence]. clear T. cbn [flat] in F. unfold copy_flat, wide. cbn [is_text size] in *.
  destruct (load h c (s * n)) as [b|] eqn:L; cbn in F; [|congruence]. injection F as <-.
  destruct (copy_block_ok h c (s * n) b B ltac:(nia) L) as (h' & A1 & A2 & A3 & A4). exists h'. split; [exact A1|]. split; [lia|]. split; [exact A3|]. split; [discriminate|].
  cbn [flat]. rewrite A4. reflexivity.
Qed.

Lemma copy_rows_ok k n : 0 < n -> 0 < size k -> forall cs h vs, bounded h -> Forall2 (fun c v => flat h k c n = Some v) cs vs ->
  exists h' cs', copy_rows h k n cs = Some (true, h', cs') /\ grow h h' /\ length cs' = length cs /\ Rows (restr h' (next h) (next h')) k n cs' (next h) (next h') /\
    Forall2 (fun c v => flat (restr h' (next h) (next h')) k c n = Some v) cs' vs.
Proof.
  intros N K. induction cs as [|c cs IH]; intros h vs B F; inversion F; subst.
  - exists h, []. split; [reflexivity|]. split; [apply grow_refl; exact B|]. split; [reflexivity|]. split; constructor.
  - destruct (copy_flat_ok h k c n y B N K H1) as (h1 & E1 & N1 & G1 & X1 & T1).
    assert (F1 : Forall2 (fun c v => flat h1 k c n = Some v) cs l') by (apply (F2_impl _ _ _ _ (fun a b => flat_ext _ _ _ a _ b (grow_ext _ _ B G1)) H3)).
    destruct (IH h1 l' (g_bound _ _ G1) F1) as (h2 & cs2 & E2 & G2 & LN & R2 & T2). pose proof (g_next _ _ G2) as NN.
    assert (X : ext (restr h1 (next h) (next h1)) (restr h2 (next h) (next h2))).
    { apply ext_restr2; [lia|lia|]. intros i L. apply (g_old _ _ G2). lia. }
    assert (Y : ext (restr h2 (next h1) (next h2)) (restr h2 (next h) (next h2))) by (apply ext_restr2; [lia|lia|reflexivity]).
    exists h2, (Addr (next h) :: cs2). cbn [copy_rows]. rewrite E1, E2. split; [reflexivity|]. split; [apply (grow_trans _ _ _ G1 G2)|]. split; [cbn; lia|]. split.
    + constructor.
      * intros T. apply X. rewrite get_restr, inr_in by lia. apply X1. exact T.
      * intros i L. apply (live_ext _ _ _ X). unfold live. rewrite get_restr, inr_in by lia. apply (g_live _ _ G1). lia.
      * rewrite N1 in *. apply (Rows_ext _ _ _ _ _ _ _ Y). exact R2.
    + constructor; [apply (flat_ext _ _ _ _ _ _ X T1)|]. apply (F2_impl _ _ _ _ (fun a b => flat_ext _ _ _ a _ b Y) T2).
Qed.

Lemma by_rows_iff h k c n m v : by_rows h k c n m = Some v <->
  exists cs vs, load h c m = Some cs /\ Forall2 (fun c v => flat h k c n = Some v) cs vs /\
    match k with Plain _ => exists rs, vs = map (fun r => Bytes [r]) rs /\ v = Bytes rs | Pointer => False | _ => exists rs, vs = map (fun r => Texts [r]) rs /\ v = Texts rs end.
Proof.
  assert (GEN : forall A (f : cell -> option (list A)) (F : list (list A) -> content) cs rs,
    (forall r r', F [r] = F [r'] -> r = r') -> (Forall2 (fun c v => one F (f c) = Some v) cs (map (fun r => F [r]) rs) <-> all f cs = Some rs)).
  { intros A f F cs rs I. rewrite all_iff. revert rs. induction cs as [|x cs IH]; intros [|r rs]; cbn [map]; split; intros H; inversion H; subst; try constructor.
    - unfold one in H3. destruct (f x); [|congruence]. f_equal. apply I. congruence.
    - apply IH. assumption.
    - cbn. rewrite H3. reflexivity.
    - apply IH. assumption. }
  unfold by_rows. split.
  - destruct (load h c m) as [cs|] eqn:L; [|congruence]. destruct k; try congruence.
    + destruct (all (fun c => load h c (s * n)) cs) as [rs|] eqn:A; cbn; [|congruence]. intros H; injection H as <-. exists cs, (map (fun r => Bytes [r]) rs).
      split; [reflexivity|]. split; [|eauto]. apply (GEN cell (fun c => load h c (s * n)) Bytes); [congruence|exact A].
    + destruct (all (texts_at h n) cs) as [rs|] eqn:A; cbn; [|congruence]. intros H; injection H as <-. exists cs, (map (fun r => Texts [r]) rs).
      split; [reflexivity|]. split; [|eauto]. apply (GEN (list Z) (texts_at h n) Texts); [congruence|exact A].
    + destruct (all (texts_at h n) cs) as [rs|] eqn:A; cbn; [|congruence]. intros H; injection H as <-. exists cs, (map (fun r => Texts [r]) rs).
      split; [reflexivity|]. split; [|eauto]. apply (GEN (list Z) (texts_at h n) Texts); [congruence|exact A].
  - intros (cs & vs & -> & F & M). destruct k; [| | |contradiction]; destruct M as (rs & -> & ->).
    + apply (GEN cell (fun c => load h c (s * n)) Bytes) in F; [|congruence]. rewrite F. reflexivity.
    + apply (GEN (list Z) (texts_at h n) Texts) in F; [|congruence]. rewrite F. reflexivity.
    + apply (GEN (list Z) (texts_at h n) Texts) in F; [|congruence]. rewrite F. reflexivity.
Qed.

Lemma copy_matrix_ok h k c n m v : bounded h -> 0 < n -> 0 < m -> 0 < size k -> by_rows h k c n m = Some v ->
  exists h' cs, copy_matrix h k c n m = Some (true, h', Addr (next h)) /\ grow h h' /\ next h < next h' /\ length cs = m /\
    get h' (next h) = Some cs /\ Rows (restr h' (next h) (next h')) k n cs (S (next h)) (next h') /\
    by_rows (restr h' (next h) (next h')) k (Addr (next h)) n m = Some v.
Proof.
  intros B N M K F. unfold copy_matrix. destruct (Nat.eqb_spec m 0); [lia|]. pose proof (grow_alloc h (repeat Junk m) B) as GA. unfold alloc in *. cbn [snd] in GA.
  apply (rows_ext _ _ _ _ _ _ _ (grow_ext _ _ B GA)) in F. set (h1 := {| next := S (next h); blocks := (next h, repeat Junk m) :: blocks h |}) in *.
  apply by_rows_iff in F. destruct F as (cs & vs & L & F & V). rewrite L. pose proof (load_len _ _ _ _ L) as LN.
  destruct (copy_rows_ok k n N K cs h1 vs (g_bound _ _ GA) F) as (h2 & cs2 & E2 & G2 & LN2 & R2 & T2). rewrite E2. change (next h1) with (S (next h)) in *.
  pose proof (g_next _ _ G2) as NN. change (next h1) with (S (next h)) in NN.
  exists (put h2 (next h) cs2), cs2. split; [reflexivity|]. split; [apply grow_put; [apply (grow_trans _ _ _ GA G2)|lia]|]. cbn [put next]. split; [lia|]. split; [lia|].
  fold (put h2 (next h) cs2).
  assert (W : ext (restr h2 (S (next h)) (next h2)) (restr (put h2 (next h) cs2) (next h) (next h2))).
  { apply ext_restr2; [lia|lia|]. intros i I. rewrite get_put. destruct (Nat.eqb_spec (next h) i); [lia|reflexivity]. }
  assert (X : get (restr (put h2 (next h) cs2) (next h) (next h2)) (next h) = Some cs2).
  { rewrite get_restr, inr_in by lia. rewrite get_put, Nat.eqb_refl. reflexivity. }
  split; [rewrite get_put, Nat.eqb_refl; reflexivity|]. split; [apply (Rows_ext _ _ _ _ _ _ _ W R2)|].
  apply by_rows_iff. exists cs2, vs. apply load_full in X. rewrite LN2, LN in X. split; [exact X|]. split; [|exact V].
  apply (F2_impl _ _ _ _ (fun a b => flat_ext _ _ _ a _ b W) T2).
Qed.

(** What CleanUp frees *)
Definition cleared (h h' : heap) (lo hi : nat) : Prop := next h' = next h /\ forall i, get h' i = if inr lo hi i then None else get h i.
Lemma cleared_nil h a : cleared h h a a.
Proof. split; [reflexivity|]. intros i. destruct (inr a a i) eqn:E; [apply inr_true in E; lia|reflexivity]. Qed.
Lemma cleared_app h1 h2 h3 a b c : a <= b -> b <= c -> cleared h1 h2 a b -> cleared h2 h3 b c -> cleared h1 h3 a c.
Proof.
  intros L1 L2 [N1 G1] [N2 G2]. split; [congruence|]. intros i. rewrite G2, G1.
  destruct (inr a b i) eqn:E1, (inr b c i) eqn:E2, (inr a c i) eqn:E3; try reflexivity; rewrite ?inr_true, ?inr_false in *; lia.
Qed.
Lemma cleared_app' h1 h2 h3 a b c : a <= b -> b <= c -> cleared h1 h2 b c -> cleared h2 h3 a b -> cleared h1 h3 a c.
Proof.
  intros L1 L2 [N1 G1] [N2 G2]. split; [congruence|]. intros i. rewrite G2, G1.
  destruct (inr a b i) eqn:E1, (inr b c i) eqn:E2, (inr a c i) eqn:E3; try reflexivity; rewrite ?inr_true, ?inr_false in *; lia.
Qed.
Lemma free_clear h i : live h i -> exists h', free h i = Some h' /\ cleared h h' i (S i).
Proof.
  intros L. destruct (free_ok h i L) as (h' & F & N & G). exists h'. split; [exact F|]. split; [exact N|]. intros j. rewrite G.
  destruct (Nat.eqb_spec i j), (inr i (S i) j) eqn:E; try reflexivity; rewrite ?inr_true, ?inr_false in *; lia.
Qed.
Lemma free_seq n : forall h a, (forall i, a <= i < a + n -> live h i) -> exists h', free_cells h (map Addr (seq a n)) = Some h' /\ cleared h h' a (a + n).
Proof.
  induction n as [|n IH]; intros h a L; cbn [seq map free_cells].
  - exists h. split; [reflexivity|]. rewrite Nat.add_0_r. apply cleared_nil.
  - cbn [free_cell]. destruct (free_clear h a (L a ltac:(lia))) as (h1 & E1 & C1). rewrite E1.
    destruct (IH h1 (S a)) as (h2 & E2 & C2).
    { intros i I. unfold live. rewrite (proj2 C1). destruct (inr a (S a) i) eqn:X; [apply inr_true in X; lia|]. apply L. lia. }
    exists h2. split; [exact E2|]. replace (a + S n) with (S a + n) by lia. apply (cleared_app h h1 h2 a (S a)); [lia|lia|exact C1|exact C2].
Qed.
Lemma free_table h a n : get h a = Some (map Addr (seq (S a) n)) -> (forall i, S a <= i < S a + n -> live h i) ->
  exists h', free_entries h (Addr a) n = Some h' /\ cleared h h' (S a) (S a + n).
Proof.
  intros G L. unfold free_entries. apply load_full in G. rewrite map_length, seq_length in G. rewrite G. apply free_seq. exact L.
Qed.
Lemma free_rows_ok k n cs a b : forall h, Rows h k n cs a b -> exists h', free_rows h k n cs = Some h' /\ cleared h h' a b.
Proof.
  revert a b. induction cs as [|c cs IH]; intros a b h R; inversion R; subst; cbn [free_rows].
  - exists h. split; [reflexivity|apply cleared_nil].
  - assert (S1 : exists h1, (if is_text k then if n =? 0 then Some h else free_entries h (Addr a) n else Some h) = Some h1 /\ cleared h h1 (S a) (S a + wide k n)).
    { unfold wide in *. destruct (is_text k) eqn:T.
      - destruct (Nat.eqb_spec n 0) as [->|]; [exists h; split; [reflexivity|rewrite Nat.add_0_r; apply cleared_nil]|]. apply free_table; [apply H1; reflexivity|]. intros i I. apply H2. lia.
      - exists h. split; [reflexivity|]. rewrite Nat.add_0_r. apply cleared_nil. }
    destruct S1 as (h1 & E1 & C1). rewrite E1. cbn [free_cell].
    assert (L1 : live h1 a). { unfold live. rewrite (proj2 C1). destruct (inr (S a) (S a + wide k n) a) eqn:X; [apply inr_true in X; lia|]. apply H2. lia. }
    destruct (free_clear h1 a L1) as (h2 & E2 & C2). rewrite E2.
    assert (C12 : cleared h h2 a (S a + wide k n)) by (apply (cleared_app' h h1 h2 a (S a)); [lia|lia|exact C1|exact C2]).
    assert (R2 : Rows h2 k n cs (S a + wide k n) b).
    { assert (EX : ext (restr h (S a + wide k n) b) h2).
      { intros i x. rewrite get_restr. destruct (inr (S a + wide k n) b i) eqn:X; [|congruence]. apply inr_true in X. rewrite (proj2 C12).
        destruct (inr a (S a + wide k n) i) eqn:Y; [apply inr_true in Y; lia|tauto]. }
      apply (Rows_ext (restr h (S a + wide k n) b)); [exact EX|]. clear - H5.
      assert (GEN : forall lo x, Rows h k n cs x b -> lo <= x -> Rows (restr h lo b) k n cs x b).
      { clear H5. intros lo x R. induction R as [|y t b P Q R' IH]; intros L; [constructor|]. pose proof (Rows_le _ _ _ _ _ _ R'). constructor.
        - intros T. rewrite get_restr, inr_in by lia. apply P. exact T.
        - intros i I. unfold live. rewrite get_restr, inr_in by lia. apply Q. exact I.
        - apply IH; lia. }
      apply GEN; [exact H5|lia]. }
    destruct (IH _ _ h2 R2) as (h3 & E3 & C3). exists h3. split; [exact E3|]. pose proof (Rows_le _ _ _ _ _ _ H5). apply (cleared_app h h2 h3 a (S a + wide k n)); [lia|lia|exact C12|exact C3].
Qed.

(** The memory of an object: the blocks lo .. hi - 1 *)
Inductive Shape (h : heap) (d : desc) (lo hi : nat) : Prop :=
| Sh_none : ptr d = Null -> lo = hi -> Shape h d lo hi
| Sh_ptr : kd d = Pointer -> nd d = 0 -> lo = hi -> Shape h d lo hi
| Sh_one : ptr d = Addr lo -> hi = S lo -> live h lo -> kd d <> Pointer ->
    (nd d = 0 \/ 3 <= nd d \/ (is_text (kd d) = false /\ (nd d = 1 \/ (nd d = 2 /\ static d = true)))) -> Shape h d lo hi
| Sh_table n : ptr d = Addr lo -> is_text (kd d) = true -> ((nd d = 1 /\ n = n0 d) \/ (nd d = 2 /\ static d = true /\ n = n0 d * n1 d)) ->
    get h lo = Some (map Addr (seq (S lo) n)) -> hi = S lo + n -> (forall i, lo <= i < hi -> live h i) -> Shape h d lo hi
| Sh_rows cs : ptr d = Addr lo -> nd d = 2 -> static d = false -> kd d <> Pointer -> get h lo = Some cs -> length cs = n1 d ->
    Rows h (kd d) (n0 d) cs (S lo) hi -> Shape h d lo hi.
Lemma Shape_ext h h' d lo hi : ext h h' -> Shape h d lo hi -> Shape h' d lo hi.
Proof.
  intros E S. destruct S.
  - apply Sh_none; assumption.
  - apply Sh_ptr; assumption.
  - apply Sh_one; try assumption. apply (live_ext h); assumption.
  - apply (Sh_table _ _ _ _ n); auto. intros i I. apply (live_ext h); auto.
  - apply (Sh_rows _ _ _ _ cs); auto. apply (Rows_ext h); auto.
Qed.
Lemma Shape_le h d lo hi : Shape h d lo hi -> lo <= hi.
Proof. destruct 1; try lia. apply Rows_le in H5. lia. Qed.
Lemma Shape_live h d lo hi : Shape h d lo hi -> forall i, lo <= i < hi -> live h i.
Proof.
  intros S i I. destruct S; try lia.
  - assert (i = lo) by lia. subst. assumption.
  - auto.
  - destruct (Nat.eq_dec i lo); [subst; unfold live; congruence|]. apply (Rows_live _ _ _ _ _ _ H5). lia.
Qed.
Lemma clean_ok h d lo hi : Shape h d lo hi -> exists h' d', clean_up h d = Some (h', d') /\ cleared h h' lo hi /\ ptr d' = Null.
Proof.
  intros S. unfold clean_up. destruct S.
  - rewrite H. subst. exists h, d. split; [reflexivity|]. split; [apply cleared_nil|exact H].
  - rewrite H, H0. subst. destruct (ptr d) eqn:P; eexists; eexists; (split; [reflexivity|]); (split; [apply cleared_nil|]); try reflexivity. exact P.
  - rewrite H. assert (X : (match nd d with
           | 1 => if is_text (kd d) then free_entries h (Addr lo) (n0 d) else Some h
           | 2 => if static d then if is_text (kd d) then free_entries h (Addr lo) (n0 d * n1 d) else Some h
                  else match load h (Addr lo) (n1 d) with Some cs => free_rows h (kd d) (n0 d) cs | None => None end
           | _ => Some h
           end) = Some h).
    { destruct H3 as [->|[G|[T [->|[-> ->]]]]]; [reflexivity| |rewrite T; reflexivity|rewrite T; reflexivity]. destruct (nd d) as [|[|[|m]]]; try lia; reflexivity. }
    rewrite X. destruct (free_clear h lo H1) as (h' & E & C). cbn [free_cell]. rewrite E. exists h', void. subst hi.
    destruct (kd d); try congruence; (split; [reflexivity|]; split; [exact C|reflexivity]).
  - rewrite H. assert (X : exists h1, (match nd d with
           | 1 => if is_text (kd d) then free_entries h (Addr lo) (n0 d) else Some h
           | 2 => if static d then if is_text (kd d) then free_entries h (Addr lo) (n0 d * n1 d) else Some h
                  else match load h (Addr lo) (n1 d) with Some cs => free_rows h (kd d) (n0 d) cs | None => None end
           | _ => Some h
           end) = Some h1 /\ cleared h h1 (S lo) hi).
    { subst hi. destruct (free_table h lo n H2 ltac:(intros i I; apply H4; lia)) as (h1 & E & C). exists h1. rewrite H0.
      destruct H1 as [[-> ->]|[-> [-> ->]]]; (split; [exact E|exact C]). }
    destruct X as (h1 & X & C1). rewrite X. assert (L1 : live h1 lo).
    { unfold live. rewrite (proj2 C1). destruct (inr (S lo) hi lo) eqn:Y; [apply inr_true in Y; lia|]. apply H4. lia. }
    destruct (free_clear h1 lo L1) as (h2 & E2 & C2). cbn [free_cell]. rewrite E2. exists h2, void.
    assert (C : cleared h h2 lo hi) by (apply (cleared_app' h h1 h2 lo (S lo)); [lia|lia|exact C1|exact C2]).
    destruct (kd d); cbn in H0; try congruence; (split; [reflexivity|]; split; [exact C|reflexivity]).
  - rewrite H, H0, H1. destruct (free_rows_ok _ _ _ _ _ h H5) as (h1 & X & C1). pose proof (load_full _ _ _ H3) as LF. rewrite H4 in LF. rewrite LF, X.
    pose proof (Rows_le _ _ _ _ _ _ H5). assert (L1 : live h1 lo).
    { unfold live. rewrite (proj2 C1). destruct (inr (S lo) hi lo) eqn:Y; [apply inr_true in Y; lia|]. congruence. }
    destruct (free_clear h1 lo L1) as (h2 & E2 & C2). cbn [free_cell]. rewrite E2. exists h2, void.
    assert (C : cleared h h2 lo hi) by (apply (cleared_app' h h1 h2 lo (S lo)); [lia|lia|exact C1|exact C2]).
    destruct (kd d); try congruence; (split; [reflexivity|]; split; [exact C|reflexivity]).
Qed.
