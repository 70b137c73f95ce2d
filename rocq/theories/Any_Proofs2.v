(** Proofs: the objects over a history. *)
From Verif Require Import Any_Model Any_Spec Any_Proofs.
From Coq Require Import List Arith ZArith Lia Bool.
Import ListNotations.
Open Scope nat_scope.

Lemma flat_stored h k c n : flat h (stored_kind k) c n = flat h k c n.
Proof. destruct k; reflexivity. Qed.
Lemma text_stored k : is_text (stored_kind k) = is_text k.
Proof. destruct k; reflexivity. Qed.
Lemma as_stored_stored k a b c d s p q v : as_stored (Desc (stored_kind k) a b c d s p) v = as_stored (Desc k a b c d s q) v.
Proof. destruct k; reflexivity. Qed.
Lemma wide_stored k n : wide (stored_kind k) n = wide k n.
Proof. destruct k; reflexivity. Qed.
Lemma restr_live h lo hi i : lo <= i < hi -> live h i -> live (restr h lo hi) i.
Proof. intros I L. unfold live. rewrite get_restr, inr_in by exact I. exact L. Qed.
Lemma Rows_stored h k n cs a b : Rows h k n cs a b -> Rows h (stored_kind k) n cs a b.
Proof.
  induction 1; [constructor|]. constructor; [rewrite text_stored; assumption| |]; rewrite wide_stored; assumption.
Qed.

Lemma flat_shape h1 h' k c n v dn a0 a1 a2 st : flat h1 k c n = Some v ->
  next h' = S (next h1) + wide k n -> grow h1 h' -> (is_text k = true -> get h' (next h1) = Some (map Addr (seq (S (next h1)) n))) ->
  ((dn = 1 /\ n = a0) \/ (dn = 2 /\ st = true /\ n = a0 * a1)) ->
  Shape (restr h' (next h1) (next h')) (Desc (stored_kind k) dn a0 a1 a2 st (Addr (next h1))) (next h1) (next h').
Proof.
  intros F N G T D. pose proof (g_live _ _ G) as GL. destruct (is_text k) eqn:E; unfold wide in N; rewrite E in N.
  - apply (Sh_table _ _ _ _ n); cbn [ptr kd nd n0 n1 static]; [reflexivity|rewrite text_stored; exact E|exact D| |exact N|].
    + rewrite get_restr, inr_in by lia. apply T. reflexivity.
    + intros i I. apply restr_live; [exact I|apply GL; exact I].
  - apply Sh_one; cbn [ptr kd nd n0 n1 static]; [reflexivity|lia| | |].
    + apply restr_live; [lia|apply GL; lia].
    + destruct k; cbn; try discriminate.
    + rewrite text_stored. right. right. split; [exact E|]. tauto.
Qed.

Lemma serialise_ok h own src v h1 d1 : clean_up h own = Some (h1, d1) -> bounded h1 -> sized src -> value h1 src = Some v ->
  exists h' d', serialise h own src = Some (true, h', d') /\ grow h1 h' /\ Shape (restr h' (next h1) (next h')) d' (next h1) (next h') /\
    value (restr h' (next h1) (next h')) d' = Some v /\ as_stored d' v = as_stored src v.
Proof.
  intros C B (Z0 & Z1 & Z2 & ZK) V. unfold serialise. rewrite C. destruct src as [k dn a0 a1 a2 st p]. unfold value in V. unfold new_type, untouched. cbn [kd nd n0 n1 n2 static ptr] in *.
  destruct dn as [|[|[|[|dn]]]]; [| | | |discriminate]; cbn [andb negb].
  - destruct k; cbn [copy_scalar].
    + destruct (load h1 p s) as [b|] eqn:L; [|discriminate]. cbn in V. injection V as <-. cbn [size] in ZK.
      destruct (copy_block_ok h1 p s b B ZK L) as (h' & E & N & G & R). rewrite E. eexists. eexists. split; [reflexivity|]. split; [exact G|].
      split; [|split; [|reflexivity]].
      * apply Sh_one; cbn; [reflexivity|exact N| |discriminate|tauto]. apply restr_live; [lia|apply (g_live _ _ G); lia].
      * unfold value. cbn [kd nd ptr stored_kind]. rewrite R. reflexivity.
    + destruct (text_at h1 p) as [t|] eqn:L; [|discriminate]. injection V as <-. destruct (copy_token_ok h1 p t B L) as (h' & E & N & G & R). rewrite E.
      eexists. eexists. split; [reflexivity|]. split; [exact G|]. split; [|split; [|reflexivity]].
      * apply Sh_one; cbn; [reflexivity|exact N| |discriminate|tauto]. apply restr_live; [lia|apply (g_live _ _ G); lia].
      * unfold value. cbn [kd nd ptr stored_kind]. rewrite R. reflexivity.
    + destruct (text_at h1 p) as [t|] eqn:L; [|discriminate]. injection V as <-. destruct (copy_token_ok h1 p t B L) as (h' & E & N & G & R). rewrite E.
      eexists. eexists. split; [reflexivity|]. split; [exact G|]. split; [|split; [|reflexivity]].
      * apply Sh_one; cbn; [reflexivity|exact N| |discriminate|tauto]. apply restr_live; [lia|apply (g_live _ _ G); lia].
      * unfold value. cbn [kd nd ptr stored_kind]. rewrite R. reflexivity.
    + injection V as <-. exists h1. eexists. split; [reflexivity|]. split; [apply grow_refl; exact B|]. split; [|split; reflexivity].
      apply Sh_ptr; reflexivity.
  - destruct (copy_flat_ok h1 k p a0 v B Z0 ZK V) as (h' & E & N & G & T & R). rewrite E. eexists. eexists. split; [reflexivity|]. split; [exact G|].
    split; [|split; [|apply as_stored_stored]].
    + apply (flat_shape h1 h' k p a0 v); try assumption. tauto.
    + unfold value. cbn [kd nd ptr n0]. rewrite flat_stored. exact R.
  - destruct st.
    + destruct (copy_flat_ok h1 k p (a0 * a1) v B ltac:(nia) ZK V) as (h' & E & N & G & T & R). rewrite E. eexists. eexists. split; [reflexivity|]. split; [exact G|].
      split; [|split; [|apply as_stored_stored]].
      * apply (flat_shape h1 h' k p (a0 * a1) v); try assumption. tauto.
      * unfold value. cbn [kd nd ptr n0 n1 static]. rewrite flat_stored. exact R.
    + destruct (copy_matrix_ok h1 k p a0 a1 v B Z0 Z1 ZK V) as (h' & cs & E & G & NN & LN & X & R & W). rewrite E. eexists. eexists. split; [reflexivity|]. split; [exact G|].
      split; [|split; [|apply as_stored_stored]].
      * apply (Sh_rows _ _ _ _ cs); cbn [ptr kd nd n0 n1 static]; try reflexivity.
        -- destruct k; cbn; try discriminate. apply by_rows_iff in V. destruct V as (? & ? & _ & _ & []).
        -- rewrite get_restr, inr_in by lia. exact X.
        -- exact LN.
        -- apply Rows_stored. exact R.
      * unfold value. cbn [kd nd ptr n0 n1 static]. destruct k; exact W.
  - destruct st; [|discriminate]. cbn [andb negb]. destruct k; try discriminate. unfold copy_tensor. cbn [is_text size] in *.
    destruct (load h1 p (s * (a0 * a1 * a2))) as [b|] eqn:L; [|discriminate]. cbn in V. injection V as <-.
    destruct (copy_block_ok h1 p (s * (a0 * a1 * a2)) b B ltac:(clear - Z0 Z1 Z2 ZK; assert (0 < a0 * a1) by nia; assert (0 < a0 * a1 * a2) by nia; nia) L) as (h' & E & N & G & R). rewrite E. eexists. eexists. split; [reflexivity|]. split; [exact G|].
    split; [|split; [|reflexivity]].
    * apply Sh_one; cbn; [reflexivity|exact N| |discriminate|right; left; lia]. apply restr_live; [lia|apply (g_live _ _ G); lia].
    * unfold value. cbn [kd nd ptr n0 n1 n2 static stored_kind]. rewrite R. reflexivity.
Qed.

Lemma serialise_refused h own src h1 d1 : clean_up h own = Some (h1, d1) -> ptr d1 = Null -> bounded h1 -> sized src -> refused src ->
  exists h' d', serialise h own src = Some (false, h', d') /\ grow h1 h' /\ Shape (restr h' (next h1) (next h')) d' (next h1) (next h').
Proof.
  intros C PN B (Z0 & Z1 & Z2 & ZK) V. unfold serialise. rewrite C. destruct src as [k dn a0 a1 a2 st p]. unfold refused in V. unfold new_type, untouched. cbn [kd nd n0 n1 n2 static ptr] in *.
  assert (NO : forall d', ptr d' = Null -> grow h1 h1 /\ Shape (restr h1 (next h1) (next h1)) d' (next h1) (next h1)).
  { intros d' P. split; [apply grow_refl; exact B|apply Sh_none; [exact P|reflexivity]]. }
  destruct dn as [|[|[|[|dn]]]]; try lia; [|eexists; eexists; split; [reflexivity|]; apply NO; destruct k; cbn; (reflexivity || exact PN)].
  destruct st; [|eexists; eexists; split; [reflexivity|]; apply NO; destruct k; cbn; (reflexivity || exact PN)].
  destruct V as [V|[_ [V|V]]]; [lia|discriminate|]. unfold copy_tensor. rewrite V. destruct (Nat.eqb_spec (a0 * a1 * a2) 0); [nia|].
  pose proof (grow_alloc h1 (repeat Junk (a0 * a1 * a2)) B) as G. unfold alloc in *. cbn [snd] in G. eexists. eexists. split; [reflexivity|]. split; [exact G|].
  apply Sh_one; cbn; [reflexivity|reflexivity| | |right; left; lia].
  - apply restr_live; [lia|apply (g_live _ _ G); cbn; lia].
  - destruct k; cbn in *; discriminate.
Qed.

Definition Inv (w : world) (a : nat -> option stored) : Prop := exists lo hi : nat -> nat,
  (forall k, Shape (restr (mem w) (lo k) (hi k)) (objs w k) (lo k) (hi k)) /\
  (forall j k i, j <> k -> lo j <= i < hi j -> ~ (lo k <= i < hi k)) /\
  (forall i, In i (client w) -> live (mem w) i /\ forall k, ~ (lo k <= i < hi k)) /\
  (forall i, live (mem w) i -> In i (client w) \/ exists k, lo k <= i < hi k) /\
  bounded (mem w) /\
  (forall k s, a k = Some s -> exists v, value (restr (mem w) (lo k) (hi k)) (objs w k) = Some v /\ s = as_stored (objs w k) v).

Lemma Inv_start : Inv start (fun _ => None).
Proof.
  exists (fun _ => 0), (fun _ => 0). split; [|split; [|split; [|split; [|split]]]]; cbn.
  - intros k. apply Sh_none; reflexivity.
  - intros j k i _ H; lia.
  - tauto.
  - intros i L. exfalso. apply L. reflexivity.
  - intros i L. exfalso. apply L. reflexivity.
  - discriminate.
Qed.

(** One object lets its blocks go and takes new ones. *)
Lemma Inv_replace w a k h1 d1 : Inv w a -> clean_up (mem w) (objs w k) = Some (h1, d1) ->
  bounded h1 /\ ptr d1 = Null /\ forall h' d' x, grow h1 h' -> Shape (restr h' (next h1) (next h')) d' (next h1) (next h') ->
    (forall s, x = Some s -> exists v, value (restr h' (next h1) (next h')) d' = Some v /\ s = as_stored d' v) ->
    Inv (World h' (upd (objs w) k d') (client w)) (upd a k x).
Proof.
  intros (lo & hi & I1 & I2 & I3 & I4 & I5 & I6) C.
  destruct (clean_ok (mem w) (objs w k) (lo k) (hi k) (Shape_ext _ _ _ _ _ (ext_restr _ _ _) (I1 k))) as (h2 & d2 & C2 & [N2 G2] & P2).
  rewrite C in C2. injection C2 as <- <-.
  assert (B1 : bounded h1).
  { intros i L. rewrite N2. apply I5. unfold live in *. rewrite G2 in L. destruct (inr (lo k) (hi k) i); congruence. }
  assert (OLD : forall i, live (mem w) i -> i < next h1) by (intros i L; rewrite N2; apply I5; exact L).
  assert (RNG : forall j i, lo j <= i < hi j -> i < next h1).
  { intros j i I. apply OLD. apply (live_ext (restr (mem w) (lo j) (hi j))); [apply ext_restr|]. apply (Shape_live _ _ _ _ (I1 j)). exact I. }
  split; [exact B1|]. split; [exact P2|]. intros h' d' x G S X. pose proof (g_next _ _ G) as NX.
  assert (KEEP : forall j i, j <> k -> lo j <= i < hi j -> get h' i = get (mem w) i).
  { intros j i J I. rewrite (g_old _ _ G) by (apply (RNG j); exact I). rewrite G2. destruct (inr (lo k) (hi k) i) eqn:E; [|reflexivity].
    apply inr_true in E. exfalso. apply (I2 j k i J I E). }
  assert (EX : forall j, j <> k -> ext (restr (mem w) (lo j) (hi j)) (restr h' (lo j) (hi j))).
  { intros j J. apply ext_restr2; [lia|lia|]. intros i I. apply (KEEP j); assumption. }
  exists (upd lo k (next h1)), (upd hi k (next h')). cbn [mem objs client]. unfold upd. split; [|split; [|split; [|split; [|split]]]].
  - intros j. destruct (Nat.eqb_spec j k); [exact S|]. apply (Shape_ext _ _ _ _ _ (EX j n) (I1 j)).
  - intros j j' i J. destruct (Nat.eqb_spec j k), (Nat.eqb_spec j' k); subst; [congruence| | |apply I2; exact J].
    + intros A B. apply RNG in B. lia.
    + intros A B. apply RNG in A. lia.
  - intros i I. destruct (I3 i I) as [L NI]. split.
    + unfold live. rewrite (g_old _ _ G) by (apply OLD; exact L). rewrite G2. destruct (inr (lo k) (hi k) i) eqn:E; [apply inr_true in E; exfalso; apply (NI k E)|exact L].
    + intros j. destruct (Nat.eqb_spec j k); [apply OLD in L; lia|apply NI].
  - intros i L. destruct (le_lt_dec (next h1) i) as [Q|Q].
    + right. exists k. rewrite Nat.eqb_refl. pose proof (g_bound _ _ G i L). lia.
    + unfold live in L. rewrite (g_old _ _ G), G2 in L by exact Q. destruct (inr (lo k) (hi k) i) eqn:E; [congruence|]. apply inr_false in E.
      destruct (I4 i L) as [M|[j M]]; [left; exact M|right]. exists j. destruct (Nat.eqb_spec j k); [subst; contradiction|exact M].
  - apply (g_bound _ _ G).
  - intros j s. destruct (Nat.eqb_spec j k); [apply X|]. intros A. destruct (I6 j s A) as (v & V & E). exists v. split; [|exact E]. apply (value_ext _ _ _ _ (EX j n) V).
Qed.

Lemma Inv_clean w a k : Inv w a -> exists h1 d1, clean_up (mem w) (objs w k) = Some (h1, d1).
Proof.
  intros (lo & hi & I1 & _). destruct (clean_ok _ _ _ _ (Shape_ext _ _ _ _ _ (ext_restr _ _ _) (I1 k))) as (h2 & d2 & C2 & _). eauto.
Qed.
Lemma step_store w a k src v : Inv w a -> good_source w k src v -> exists w', step w (Serialise k src) = Some (true, w') /\ Inv w' (upd a k (Some (as_stored src v))).
Proof.
  intros I (Z & h1 & d1 & C & V). destruct (Inv_replace w a k h1 d1 I C) as (B1 & _ & R).
  destruct (serialise_ok _ _ _ _ _ _ C B1 Z V) as (h' & d' & E & G & S & VV & AS). cbn [step]. rewrite E. eexists. split; [reflexivity|]. apply R; [exact G|exact S|].
  intros s H; injection H as <-. exists v. split; [exact VV|congruence].
Qed.
Lemma step_refuse w a k src : Inv w a -> sized src -> refused src -> exists w', step w (Serialise k src) = Some (false, w') /\ Inv w' (upd a k None).
Proof.
  intros I Z V. destruct (Inv_clean w a k I) as (h1 & d1 & C). destruct (Inv_replace w a k h1 d1 I C) as (B1 & PN & R).
  destruct (serialise_refused _ _ _ _ _ C PN B1 Z V) as (h' & d' & E & G & S). cbn [step]. rewrite E. eexists. split; [reflexivity|]. apply R; [exact G|exact S|discriminate].
Qed.
Lemma step_clean w a k : Inv w a -> exists w', step w (CleanUp k) = Some (true, w') /\ Inv w' (upd a k None) /\ ptr (objs w' k) = Null /\ client w' = client w /\
  forall j, j <> k -> objs w' j = objs w j.
Proof.
  intros I. destruct (Inv_clean w a k I) as (h1 & d1 & C). destruct (Inv_replace w a k h1 d1 I C) as (B1 & P & R). cbn [step]. rewrite C. eexists. split; [reflexivity|].
  split; [|cbn [objs client]; unfold upd; rewrite Nat.eqb_refl; split; [exact P|split; [reflexivity|]]].
  - apply R; [apply grow_refl; exact B1|apply Sh_none; [exact P|reflexivity]|discriminate].
  - intros j J. destruct (Nat.eqb_spec j k); [contradiction|reflexivity].
Qed.
Lemma mine_in w i : mine w i = true <-> In i (client w).
Proof. unfold mine. rewrite existsb_exists. split; [intros (x & A & B); apply Nat.eqb_eq in B; subst; exact A|intros A; exists i; split; [exact A|apply Nat.eqb_refl]]. Qed.

Lemma step_client w a o : Inv w a -> match o with Serialise _ _ | CleanUp _ => False | _ => True end -> exists b w', step w o = Some (b, w') /\ Inv w' a.
Proof.
  intros I O. pose proof I as (lo & hi & I1 & I2 & I3 & I4 & I5 & I6). destruct o; try contradiction; cbn [step].
  - pose proof (grow_alloc (mem w) b I5) as G. unfold alloc in *. cbn [snd] in G. eexists. eexists. split; [reflexivity|].
    assert (RNG : forall j i, lo j <= i < hi j -> i < next (mem w)).
    { intros j i J. apply I5. apply (live_ext (restr (mem w) (lo j) (hi j))); [apply ext_restr|]. apply (Shape_live _ _ _ _ (I1 j)). exact J. }
    assert (EX : forall j, ext (restr (mem w) (lo j) (hi j)) (restr {| next := S (next (mem w)); blocks := (next (mem w), b) :: blocks (mem w) |} (lo j) (hi j))).
    { intros j. apply ext_restr2; [lia|lia|]. intros i J. apply (g_old _ _ G). apply (RNG j i J). }
    exists lo, hi. cbn [mem objs client]. split; [|split; [|split; [|split; [|split]]]].
    + intros k. apply (Shape_ext _ _ _ _ _ (EX k) (I1 k)).
    + exact I2.
    + intros i [<-|J].
      * split; [apply (g_live _ _ G); cbn; lia|]. intros k K. apply RNG in K. lia.
      * destruct (I3 i J) as [L N]. split; [|exact N]. unfold live. rewrite (g_old _ _ G) by (apply I5; exact L). exact L.
    + intros i L. destruct (Nat.eq_dec i (next (mem w))); [left; left; congruence|]. pose proof (g_bound _ _ G i L) as Q. cbn in Q. unfold live in L. rewrite (g_old _ _ G) in L by lia.
      destruct (I4 i L); [left; right; assumption|right; assumption].
    + apply (g_bound _ _ G).
    + intros k s A. destruct (I6 k s A) as (v & V & E). exists v. split; [apply (value_ext _ _ _ _ (EX k) V)|exact E].
  - destruct (mine w i) eqn:M; [|eexists; eexists; split; [reflexivity|exact I]]. apply mine_in in M. destruct (I3 i M) as [LI NI].
    assert (EX : forall j, ext (restr (mem w) (lo j) (hi j)) (restr (put (mem w) i b) (lo j) (hi j))).
    { intros j. apply ext_restr2; [lia|lia|]. intros i' J. rewrite get_put. destruct (Nat.eqb_spec i i'); [subst; exfalso; apply (NI j J)|reflexivity]. }
    eexists. eexists. split; [reflexivity|]. exists lo, hi. cbn [mem objs client]. split; [|split; [|split; [|split; [|split]]]].
    + intros k. apply (Shape_ext _ _ _ _ _ (EX k) (I1 k)).
    + exact I2.
    + intros j J. destruct (I3 j J) as [L N]. split; [|exact N]. unfold live. rewrite get_put. destruct (i =? j); [congruence|exact L].
    + intros j L. unfold live in L. rewrite get_put in L. destruct (Nat.eqb_spec i j); [subst; left; exact M|apply I4; exact L].
    + intros j L. unfold live in L. rewrite get_put in L. cbn [put next]. destruct (Nat.eqb_spec i j); [subst; apply I5; exact LI|apply I5; exact L].
    + intros k s A. destruct (I6 k s A) as (v & V & E). exists v. split; [apply (value_ext _ _ _ _ (EX k) V)|exact E].
  - destruct (mine w i) eqn:M; [|eexists; eexists; split; [reflexivity|exact I]]. apply mine_in in M. destruct (I3 i M) as [LI NI].
    destruct (free_ok (mem w) i LI) as (h' & F & N & G). rewrite F. eexists. eexists. split; [reflexivity|].
    assert (EX : forall j, ext (restr (mem w) (lo j) (hi j)) (restr h' (lo j) (hi j))).
    { intros j. apply ext_restr2; [lia|lia|]. intros i' J. rewrite G. destruct (Nat.eqb_spec i i'); [subst; exfalso; apply (NI j J)|reflexivity]. }
    exists lo, hi. cbn [mem objs client]. split; [|split; [|split; [|split; [|split]]]].
    + intros k. apply (Shape_ext _ _ _ _ _ (EX k) (I1 k)).
    + exact I2.
    + intros j J. apply filter_In in J. destruct J as [J K]. destruct (I3 j J) as [L NN]. split; [|exact NN]. unfold live. rewrite G. destruct (Nat.eqb_spec i j); [subst; rewrite Nat.eqb_refl in K; discriminate|exact L].
    + intros j L. unfold live in L. rewrite G in L. destruct (Nat.eqb_spec i j); [congruence|]. destruct (I4 j L) as [Q|Q]; [left|right; exact Q]. apply filter_In. split; [exact Q|].
      destruct (Nat.eqb_spec j i); [congruence|reflexivity].
    + intros j L. unfold live in L. rewrite G in L. rewrite N. destruct (i =? j); [congruence|apply I5; exact L].
    + intros k s A. destruct (I6 k s A) as (v & V & E). exists v. split; [apply (value_ext _ _ _ _ (EX k) V)|exact E].
Qed.

Theorem history_inv l w a : history l w a -> Inv w a.
Proof.
  induction 1 as [|l w a k src v w' H IH GS S|l w a k src w' H IH Z R S|l w a k w' H IH S|l w a o b w' H IH O S].
  - apply Inv_start.
  - destruct (step_store w a k src v IH GS) as (w2 & S2 & I2). rewrite S in S2. injection S2 as <-. exact I2.
  - destruct (step_refuse w a k src IH Z R) as (w2 & S2 & I2). rewrite S in S2. injection S2 as <-. exact I2.
  - destruct (step_clean _ _ k IH) as (w2 & S2 & I2 & _). rewrite S in S2. injection S2 as <-. exact I2.
  - destruct (step_client _ _ o IH O) as (b2 & w2 & S2 & I2). rewrite S in S2. injection S2 as <- <-. exact I2.
Qed.
Lemma run_app l o w w1 b w2 : run w l = Some w1 -> step w1 o = Some (b, w2) -> run w (l ++ [o]) = Some w2.
Proof.
  revert w. induction l as [|x l IH]; intros w; cbn [run app].
  - intros H; injection H as <-. intros ->. reflexivity.
  - destruct (step w x) as [[c w']|]; [|discriminate]. apply IH.
Qed.
Theorem history_run l w a : history l w a -> run start l = Some w.
Proof. induction 1; [reflexivity|..]; eapply run_app; eassumption. Qed.

Lemma clean_all ks : forall w a, Inv w a -> exists w', run w (map CleanUp ks) = Some w' /\ client w' = client w /\ (exists a', Inv w' a') /\
  (forall k, In k ks -> ptr (objs w' k) = Null) /\ (forall k, ~ In k ks -> objs w' k = objs w k).
Proof.
  induction ks as [|k ks IH]; intros w a I; cbn [map run].
  - exists w. split; [reflexivity|]. split; [reflexivity|]. split; [eauto|]. split; [intros k []|reflexivity].
  - destruct (step_clean w a k I) as (w1 & S1 & I1 & P1 & C1 & O1). rewrite S1. destruct (IH w1 _ I1) as (w2 & R2 & C2 & I2 & P2 & O2). exists w2.
    split; [exact R2|]. split; [congruence|]. split; [exact I2|]. split.
    + intros j [<-|J]; [|apply P2; exact J]. destruct (in_dec Nat.eq_dec k ks); [apply P2; assumption|]. rewrite O2 by assumption. exact P1.
    + intros j J. rewrite O2 by (intros Q; apply J; right; exact Q). apply O1. intros ->. apply J. left. reflexivity.
Qed.
Lemma null_empty h d lo hi : Shape h d lo hi -> ptr d = Null -> lo = hi.
Proof. destruct 1; congruence. Qed.
Theorem no_leak l w a ks : history l w a -> (forall k, ~ In k ks -> ptr (objs w k) = Null) ->
  exists w', run w (map CleanUp ks) = Some w' /\ client w' = client w /\ forall i, get (mem w') i <> None <-> In i (client w).
Proof.
  intros H N. destruct (clean_all ks w a (history_inv _ _ _ H)) as (w' & R & C & (a' & lo & hi & I1 & I2 & I3 & I4 & _) & P & O). exists w'. split; [exact R|]. split; [exact C|].
  intros i. rewrite <- C. split; [|intros J; apply (I3 i J)]. intros L. destruct (I4 i L) as [Q|[k K]]; [exact Q|].
  exfalso. assert (E : lo k = hi k); [|lia]. apply (null_empty _ _ _ _ (I1 k)). destruct (in_dec Nat.eq_dec k ks); [apply P; assumption|]. rewrite O by assumption. apply N. assumption.
Qed.
Theorem held l w a k s : history l w a -> a k = Some s -> holds w k s.
Proof.
  intros H A. destruct (history_inv _ _ _ H) as (lo & hi & _ & _ & _ & _ & _ & I6). destruct (I6 k s A) as (v & V & E). exists v. split; [|exact E].
  apply (value_ext _ _ _ _ (ext_restr _ _ _) V).
Qed.
