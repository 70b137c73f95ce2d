(** Memory and table lemmas for the runtime evaluator. *)
From Coq Require Import String.
From Verif Require Import Base IntArith_Model RuntimeEval_Model RuntimeEval_Spec.
Open Scope string_scope.
Open Scope Z_scope.
Open Scope list_scope.

Lemma ty_eqb_eq a b : ty_eqb a b = true <-> a = b.
Proof. destruct a, b; cbn; split; intros H; try reflexivity; try discriminate H. Qed.
Lemma ty_eqb_refl a : ty_eqb a a = true.
Proof. apply ty_eqb_eq; reflexivity. Qed.

(** ** Memory *)
Lemma words_bits t :
  (words t = 0 /\ bits t = 0) \/ (words t = 1 /\ (bits t = 8 \/ bits t = 16 \/ bits t = 32)) \/ (words t = 2 /\ bits t = 64).
Proof. destruct t; vm_compute; intuition. Qed.
Lemma words_range t : 0 <= words t <= 2.
Proof. destruct t; vm_compute; split; discriminate. Qed.
Lemma numeric_words t : numeric t = true -> 1 <= words t <= 2.
Proof. destruct t; intros H; try discriminate H; vm_compute; split; discriminate. Qed.
Lemma bits_pos t : 0 < 2 ^ bits t.
Proof. destruct t; vm_compute; reflexivity. Qed.

Lemma upd_same m a v : upd m a v a = v.
Proof. unfold upd. rewrite Z.eqb_refl. reflexivity. Qed.
Lemma upd_other m a v b : b <> a -> upd m a v b = m b.
Proof. intros H. unfold upd. destruct (Z.eqb_spec b a); congruence. Qed.

Lemma set_low_mod n old v : 0 <= n -> set_low n old v mod 2 ^ n = v mod 2 ^ n.
Proof.
  intros Hn. unfold set_low.
  assert (0 < 2 ^ n) by (apply Z.pow_pos_nonneg; lia).
  rewrite <- (Zdiv.Zplus_mod_idemp_l (old - old mod 2 ^ n)).
  replace ((old - old mod 2 ^ n) mod 2 ^ n) with 0
    by (rewrite Zdiv.Zminus_mod_idemp_r, Z.sub_diag, Z.mod_0_l; lia).
  rewrite Z.add_0_l, Z.mod_mod; lia.
Qed.

Lemma load_store m a t v : load (store m a t v) a t = v mod 2 ^ bits t.
Proof.
  unfold load, store. destruct (words_bits t) as [[W B] | [[W B] | [W B]]]; rewrite W; cbn [Z.eqb Pos.eqb].
  - rewrite B, upd_same. apply set_low_mod. lia.
  - rewrite upd_same. apply set_low_mod. lia.
  - rewrite upd_same, upd_other, upd_same by lia. rewrite B.
    rewrite !Z.mod_mod by lia.
    change (2 ^ 64) with (2 ^ 32 * 2 ^ 32). rewrite Z.rem_mul_r by lia. reflexivity.
Qed.
Lemma store_frame m a t v b : b < a \/ a + words t <= b -> store m a t v b = m b.
Proof.
  unfold store. destruct (words_bits t) as [[W B] | [[W B] | [W B]]]; rewrite W; cbn [Z.eqb Pos.eqb]; intros H.
  - rewrite B. destruct (Z.eq_dec b a) as [->|E].
    + rewrite upd_same. unfold set_low. change (2 ^ 0) with 1. rewrite !Z.mod_1_r. lia.
    + apply upd_other; assumption.
  - apply upd_other. lia.
  - rewrite !upd_other by lia. reflexivity.
Qed.
Lemma load_ext m m' a t : (forall b, a <= b < a + words t -> m b = m' b) -> load m a t = load m' a t.
Proof.
  unfold load. destruct (words_bits t) as [[W B] | [[W B] | [W B]]]; rewrite W; cbn [Z.eqb Pos.eqb]; intros H.
  - rewrite B. change (2 ^ 0) with 1. rewrite !Z.mod_1_r. reflexivity.
  - rewrite H by lia. reflexivity.
  - rewrite !H by lia. reflexivity.
Qed.
Lemma load_store_other m a t v b t' : a + words t <= b \/ b + words t' <= a -> load (store m a t v) b t' = load m b t'.
Proof. intros H. apply load_ext. intros x Hx. apply store_frame. pose proof (words_range t). lia. Qed.
Lemma load_range m a t : 0 <= load m a t < 2 ^ bits t.
Proof.
  unfold load. destruct (words_bits t) as [[W B] | [[W B] | [W B]]]; rewrite W; cbn [Z.eqb Pos.eqb].
  - apply Z.mod_pos_bound, bits_pos.
  - apply Z.mod_pos_bound, bits_pos.
  - rewrite B. pose proof (Z.mod_pos_bound (m a) (2 ^ 32) ltac:(lia)).
    pose proof (Z.mod_pos_bound (m (a + 1)) (2 ^ 32) ltac:(lia)).
    change (2 ^ 64) with (2 ^ 32 * 2 ^ 32). nia.
Qed.

(** ** Sizes *)
Lemma sum_words_nonneg l : 0 <= sum_words l.
Proof. induction l as [|t l IH]; cbn; [lia|]. pose proof (words_range t). unfold sum_words in IH. lia. Qed.
Lemma sum_words_cons t l : sum_words (t :: l) = words t + sum_words l.
Proof. reflexivity. Qed.
Lemma sum_words_app l k : sum_words (l ++ k) = sum_words l + sum_words k.
Proof. induction l as [|t l IH]; [reflexivity|]. cbn [app]. rewrite !sum_words_cons, IH. lia. Qed.

(** ** Overload resolution *)
Lemma peek_all_some want st r : peek_all want st = Some r -> st = want ++ r.
Proof.
  revert st; induction want as [|t want IH]; intros [|s st]; cbn; try congruence.
  destruct (ty_eqb s t) eqn:E; [|discriminate]. apply ty_eqb_eq in E. subst s.
  intros H. rewrite (IH _ H). reflexivity.
Qed.
Lemma peek_all_starts want st :
  peek_all want st = if starts want st then Some (skipn (List.length want) st) else None.
Proof.
  revert st; induction want as [|t want IH]; intros [|s st]; cbn; try reflexivity.
  destruct (ty_eqb s t); cbn; [apply IH | reflexivity].
Qed.

Lemma find_pcode_spec tab : forall i name st mo dss k x,
  find_pcode tab i name st mo dss = Some (k, x) ->
  exists j r, k = i + Z.of_nat j /\ nth_error tab j = Some r /\ try_consume r name st mo dss = Some x.
Proof.
  induction tab as [|r tab IH]; intros i name st mo dss k x; cbn [find_pcode]; [discriminate|].
  destruct (try_consume r name st mo dss) eqn:E.
  - intros [= <- <-]. exists O, r. repeat split; try assumption. lia.
  - intros H. destruct (IH _ _ _ _ _ _ _ H) as (j & r' & -> & N & T). exists (S j), r'. repeat split; try assumption.
    lia.
Qed.
(** Without a wanted output the function found is the first that fits. *)
Lemma find_pcode_first tab : forall i name st dss k x,
  find_pcode tab i name st false dss = Some (k, x) ->
  exists j r, k = i + Z.of_nat j /\ nth_error tab j = Some r /\ try_consume r name st false dss = Some x /\
    List.find (fun r => (rname r =s? name) && starts (ins_of r) st) tab = Some r.
Proof.
  induction tab as [|r tab IH]; intros i name st dss k x; cbn [find_pcode]; [discriminate|].
  destruct (try_consume r name st false dss) eqn:E.
  - intros [= <- <-]. exists O, r. repeat split; try assumption; [lia|].
    cbn [List.find]. unfold try_consume in E. destruct (rname r =s? name); [|discriminate].
    rewrite peek_all_starts in E. destruct (starts (ins_of r) st); [reflexivity|discriminate].
  - intros H. destruct (IH _ _ _ _ _ _ H) as (j & r' & -> & N & T & F). exists (S j), r'.
    repeat split; try assumption; [lia|].
    cbn [List.find]. unfold try_consume in E. destruct (rname r =s? name); [|exact F].
    rewrite peek_all_starts in E. destruct (starts (ins_of r) st); [discriminate|exact F].
Qed.

(** ** The table is what the interpreter needs *)
Section Table.
Variable L : lib.

Definition ranged (f : fun_t) (out : ty) : Prop := forall vs v er, f vs = Some (v, er) -> 0 <= v < 2 ^ bits out.

Inductive good : rfun -> Prop :=
| GRead t : good (RF "READ" 0 1 [t] (BRead t))
| GWrite t : numeric t = true -> good (RF "WRITE" 1 0 [t; t] (BWrite t))
| GWriteC s t : numeric t = true -> ty_eqb s t = false -> good (RF "WRITE" 1 0 [s; t] (BWriteConv s t))
| GRRead t : good (RF "RREAD" 0 1 [t] (BRRead t))
| GRWrite t : good (RF "RWRITE" 1 0 [t; t] (BRWrite t))
| GRWriteC s t : ty_eqb s t = false -> good (RF "RWRITE" 1 0 [s; t] (BRWriteConv s t))
| GCast s t : good (unary "CAST" s t (f_cast L s t))
| GUn n t out f : n <> "READ" -> n <> "WRITE" -> n <> "RREAD" -> n <> "RWRITE" -> n <> "CAST" ->
    ranged f out -> good (unary n t out f)
| GBin n g t1 t2 out f : n <> "READ" -> n <> "WRITE" -> n <> "RREAD" -> n <> "RWRITE" -> n <> "CAST" ->
    ranged f out -> good (binary n g t1 t2 out f).

Lemma pat_range t z : 0 <= pat t z < 2 ^ bits t.
Proof. unfold pat, uwrap. apply Z.mod_pos_bound, bits_pos. Qed.
Lemma n2n_range ti to_ p : 0 <= snd (n2n L ti to_ p) < 2 ^ bits to_.
Proof.
  unfold n2n. destruct (is_float ti || is_float to_).
  - destruct (fprim L _ _ _ _) as [z b]. apply pat_range.
  - destruct (safe_number2number _ _ _) as [b z]. apply pat_range.
Qed.
Lemma flib_ranged n i o : ranged (flib L n i o) o.
Proof. intros vs v er. unfold flib. destruct (fprim L n i o vs). intros [= <- _]. apply pat_range. Qed.
Lemma of_bool_range b t : 0 < bits t -> 0 <= of_bool b < 2 ^ bits t.
Proof. intros H. destruct t; try (exfalso; vm_compute in H; discriminate H); destruct b; vm_compute; split; congruence. Qed.
Lemma u8_range b : 0 <= of_bool b < 2 ^ bits U8.
Proof. destruct b; vm_compute; split; congruence. Qed.
Lemma zero_range t : 0 <= 0 < 2 ^ bits t.
Proof. pose proof (bits_pos t). lia. Qed.

Ltac two l := destruct l as [|?z [|?z [|?z ?l]]]; try discriminate.
Lemma cmp_ranged n t : ranged (f_cmp L n t) U8.
Proof.
  intros l v er. unfold f_cmp. destruct (is_float t); [apply flib_ranged|]. two l. intros [= <- _]. apply u8_range.
Qed.
Lemma cmp3_ranged n t1 t2 t : ranged (f_cmp3 L n t1 t2 t) U8.
Proof.
  intros l v er. unfold f_cmp3. two l. destruct (n2n L t1 t z) as [a x], (n2n L t2 t z0) as [b y].
  destruct (a && b); intros [= <- _]; [apply u8_range | apply zero_range].
Qed.
Lemma logic_ranged n : ranged (f_logic n) U8.
Proof.
  intros l v er. unfold f_logic. two l. destruct ((z <=? 1) && (z0 <=? 1)); [|discriminate].
  intros [= <- _]. apply u8_range.
Qed.
Lemma not_ranged : ranged f_not U8.
Proof. intros l v er. unfold f_not. destruct l as [|? [|? ?]]; try discriminate. intros [= <- _]. apply u8_range. Qed.
Lemma neg_ranged ti to_ : ranged (f_neg L ti to_) to_.
Proof.
  intros l v er. unfold f_neg. destruct (is_float ti); [apply flib_ranged|].
  destruct l as [|z1 [|? ?]]; try discriminate. destruct (n2n L ti to_ z1) as [s x].
  destruct s; [destruct (signed_ub _ _); [discriminate|]|]; intros [= <- _]; [apply pat_range | apply zero_range].
Qed.
Lemma quot_range t a b x : quot t a b = Some x -> 0 <= x < 2 ^ bits t.
Proof. unfold quot. destruct (_ && _); [discriminate|]. intros [= <-]. apply pat_range. Qed.
Lemma arith_good n k t1 t2 out :
  n <> "READ" -> n <> "WRITE" -> n <> "RREAD" -> n <> "RWRITE" -> n <> "CAST" -> good (arith L n k t1 t2 out).
Proof.
  intros H1 H2 H3 H4 H5. unfold arith. destruct k; apply GBin; try assumption; intros l v er.
  - unfold f_plain. two l. intros [= <- _]. apply pat_range.
  - unfold f_safe. two l. destruct (safe_op _ _ _ _) as [x e]. intros [= <- _]. apply pat_range.
  - unfold f_ssafe. two l. destruct (n2n L t1 out z) as [a x], (n2n L t2 out z0) as [b y].
    destruct (a && b); [destruct (safe_op _ _ _ _) as [w e]|]; intros [= <- _]; [apply pat_range | apply zero_range].
  - unfold f_div. two l. destruct (negb _).
    + destruct (quot _ _ _) eqn:Q; [|discriminate]. intros [= <- _]. eapply quot_range; eassumption.
    + intros [= <- _]. apply zero_range.
  - unfold f_sdiv. two l. destruct (n2n L t1 out z) as [a x], (n2n L t2 out z0) as [b y].
    destruct (negb _ && a && b).
    + destruct (quot _ _ _) eqn:Q; [|discriminate]. intros [= <- _]. eapply quot_range; eassumption.
    + intros [= <- _]. apply zero_range.
Qed.
Lemma op2_good n k t out :
  n <> "READ" -> n <> "WRITE" -> n <> "RREAD" -> n <> "RWRITE" -> n <> "CAST" -> Forall good (op2 L n k t out).
Proof. intros. constructor; [|constructor]. apply arith_good; assumption. Qed.
Lemma op3_good n k t1 t2 out :
  n <> "READ" -> n <> "WRITE" -> n <> "RREAD" -> n <> "RWRITE" -> n <> "CAST" -> Forall good (op3 L n k t1 t2 out).
Proof. intros. constructor; [|constructor; [|constructor]]; apply arith_good; assumption. Qed.

Lemma Forall_map_all {A B} (P : B -> Prop) (f : A -> B) l : (forall a, In a l -> P (f a)) -> Forall P (map f l).
Proof. intros H. apply Forall_forall. intros b Hb. apply in_map_iff in Hb as (a & <- & Ha). auto. Qed.
Lemma Forall_flat_map_all {A B} (P : B -> Prop) (f : A -> list B) l :
  (forall a, In a l -> Forall P (f a)) -> Forall P (flat_map f l).
Proof.
  intros H. apply Forall_forall. intros b Hb. apply in_flat_map in Hb as (a & Ha & Hb).
  specialize (H a Ha). rewrite Forall_forall in H. auto.
Qed.

Lemma table_good : Forall good (table L).
Proof.
  unfold table.
  repeat match goal with
  | |- Forall good (op2 _ _ _ _ _ ++ _) => apply Forall_app; split; [apply op2_good; discriminate|]
  | |- Forall good (op3 _ _ _ _ _ _ ++ _) => apply Forall_app; split; [apply op3_good; discriminate|]
  | |- Forall good (_ ++ _) => apply Forall_app; split
  end.
  - apply Forall_map_all. intros; constructor.
  - apply Forall_map_all. intros t Ht. constructor. cbn in Ht. intuition subst; reflexivity.
  - apply Forall_flat_map_all. intros; apply Forall_map_all. intros; constructor.
  - apply Forall_flat_map_all. intros n Hn. apply Forall_map_all. intros t _.
    cbn in Hn. intuition subst; apply GUn; try discriminate; apply flib_ranged.
  - apply Forall_map_all. intros t _. apply GBin; try discriminate. apply flib_ranged.
  - apply Forall_flat_map_all. intros n Hn. apply Forall_map_all. intros t _.
    cbn in Hn. intuition subst; apply GBin; try discriminate; apply cmp_ranged.
  - apply Forall_map_all. intros n Hn. cbn in Hn. intuition subst; apply GBin; try discriminate; apply logic_ranged.
  - constructor; [|constructor]. apply GUn; try discriminate. apply not_ranged.
  - apply Forall_flat_map_all. intros n Hn. apply Forall_map_all. intros t _.
    cbn in Hn. intuition subst; apply GBin; try discriminate; apply flib_ranged.
  - apply Forall_map_all. intros [a b] _. apply GUn; try discriminate. apply neg_ranged.
  - apply Forall_flat_map_all. intros n Hn. apply Forall_flat_map_all. intros [t tq] _.
    cbn [comp]. cbn in Hn.
    intuition subst; (constructor; [|constructor; [|constructor]]); apply GBin; try discriminate; apply cmp3_ranged.
  - apply Forall_map_all. intros [a b] H. cbn [fst snd]. cbn in H.
    intuition (match goal with E : (_, _) = (_, _) |- _ => injection E as <- <- end); constructor; reflexivity.
  - apply Forall_map_all. intros; constructor.
  - apply Forall_map_all. intros; constructor.
  - apply Forall_map_all. intros [a b] H. cbn [fst snd]. cbn in H.
    intuition (match goal with E : (_, _) = (_, _) |- _ => injection E as <- <- end); constructor; reflexivity.
Qed.

Lemma table_nth k r : nth_error (table L) k = Some r -> good r.
Proof. intros H. pose proof table_good as T. rewrite Forall_forall in T. apply T. eapply nth_error_In; eassumption. Qed.
End Table.
