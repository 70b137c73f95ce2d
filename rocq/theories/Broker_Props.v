(** C40: the copy tables of the brokers copy exactly the configured bytes.
    C41: overlapping producers are refused. *)
From Coq Require Import ZArith List Bool Lia Permutation.
From Verif Require Import Base MultiBuf_Model Broker_Model.
From Verif Require MultiBuf_Props.
Import ListNotations.
Open Scope Z_scope.

(** * Specification *)

(** The number of bytes of the signal in the GAM. *)
Definition total (s : fsig) : Z :=
  fold_right (fun r a => Z.of_nat (f_samples s) * snd r + a) 0 (f_ranges s).

(** The byte of the signal of the data source that is the [i]-th byte of the
    signal of the GAM.  The GAM has the ranges one after the other; of each
    range all samples one after the other. *)
Fixpoint byte_of (rs : list (Z * Z)) (n bytes i : Z) : Z :=
  match rs with
  | [] => 0
  | (start, size) :: rs' =>
      if i <? n * size then start + (i / size) * bytes + i mod size
      else byte_of rs' n bytes (i - n * size)
  end.

(** Byte [x] of the GAM and byte [y] of the data source are to be the same. *)
Definition wanted (base : nat -> Z) (sigs : list fsig) (x y : Z) : Prop :=
  exists s i, In s sigs /\ 0 <= i < total s /\ x = f_gam s + i /\
    y = base (f_sig s) + byte_of (f_ranges s) (Z.of_nat (f_samples s)) (f_bytes s) i.

(** What the configuration guarantees of a signal: at least one sample and one
    range, and no empty range
    (RealTimeApplicationConfigurationBuilder.cpp 2515-2533 and 2632-2640). *)
Definition configured (s : fsig) : Prop :=
  (0 < f_samples s)%nat /\ f_ranges s <> [] /\ Forall (fun r => 0 < snd r) (f_ranges s).

(** [gam'] has at every wanted byte the byte of the data source, and is
    otherwise unchanged. *)
Definition gathered (base : nat -> Z) (sigs : list fsig) (ds gam gam' : mem) : Prop :=
  msize gam' = msize gam /\
  (forall x y, wanted base sigs x y -> mdat gam' x = mdat ds y) /\
  (forall x, (forall y, ~ wanted base sigs x y) -> mdat gam' x = mdat gam x).

Definition scattered (base : nat -> Z) (sigs : list fsig) (gam ds ds' : mem) : Prop :=
  msize ds' = msize ds /\
  (forall x y, wanted base sigs x y -> mdat ds' y = mdat gam x) /\
  (forall y, (forall x, ~ wanted base sigs x y) -> mdat ds' y = mdat ds y).

(** All wanted bytes exist. *)
Definition within (base : nat -> Z) (sigs : list fsig) (ds gam : mem) : Prop :=
  forall x y, wanted base sigs x y -> 0 <= x < msize gam /\ 0 <= y < msize ds.

(** No byte of the GAM is wanted from two places; no byte of the data source
    is to be written from two places. *)
Definition one_source (base : nat -> Z) (sigs : list fsig) : Prop :=
  forall x y y', wanted base sigs x y -> wanted base sigs x y' -> y = y'.
Definition one_target (base : nat -> Z) (sigs : list fsig) : Prop :=
  forall x x' y, wanted base sigs x y -> wanted base sigs x' y -> x = x'.

(** * The pairs of bytes of a table *)

Definition maps (base : nat -> Z) (t : list line) (x y : Z) : Prop :=
  exists l i, In l t /\ 0 <= i < l_size l /\ x = l_gam l + i /\ y = addr base l + i.

Definition pos_lines (t : list line) : Prop := Forall (fun l => 0 < l_size l) t.

Lemma maps_cons base l t x y :
  maps base (l :: t) x y <->
  (exists i, 0 <= i < l_size l /\ x = l_gam l + i /\ y = addr base l + i) \/ maps base t x y.
Proof.
  split.
  - intros (l' & i & [<-|Hin] & H); [left; eauto|right; exists l', i; auto].
  - intros [(i & H)|(l' & i & Hin & H)].
    + exists l, i. split; [left; reflexivity|exact H].
    + exists l', i. split; [right; exact Hin|exact H].
Qed.

Lemma maps_nil base x y : ~ maps base [] x y.
Proof. intros (l & i & [] & _). Qed.

Lemma maps_app base t1 t2 x y :
  maps base (t1 ++ t2) x y <-> maps base t1 x y \/ maps base t2 x y.
Proof.
  split.
  - intros (l & i & Hin & H). apply in_app_or in Hin. destruct Hin; [left|right]; exists l, i; auto.
  - intros [(l & i & Hin & H)|(l & i & Hin & H)]; exists l, i; (split; [apply in_or_app; auto|exact H]).
Qed.

(** ** Executing a table *)

Lemma exec_in_ok base ds : forall t gam,
  pos_lines t ->
  (forall x y, maps base t x y -> 0 <= x < msize gam /\ 0 <= y < msize ds) ->
  exists gam', exec_in base t ds gam = Some gam' /\ msize gam' = msize gam /\
    (forall x, (exists y, maps base t x y /\ mdat gam' x = mdat ds y) \/
               ((forall y, ~ maps base t x y) /\ mdat gam' x = mdat gam x)).
Proof.
  induction t as [|l t IH]; intros gam P B.
  - exists gam. split; [reflexivity|]. split; [reflexivity|]. intro x. right.
    split; [intro y; apply maps_nil|reflexivity].
  - inversion P as [|? ? P1 P2]; subst. cbn [exec_in].
    assert (B0 : 0 <= l_gam l < msize gam /\ 0 <= addr base l < msize ds).
    { apply B. apply maps_cons. left. exists 0. lia. }
    assert (B1 : 0 <= l_gam l + (l_size l - 1) < msize gam /\ 0 <= addr base l + (l_size l - 1) < msize ds).
    { apply B. apply maps_cons. left. exists (l_size l - 1). lia. }
    destruct (MultiBuf_Props.mcopy_some gam (l_gam l) ds (addr base l) (l_size l)) as (g1 & E1); try lia.
    rewrite E1. apply MultiBuf_Props.mcopy_inv in E1. destruct E1 as (_&_&_&_&_& S1 & C1 & O1).
    destruct (IH g1) as (g2 & E2 & S2 & C2); [exact P2| |].
    { intros x y H. rewrite S1. apply B. apply maps_cons. right. exact H. }
    exists g2. split; [exact E2|]. split; [lia|]. intro x.
    destruct (C2 x) as [(y & M & V)|[N V]].
    + left. exists y. split; [apply maps_cons; right; exact M|exact V].
    + destruct (Z_le_dec (l_gam l) x) as [H1|H1]; [destruct (Z_lt_dec x (l_gam l + l_size l)) as [H2|H2]|].
      * left. exists (addr base l + (x - l_gam l)). split.
        -- apply maps_cons. left. exists (x - l_gam l). lia.
        -- rewrite V. replace x with (l_gam l + (x - l_gam l)) at 1 by ring. apply C1. lia.
      * right. split; [|rewrite V; apply O1; lia].
        intros y H. apply maps_cons in H. destruct H as [(i & H)|H]; [lia|exact (N y H)].
      * right. split; [|rewrite V; apply O1; lia].
        intros y H. apply maps_cons in H. destruct H as [(i & H)|H]; [lia|exact (N y H)].
Qed.

Lemma exec_out_ok base gam : forall t ds,
  pos_lines t ->
  (forall x y, maps base t x y -> 0 <= x < msize gam /\ 0 <= y < msize ds) ->
  exists ds', exec_out base t gam ds = Some ds' /\ msize ds' = msize ds /\
    (forall y, (exists x, maps base t x y /\ mdat ds' y = mdat gam x) \/
               ((forall x, ~ maps base t x y) /\ mdat ds' y = mdat ds y)).
Proof.
  induction t as [|l t IH]; intros ds P B.
  - exists ds. split; [reflexivity|]. split; [reflexivity|]. intro y. right.
    split; [intro x; apply maps_nil|reflexivity].
  - inversion P as [|? ? P1 P2]; subst. cbn [exec_out].
    assert (B0 : 0 <= l_gam l < msize gam /\ 0 <= addr base l < msize ds).
    { apply B. apply maps_cons. left. exists 0. lia. }
    assert (B1 : 0 <= l_gam l + (l_size l - 1) < msize gam /\ 0 <= addr base l + (l_size l - 1) < msize ds).
    { apply B. apply maps_cons. left. exists (l_size l - 1). lia. }
    destruct (MultiBuf_Props.mcopy_some ds (addr base l) gam (l_gam l) (l_size l)) as (g1 & E1); try lia.
    rewrite E1. apply MultiBuf_Props.mcopy_inv in E1. destruct E1 as (_&_&_&_&_& S1 & C1 & O1).
    destruct (IH g1) as (g2 & E2 & S2 & C2); [exact P2| |].
    { intros x y H. rewrite S1. apply B. apply maps_cons. right. exact H. }
    exists g2. split; [exact E2|]. split; [lia|]. intro y.
    destruct (C2 y) as [(x & M & V)|[N V]].
    + left. exists x. split; [apply maps_cons; right; exact M|exact V].
    + destruct (Z_le_dec (addr base l) y) as [H1|H1]; [destruct (Z_lt_dec y (addr base l + l_size l)) as [H2|H2]|].
      * left. exists (l_gam l + (y - addr base l)). split.
        -- apply maps_cons. left. exists (y - addr base l). lia.
        -- rewrite V. replace y with (addr base l + (y - addr base l)) at 1 by ring. apply C1. lia.
      * right. split; [|rewrite V; apply O1; lia].
        intros x H. apply maps_cons in H. destruct H as [(i & H)|H]; [lia|exact (N x H)].
      * right. split; [|rewrite V; apply O1; lia].
        intros x H. apply maps_cons in H. destruct H as [(i & H)|H]; [lia|exact (N x H)].
Qed.

(** ** The lines of a signal *)

Lemma per_sample_maps base sig sz bytes : forall n off gam x y, 0 < sz ->
  maps base (per_sample n sz off gam bytes sig) x y <->
  (exists h b, 0 <= h < Z.of_nat n /\ 0 <= b < sz /\
     x = gam + h * sz + b /\ y = base sig + off + h * bytes + b).
Proof.
  induction n as [|n IH]; intros off gam x y Hs.
  - cbn [per_sample]. split; [intro H; elim (maps_nil _ _ _ H)|intros (h & b & H & _); lia].
  - cbn [per_sample]. rewrite maps_cons, IH by exact Hs. cbn [l_size l_gam]. unfold addr at 1; cbn [l_sig l_off].
    split.
    + intros [(i & Hi & -> & ->)|(h & b & Hh & Hb & -> & ->)].
      * exists 0, i. lia.
      * exists (h + 1), b. split; [lia|]. split; [lia|]. split; ring.
    + intros (h & b & Hh & Hb & -> & ->).
      destruct (Z.eq_dec h 0) as [->|Hne].
      * left. exists b. lia.
      * right. exists (h - 1), b. split; [lia|]. split; [lia|]. split; ring.
Qed.

Lemma per_sample_pos sig sz bytes : forall n off gam, 0 < sz ->
  pos_lines (per_sample n sz off gam bytes sig).
Proof.
  induction n as [|n IH]; intros; cbn [per_sample]; constructor; auto. apply IH; auto.
Qed.

Lemma per_sample_length sig sz bytes : forall n off gam,
  length (per_sample n sz off gam bytes sig) = n.
Proof. induction n as [|n IH]; intros; cbn [per_sample length]; [|rewrite IH]; reflexivity. Qed.

Lemma per_range_pos sig bytes n : forall rs gam, Forall (fun r : Z * Z => 0 < snd r) rs ->
  pos_lines (per_range rs n gam bytes sig).
Proof.
  induction rs as [|[st sz] rs IH]; intros gam H; cbn [per_range]; [constructor|].
  inversion H; subst. apply Forall_app. split; [apply per_sample_pos; assumption|apply IH; assumption].
Qed.

Lemma per_range_length sig bytes n : forall rs gam,
  length (per_range rs n gam bytes sig) = (length rs * n)%nat.
Proof.
  induction rs as [|[st sz] rs IH]; intros gam; cbn [per_range length]; [reflexivity|].
  rewrite app_length, per_sample_length, IH. reflexivity.
Qed.

Definition tot (rs : list (Z * Z)) (n : Z) : Z := fold_right (fun r a => n * snd r + a) 0 rs.

Lemma tot_nonneg rs n : 0 <= n -> Forall (fun r : Z * Z => 0 < snd r) rs -> 0 <= tot rs n.
Proof.
  intro Hn. induction 1 as [|r rs Hr _ IH]; cbn [tot fold_right]; [lia|].
  fold (tot rs n). nia.
Qed.

Lemma per_range_maps base sig bytes n : forall rs gam x y,
  Forall (fun r : Z * Z => 0 < snd r) rs ->
  maps base (per_range rs n gam bytes sig) x y <->
  (exists i, 0 <= i < tot rs (Z.of_nat n) /\ x = gam + i /\
             y = base sig + byte_of rs (Z.of_nat n) bytes i).
Proof.
  induction rs as [|[st sz] rs IH]; intros gam x y H.
  - cbn. split; [intro M; elim (maps_nil _ _ _ M)|intros (i & Hi & _); lia].
  - inversion H as [|? ? H1 H2]; subst. cbn [snd] in H1.
    pose proof (tot_nonneg rs (Z.of_nat n) ltac:(lia) H2) as Ht.
    cbn [per_range]. rewrite maps_app, per_sample_maps, IH by assumption.
    cbn [tot fold_right snd byte_of]. fold (tot rs (Z.of_nat n)).
    split.
    + intros [(h & b & Hh & Hb & -> & ->)|(i & Hi & -> & ->)].
      * exists (h * sz + b). assert ((h + 1) * sz <= Z.of_nat n * sz) by (apply Z.mul_le_mono_nonneg_r; lia).
        split; [nia|]. split; [ring|].
        replace (h * sz + b <? Z.of_nat n * sz) with true by lia.
        rewrite Z.div_add_l by lia. rewrite (Z.div_small b) by lia.
        rewrite Z.add_comm with (n := h * sz). rewrite Z.mod_add by lia. rewrite (Z.mod_small b) by lia. ring.
      * exists (Z.of_nat n * sz + i). split; [nia|]. split; [ring|].
        replace (Z.of_nat n * sz + i <? Z.of_nat n * sz) with false by lia.
        replace (Z.of_nat n * sz + i - Z.of_nat n * sz) with i by ring. reflexivity.
    + intros (i & Hi & -> & ->). destruct (Z.ltb_spec i (Z.of_nat n * sz)) as [Hlt|Hge].
      * left. exists (i / sz), (i mod sz).
        pose proof (Z.div_mod i sz ltac:(lia)). pose proof (Z.mod_pos_bound i sz H1).
        split; [split; [apply Z.div_pos; lia|apply Z.div_lt_upper_bound; lia]|].
        split; [lia|]. split; [lia|ring].
      * right. exists (i - Z.of_nat n * sz). split; [lia|]. split; [ring|reflexivity].
Qed.

Lemma fill_raw_maps base sigs : Forall configured sigs -> forall x y,
  maps base (fill_raw sigs) x y <-> wanted base sigs x y.
Proof.
  intros F x y. unfold fill_raw. split.
  - intros (l & i & Hin & H). apply in_flat_map in Hin. destruct Hin as (s & Hs & Hl).
    rewrite Forall_forall in F. destruct (F s Hs) as (C1 & C2 & C3).
    assert (M : maps base (per_range (f_ranges s) (samples_of s) (f_gam s) (f_bytes s) (f_sig s)) x y).
    { exists l, i. auto. }
    apply per_range_maps in M; [|exact C3].
    unfold samples_of in M. rewrite Nat.max_r in M by lia.
    destruct M as (j & Hj & -> & ->). exists s, j. auto.
  - intros (s & i & Hs & Hi & -> & ->).
    rewrite Forall_forall in F. destruct (F s Hs) as (C1 & C2 & C3).
    assert (M : maps base (per_range (f_ranges s) (samples_of s) (f_gam s) (f_bytes s) (f_sig s))
                  (f_gam s + i)
                  (base (f_sig s) + byte_of (f_ranges s) (Z.of_nat (f_samples s)) (f_bytes s) i)).
    { apply per_range_maps; [exact C3|]. unfold samples_of. rewrite Nat.max_r by lia. exists i. auto. }
    destruct M as (l & j & Hin & H). exists l, j. split; [|exact H].
    apply in_flat_map. exists s. auto.
Qed.

Lemma fill_sig_maps base s x y : configured s ->
  maps base (fill_sig s) x y <->
  maps base (per_range (f_ranges s) (samples_of s) (f_gam s) (f_bytes s) (f_sig s)) x y.
Proof.
  intros (C1 & C2 & C3). unfold fill_sig, no_ranges.
  destruct (f_ranges s) as [|[st sz] [|r rs]] eqn:E; [congruence| |reflexivity].
  destruct (Z.eqb_spec sz (f_bytes s)) as [->|Hne]; [|reflexivity].
  inversion C3 as [|? ? H1 _]; subst. cbn [snd] in H1.
  rewrite per_range_maps by (constructor; [exact H1|constructor]).
  rewrite maps_cons. cbn [l_size l_gam]. unfold addr; cbn [l_sig l_off].
  cbn [tot fold_right snd byte_of]. split.
  - intros [(i & Hi & -> & ->)|H]; [|elim (maps_nil _ _ _ H)].
    exists i. split; [lia|]. split; [reflexivity|].
    replace (i <? Z.of_nat (samples_of s) * f_bytes s) with true by lia.
    pose proof (Z.div_mod i (f_bytes s) ltac:(lia)). lia.
  - intros (i & Hi & -> & ->). left. exists i. split; [lia|]. split; [reflexivity|].
    replace (i <? Z.of_nat (samples_of s) * f_bytes s) with true by lia.
    pose proof (Z.div_mod i (f_bytes s) ltac:(lia)). lia.
Qed.

Lemma fill_maps base sigs : Forall configured sigs -> forall x y,
  maps base (fill sigs) x y <-> wanted base sigs x y.
Proof.
  intros F x y. rewrite <- (fill_raw_maps base sigs F). unfold fill, fill_raw.
  rewrite Forall_forall in F.
  split; intros (l & i & Hin & H); apply in_flat_map in Hin; destruct Hin as (s & Hs & Hl).
  - assert (M : maps base (fill_sig s) x y) by (exists l, i; auto).
    apply fill_sig_maps in M; [|auto]. destruct M as (l' & i' & Hin & H').
    exists l', i'. split; [apply in_flat_map; eauto|exact H'].
  - assert (M : maps base (per_range (f_ranges s) (samples_of s) (f_gam s) (f_bytes s) (f_sig s)) x y)
      by (exists l, i; auto).
    apply fill_sig_maps in M; [|auto]. destruct M as (l' & i' & Hin & H').
    exists l', i'. split; [apply in_flat_map; eauto|exact H'].
Qed.

Lemma fill_raw_pos sigs : Forall configured sigs -> pos_lines (fill_raw sigs).
Proof.
  intro F. unfold fill_raw, pos_lines. rewrite Forall_flat_map.
  eapply Forall_impl; [|exact F]. intros s (C1 & C2 & C3). apply per_range_pos. exact C3.
Qed.

Lemma fill_pos sigs : Forall configured sigs -> pos_lines (fill sigs).
Proof.
  intro F. unfold fill, pos_lines. rewrite Forall_flat_map.
  eapply Forall_impl; [|exact F]. intros s (C1 & C2 & C3). unfold fill_sig.
  destruct (no_ranges s).
  - destruct (f_ranges s) as [|[st sz] rs]; [congruence|]. inversion C3 as [|? ? H1 _]; subst.
    cbn [snd] in H1. constructor; [|constructor]. cbn [l_size]. unfold samples_of. nia.
  - apply per_range_pos. exact C3.
Qed.

(** ** Sorting *)

Lemma merge2_perm : forall l1 l2, Permutation (merge2 l1 l2) (l1 ++ l2).
Proof.
  induction l1 as [|a l1 IH1]; intro l2.
  - destruct l2; reflexivity.
  - induction l2 as [|b l2 IH2]; [cbn; rewrite app_nil_r; reflexivity|].
    cbn [merge2]. destruct (l_gam a <=? l_gam b).
    + cbn [app]. constructor. apply IH1.
    + etransitivity; [constructor; exact IH2|].
      apply Permutation_cons_app with (l1 := a :: l1). reflexivity.
Qed.

Lemma splice_length sb k l : (k + length l <= length sb)%nat -> length (splice sb k l) = length sb.
Proof.
  intro H. unfold splice. rewrite !app_length, map_length, firstn_length, skipn_length. lia.
Qed.

Lemma pass_length fuel : forall cs left bcp sb sb',
  (1 <= cs)%nat -> length sb = length bcp -> pass fuel cs left bcp sb = Some sb' -> length sb' = length bcp.
Proof.
  induction fuel as [|f IH]; intros cs left bcp sb sb' Hc Hl; cbn [pass];
    destruct (Nat.ltb_spec left (length bcp - 1)) as [H|H]; try discriminate;
    try (intro E; injection E as <-; exact Hl).
  cbv zeta. intro E. apply IH in E; [exact E|exact Hc|].
  destruct (_ && _); [|exact Hl].
  rewrite splice_length; [exact Hl|].
  rewrite (Permutation_length (merge2_perm _ _)), app_length, !firstn_length, !skipn_length. lia.
Qed.

Lemma pass_ends fuel : forall cs left bcp sb, (1 <= cs)%nat -> (length bcp <= fuel + left)%nat ->
  exists sb', pass fuel cs left bcp sb = Some sb'.
Proof.
  induction fuel as [|f IH]; intros cs left bcp sb Hc Hf; cbn [pass];
    destruct (Nat.ltb_spec left (length bcp - 1)) as [H|H]; eauto; try lia.
  cbv zeta. apply IH; lia.
Qed.

Lemma last_pass bcp sb cs : (1 <= cs)%nat -> (cs < length bcp <= 2 * cs)%nat -> length sb = length bcp ->
  pass (length bcp) cs 0 bcp sb = Some (map Some (merge2 (firstn cs bcp) (skipn cs bcp))).
Proof.
  intros H1 H2 H3. destruct (length bcp) as [|e] eqn:E; [lia|]. cbn [pass]. rewrite E.
  replace (0 <? S e - 1)%nat with true by (symmetry; apply Nat.ltb_lt; lia).
  cbv zeta.
  replace (Nat.min (0 + cs - 1) (S e - 1)) with (cs - 1)%nat by lia.
  replace (Nat.min (0 + 2 * cs - 1) (S e - 1)) with e by lia.
  replace (cs - 1 - 0 + 1)%nat with cs by lia.
  replace (cs - 1 + 1)%nat with cs by lia.
  replace ((0 <? cs) && (0 <? e - (cs - 1)))%nat with true.
  2:{ symmetry. apply andb_true_iff. split; apply Nat.ltb_lt; lia. }
  cbn [skipn].
  replace (firstn (e - (cs - 1)) (skipn cs bcp)) with (skipn cs bcp).
  2:{ symmetry. apply firstn_all2. rewrite skipn_length. lia. }
  replace (splice sb 0 (merge2 (firstn cs bcp) (skipn cs bcp)))
    with (map Some (merge2 (firstn cs bcp) (skipn cs bcp))).
  2:{ unfold splice. cbn [firstn app plus]. rewrite (skipn_all2 sb); [rewrite app_nil_r; reflexivity|].
      rewrite (Permutation_length (merge2_perm _ _)), firstn_skipn. lia. }
  destruct e as [|e']; [lia|]. cbn [pass]. rewrite E.
  replace (0 + 2 * cs <? S (S e') - 1)%nat with false by (symmetry; apply Nat.ltb_ge; lia).
  reflexivity.
Qed.

Lemma passes_result bcp : (2 <= length bcp)%nat -> forall fuel cs sb,
  (1 <= cs < length bcp)%nat -> (length bcp <= fuel + cs)%nat -> length sb = length bcp ->
  exists k, passes fuel cs bcp sb = Some (map Some (merge2 (firstn k bcp) (skipn k bcp))).
Proof.
  intros H2 fuel; induction fuel as [|f IH]; intros cs sb Hc Hf Hl; [lia|].
  cbn [passes]. replace (cs <? length bcp)%nat with true by (symmetry; apply Nat.ltb_lt; lia).
  destruct (Nat.le_gt_cases (length bcp) (2 * cs)) as [Hle|Hgt].
  - rewrite last_pass by lia. exists cs.
    destruct f; cbn [passes]; (replace (2 * cs <? length bcp)%nat with false by (symmetry; apply Nat.ltb_ge; lia)); reflexivity.
  - destruct (pass_ends (length bcp) cs 0 bcp sb) as (sb' & E); try lia.
    rewrite E. apply pass_length in E; [|lia|exact Hl].
    apply IH; lia.
Qed.

Lemma all_written_map l : all_written (map Some l) = Some l.
Proof. induction l as [|a l IH]; cbn; [reflexivity|rewrite IH; reflexivity]. Qed.

Lemma sort_perm bcp : bcp <> [] -> exists l, sort_by_gam bcp = Some l /\ Permutation l bcp.
Proof.
  destruct bcp as [|b [|c r]]; [congruence| |]; intros _.
  - exists [b]. split; reflexivity.
  - unfold sort_by_gam.
    destruct (passes_result (b :: c :: r) ltac:(cbn [length]; lia) (length (b :: c :: r)) 1
                (Some b :: map (fun _ => None) (c :: r))) as (k & E);
      [cbn [length]; lia|lia|cbn [length map]; rewrite map_length; reflexivity|].
    rewrite E, all_written_map. eexists. split; [reflexivity|].
    rewrite merge2_perm, firstn_skipn. reflexivity.
Qed.

(** ** Merging contiguous lines *)

Lemma accumulate_maps base shift : forall rest cur prev x y,
  0 <= l_size cur -> pos_lines (prev :: rest) ->
  l_gam cur + l_size cur = l_gam prev + l_size prev ->
  addr base cur + l_size cur = addr base prev + l_size prev ->
  maps (fun s => base s + shift) (accumulate base cur prev rest) x y <->
  maps (fun s => base s + shift) (cur :: rest) x y.
Proof.
  induction rest as [|l rest IH]; intros cur prev x y Hc P G D; cbn [accumulate]; [reflexivity|].
  inversion P as [|? ? P1 P2]; subst. inversion P2 as [|? ? P3 P4]; subst.
  unfold contiguous. destruct (Z.eqb_spec (l_gam prev + l_size prev) (l_gam l)) as [E1|N1];
    [destruct (Z.eqb_spec (addr base prev + l_size prev) (addr base l)) as [E2|N2]|]; cbn [andb].
  - rewrite IH; [|cbn [l_size]; lia|exact P2|cbn [l_gam l_size]; lia|unfold addr in *; cbn [l_sig l_off l_size]; lia].
    rewrite !maps_cons. unfold addr in *. cbn [l_size l_gam l_sig l_off]. split.
    + intros [(i & Hi & -> & ->)|H]; [|auto].
      destruct (Z_lt_dec i (l_size cur)) as [H1|H1].
      * left. exists i. lia.
      * right. left. exists (i - l_size cur). lia.
    + intros [(i & Hi & -> & ->)|[(i & Hi & -> & ->)|H]]; [| |auto].
      * left. exists i. lia.
      * left. exists (l_size cur + i). lia.
  - rewrite (maps_cons _ cur), (maps_cons _ cur), IH; [reflexivity|lia|exact P2|reflexivity|reflexivity].
  - rewrite (maps_cons _ cur), (maps_cons _ cur), IH; [reflexivity|lia|exact P2|reflexivity|reflexivity].
Qed.

Lemma accumulate_pos base : forall rest cur prev, 0 < l_size cur -> pos_lines rest ->
  pos_lines (accumulate base cur prev rest).
Proof.
  induction rest as [|l rest IH]; intros cur prev Hc P; cbn [accumulate]; [constructor; auto|].
  inversion P as [|? ? P1 P2]; subst.
  destruct (contiguous base prev l).
  - apply IH; [cbn [l_size]; lia|exact P2].
  - constructor; [exact Hc|]. apply IH; assumption.
Qed.

Lemma raw_lengths sigs : Forall configured sigs -> length (fill_raw sigs) = count_raw sigs.
Proof.
  unfold fill_raw, count_raw. induction 1 as [|s sigs (C1 & C2 & C3) _ IH]; cbn [flat_map map list_sum fold_right]; [reflexivity|].
  rewrite app_length, per_range_length. unfold samples_of. rewrite Nat.max_r by lia. f_equal. exact IH.
Qed.

Lemma optim_table base shift sigs : Forall configured sigs ->
  exists t, init_optim base sigs = Some t /\ pos_lines t /\
    forall x y, maps (fun s => base s + shift) t x y <-> wanted (fun s => base s + shift) sigs x y.
Proof.
  intro F. unfold init_optim. rewrite (raw_lengths sigs F), Nat.eqb_refl.
  pose proof (fill_raw_pos sigs F) as P.
  pose proof (fill_raw_maps (fun s => base s + shift) sigs F) as M.
  destruct (fill_raw sigs) as [|b r].
  - exists []. split; [reflexivity|]. split; [constructor|exact M].
  - destruct (sort_perm (b :: r) ltac:(discriminate)) as (ls & E & Pm). rewrite E.
    destruct ls as [|l ls]; [apply Permutation_nil in Pm; discriminate|].
    assert (P' : pos_lines (l :: ls)).
    { unfold pos_lines in *. rewrite Forall_forall in P |- *. intros z Hz. apply P.
      eapply Permutation_in; [exact Pm|exact Hz]. }
    inversion P' as [|? ? P1 P2]; subst.
    eexists. split; [reflexivity|]. split; [apply accumulate_pos; assumption|].
    intros x y. rewrite accumulate_maps; [|lia|exact P'|reflexivity|reflexivity].
    rewrite <- M. split; intros (z & i & Hin & H); exists z, i; (split; [|exact H]).
    + eapply Permutation_in; [exact Pm|exact Hin].
    + eapply Permutation_in; [symmetry; exact Pm|exact Hin].
Qed.

(** * The theorems *)

Lemma gather base sigs t ds gam :
  pos_lines t -> (forall x y, maps base t x y <-> wanted base sigs x y) ->
  within base sigs ds gam -> one_source base sigs ->
  exists gam', exec_in base t ds gam = Some gam' /\ gathered base sigs ds gam gam'.
Proof.
  intros P M W F.
  destruct (exec_in_ok base ds t gam P) as (g & E & S & C).
  { intros x y H. apply W. apply M. exact H. }
  exists g. split; [exact E|]. split; [exact S|]. split.
  - intros x y H. destruct (C x) as [(y' & H' & V)|[N _]].
    + rewrite V. f_equal. apply (F x); [apply M; exact H'|exact H].
    + elim (N y). apply M. exact H.
  - intros x H. destruct (C x) as [(y' & H' & V)|[N V]]; [|exact V].
    elim (H y'). apply M. exact H'.
Qed.

Lemma scatter base sigs t ds gam :
  pos_lines t -> (forall x y, maps base t x y <-> wanted base sigs x y) ->
  within base sigs ds gam -> one_target base sigs ->
  exists ds', exec_out base t gam ds = Some ds' /\ scattered base sigs gam ds ds'.
Proof.
  intros P M W F.
  destruct (exec_out_ok base gam t ds P) as (g & E & S & C).
  { intros x y H. apply W. apply M. exact H. }
  exists g. split; [exact E|]. split; [exact S|]. split.
  - intros x y H. destruct (C y) as [(x' & H' & V)|[N _]].
    + rewrite V. f_equal. apply (F _ _ y); [apply M; exact H'|exact H].
    + elim (N x). apply M. exact H.
  - intros y H. destruct (C y) as [(x' & H' & V)|[N V]]; [|exact V].
    elim (H x'). apply M. exact H'.
Qed.

(** A signal of one range that is not the whole signal, with one sample only. *)
Definition table_fits (s : fsig) : Prop :=
  length (f_ranges s) = 1%nat -> no_ranges s = true \/ f_samples s = 1%nat.

(** The table of the plain broker is written inside its array exactly when no
    signal asks for several samples of a single range. *)
Theorem C40_table_size :
  forall sigs, Forall configured sigs ->
    ((exists t, init_plain sigs = Some t) <-> Forall table_fits sigs).
Proof.
  intros sigs F.
  assert (Hge : forall s, configured s ->
            (count_sig s <= length (fill_sig s))%nat /\
            (count_sig s = length (fill_sig s) <-> table_fits s)).
  { intros s (C1 & C2 & C3). unfold count_sig, fill_sig, table_fits, no_ranges.
    destruct (f_ranges s) as [|[st sz] [|r rs]] eqn:E; [congruence| |].
    - cbn [length Nat.ltb Nat.leb]. destruct (sz =? f_bytes s).
      + cbn [length]. split; [lia|]. split; auto.
      + rewrite per_range_length. cbn [length]. unfold samples_of. rewrite Nat.max_r by lia.
        split; [lia|]. split; [intros; right; lia|intro H; destruct (H eq_refl); [discriminate|lia]].
    - rewrite per_range_length.
      replace (1 <? length ((st, sz) :: r :: rs))%nat with true by reflexivity.
      unfold samples_of. rewrite Nat.max_r by lia. split; [lia|]. split; [|auto].
      intros _ H. cbn [length] in H. discriminate. }
  assert (HH : (count sigs <= length (fill sigs))%nat /\
               (length (fill sigs) = count sigs <-> Forall table_fits sigs)).
  { unfold count, fill. induction F as [|s sigs Hs F IH]; cbn [map list_sum fold_right flat_map length].
    - split; [lia|]. split; [constructor|reflexivity].
    - fold (list_sum (map count_sig sigs)). rewrite app_length.
      destruct (Hge s Hs) as [G1 G2]. destruct IH as [I1 I2]. split; [lia|]. split.
      + intro H. constructor; [apply G2; lia|apply I2; lia].
      + intro H. inversion H as [|? ? H1 H2]; subst. apply G2 in H1. apply I2 in H2. lia. }
  unfold init_plain. destruct HH as [_ HH]. rewrite <- HH.
  destruct (Nat.eqb_spec (length (fill sigs)) (count sigs)) as [E|N].
  - split; eauto.
  - split; [intros (t & H); discriminate|contradiction].
Qed.
Print Assumptions C40_table_size.

(** The plain broker: when the table fits, one execution moves exactly the
    wanted bytes, in each direction, for every set of signals, samples and
    ranges. *)
Theorem C40_plain :
  forall base sigs ds gam,
    Forall configured sigs -> Forall table_fits sigs -> within base sigs ds gam ->
    exists t, init_plain sigs = Some t /\
      (one_source base sigs ->
         exists gam', exec_in base t ds gam = Some gam' /\ gathered base sigs ds gam gam') /\
      (one_target base sigs ->
         exists ds', exec_out base t gam ds = Some ds' /\ scattered base sigs gam ds ds').
Proof.
  intros base sigs ds gam F T W.
  destruct (proj2 (C40_table_size sigs F) T) as (t & E). exists t. split; [exact E|].
  unfold init_plain in E. destruct (_ =? _)%nat; [|discriminate]. injection E as <-.
  split; intro H.
  - apply gather; auto; [apply fill_pos; exact F|apply fill_maps; exact F].
  - apply scatter; auto; [apply fill_pos; exact F|apply fill_maps; exact F].
Qed.
Print Assumptions C40_plain.

(** The optimised broker (contiguous copies merged): the table is always
    written inside its array, and one execution moves exactly the wanted bytes,
    in each direction, in every state buffer of the data source ([shift] is the
    distance of the state buffer from the first one). *)
Theorem C40_optimised :
  forall base shift sigs ds gam,
    Forall configured sigs -> within (fun s => base s + shift) sigs ds gam ->
    exists t, init_optim base sigs = Some t /\
      (one_source (fun s => base s + shift) sigs ->
         exists gam', exec_in (fun s => base s + shift) t ds gam = Some gam' /\
                      gathered (fun s => base s + shift) sigs ds gam gam') /\
      (one_target (fun s => base s + shift) sigs ->
         exists ds', exec_out (fun s => base s + shift) t gam ds = Some ds' /\
                     scattered (fun s => base s + shift) sigs gam ds ds').
Proof.
  intros base shift sigs ds gam F W.
  destruct (optim_table base shift sigs F) as (t & E & P & M).
  exists t. split; [exact E|]. split; intro H.
  - apply gather; auto.
  - apply scatter; auto.
Qed.
Print Assumptions C40_optimised.

(** Sorting keeps all lines. *)
Theorem C40_sort_keeps_lines :
  forall bcp, bcp <> [] -> exists l, sort_by_gam bcp = Some l /\ Permutation l bcp.
Proof. exact sort_perm. Qed.
Print Assumptions C40_sort_keeps_lines.

(** Findings: a configuration with one range and two samples writes after the
    end of the copy table; and the "sorted" table is not sorted, because every
    pass merges parts of the unsorted table (contiguous copies are then not
    merged, which costs time only). *)
Theorem C40_one_range_samples_refuted :
  exists s, configured s /\ f_ranges s = [(4, 8)] /\ f_samples s = 2%nat /\
    count [s] = 1%nat /\ length (fill [s]) = 2%nat /\ init_plain [s] = None.
Proof.
  exists (FSig 0 16 2 [(4, 8)] 0).
  split; [split; [cbn; lia|split; [discriminate|repeat constructor]]|].
  repeat split; vm_compute; reflexivity.
Qed.
Print Assumptions C40_one_range_samples_refuted.

Theorem C40_sort_refuted :
  exists bcp l, sort_by_gam bcp = Some l /\ map l_gam l = [2; 3; 1].
Proof.
  exists [Line 1 0 3 0; Line 1 0 1 0; Line 1 0 2 0]. eexists.
  split; [vm_compute; reflexivity|]. reflexivity.
Qed.
Print Assumptions C40_sort_refuted.

(** ** C41 *)

(** CheckProducersRanges accepts exactly the lists of ranges of which no two
    have an element in common. *)
Theorem C41_no_common_element :
  forall rs, Forall (fun r => fst r <= snd r) rs ->
    (check_ranges rs = true <->
     forall i j a b k, (i < j)%nat -> nth_error rs i = Some a -> nth_error rs j = Some b ->
       ~ (fst a <= k <= snd a /\ fst b <= k <= snd b)).
Proof.
  induction 1 as [|r rs Hr F IH].
  - split; [|reflexivity]. intros _ i j a b k _ H. destruct i; discriminate.
  - cbn [check_ranges]. rewrite andb_true_iff, forallb_forall, IH. split.
    + intros [H1 H2] i j a b k Hij Ha Hb.
      destruct j as [|j]; [lia|]. cbn [nth_error] in Hb. destruct i as [|i]; cbn [nth_error] in Ha.
      * injection Ha as <-. apply nth_error_In in Hb. specialize (H1 b Hb).
        unfold min_max_apart in H1. lia.
      * apply (H2 i j a b k); auto; lia.
    + intro H. split.
      * intros b Hb. rewrite Forall_forall in F. pose proof (F b Hb) as Hb2.
        apply In_nth_error in Hb. destruct Hb as (j & Hj).
        pose proof (H 0%nat (S j) r b (fst r) ltac:(lia) eq_refl Hj) as A.
        pose proof (H 0%nat (S j) r b (fst b) ltac:(lia) eq_refl Hj) as B.
        unfold min_max_apart. lia.
      * intros i j a b k Hij Ha Hb. apply (H (S i) (S j) a b k); auto; lia.
Qed.
Print Assumptions C41_no_common_element.

(** ** Non-vacuity *)

(** Two signals: two samples of two ranges, and three samples of a whole
    signal; in the optimised table the whole signal is one copy. *)
Definition ex_sigs : list fsig :=
  [FSig 0 8 2 [(0, 2); (6, 1)] 0; FSig 6 2 3 [(0, 2)] 1].
Definition ex_base : nat -> Z := fun k => match k with O => 0 | _ => 16 end.

Example C40_case :
  Forall configured ex_sigs /\ Forall table_fits ex_sigs /\
  match init_plain ex_sigs with Some t => length t = 5%nat | None => False end /\
  match init_optim ex_base ex_sigs with
  | Some t => length t = 5%nat /\
      match exec_in ex_base t (Mem 22 (fun i => i)) (Mem 12 (fun _ => -1)) with
      | Some g => map (mdat g) [0;1;2;3;4;5;6;7;8;9;10;11] = [0;1;8;9;6;14;16;17;18;19;20;21]
      | None => False
      end
  | None => False
  end.
Proof.
  split.
  { repeat constructor; cbn; try lia; discriminate. }
  split.
  { constructor; [intro H; discriminate|constructor; [intros _; left; reflexivity|constructor]]. }
  split; [vm_compute; reflexivity|]. vm_compute. split; reflexivity.
Qed.

Lemma ex_wanted x y : wanted ex_base ex_sigs x y <->
  In (x, y) [(0,0);(1,1);(2,8);(3,9);(4,6);(5,14);(6,16);(7,17);(8,18);(9,19);(10,20);(11,21)].
Proof.
  split.
  - intros (s & i & [<-|[<-|[]]] & Hi & -> & ->); cbn [total f_ranges f_samples fold_right snd f_gam f_sig f_bytes ex_base] in *.
    + assert (C : i = 0 \/ i = 1 \/ i = 2 \/ i = 3 \/ i = 4 \/ i = 5) by lia.
      destruct C as [->|[->|[->|[->|[->| ->]]]]]; vm_compute; tauto.
    + assert (C : i = 0 \/ i = 1 \/ i = 2 \/ i = 3 \/ i = 4 \/ i = 5) by lia.
      destruct C as [->|[->|[->|[->|[->| ->]]]]]; vm_compute; tauto.
  - intro H.
    set (s1 := FSig 0 8 2 [(0, 2); (6, 1)] 0). set (s2 := FSig 6 2 3 [(0, 2)] 1).
    repeat (destruct H as [H|H]; [injection H as <- <-|]); [..|destruct H];
    first [ solve [exists s1, 0; vm_compute; intuition congruence]
          | solve [exists s1, 1; vm_compute; intuition congruence]
          | solve [exists s1, 2; vm_compute; intuition congruence]
          | solve [exists s1, 3; vm_compute; intuition congruence]
          | solve [exists s1, 4; vm_compute; intuition congruence]
          | solve [exists s1, 5; vm_compute; intuition congruence]
          | solve [exists s2, 0; vm_compute; intuition congruence]
          | solve [exists s2, 1; vm_compute; intuition congruence]
          | solve [exists s2, 2; vm_compute; intuition congruence]
          | solve [exists s2, 3; vm_compute; intuition congruence]
          | solve [exists s2, 4; vm_compute; intuition congruence]
          | solve [exists s2, 5; vm_compute; intuition congruence] ].
Qed.

Example C40_case_hypotheses :
  within ex_base ex_sigs (Mem 22 (fun i => i)) (Mem 12 (fun _ => -1)) /\
  one_source ex_base ex_sigs /\ one_target ex_base ex_sigs.
Proof.
  split; [|split].
  - intros x y H. apply ex_wanted in H. cbn [msize].
    repeat (destruct H as [H|H]; [injection H as <- <-; lia|]); destruct H.
  - intros x y y' H1 H2. apply ex_wanted in H1, H2.
    repeat (destruct H1 as [H1|H1]; [injection H1 as <- <-;
      repeat (destruct H2 as [H2|H2]; [injection H2; intros; subst; first [reflexivity|discriminate]|]); destruct H2|]); destruct H1.
  - intros x x' y H1 H2. apply ex_wanted in H1, H2.
    repeat (destruct H1 as [H1|H1]; [injection H1 as <- <-;
      repeat (destruct H2 as [H2|H2]; [injection H2; intros; subst; first [reflexivity|discriminate]|]); destruct H2|]); destruct H1.
Qed.

Example C41_case : check_ranges [(0, 3); (8, 9); (4, 7)] = true /\ check_ranges [(0, 3); (3, 9)] = false.
Proof. split; reflexivity. Qed.
