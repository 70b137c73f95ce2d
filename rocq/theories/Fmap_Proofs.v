(** Proofs about the pool of the fast scheduler. *)
From Coq Require Import Lia.
From Verif Require Import Base Fmap_Model Fmap_Spec.
Open Scope nat_scope.

Notation cnt := (count_occ Z.eq_dec).

(** * The size of the pool *)
Lemma equal_cpus_count : forall c r, equal_cpus c r = cnt r c.
Proof.
  intros c r; induction r as [|x r IH]; [reflexivity|].
  cbn [equal_cpus count_occ]. rewrite IH. destruct (Z.eq_dec x c) as [E|E].
  - subst. rewrite Z.eqb_refl. reflexivity.
  - apply Z.eqb_neq in E. rewrite E. reflexivity.
Qed.

Definition bounded (k : Z -> nat) (rows : list (list Z)) : Prop := forall c r, In r rows -> cnt r c <= k c.

Lemma max_cpus_ge : forall c rows m, m <= max_cpus c rows m.
Proof.
  intros c rows; induction rows as [|r rows IH]; intros m; cbn [max_cpus]; [lia|].
  destruct (Nat.ltb_spec m (equal_cpus c r)).
  - etransitivity; [|apply IH]. lia.
  - apply IH.
Qed.
Lemma max_cpus_in : forall c rows m r, In r rows -> cnt r c <= max_cpus c rows m.
Proof.
  intros c rows; induction rows as [|x rows IH]; intros m r H; [destruct H|].
  cbn [max_cpus]. destruct H as [H|H].
  - subst. rewrite equal_cpus_count. destruct (Nat.ltb_spec m (cnt r c)).
    + apply max_cpus_ge.
    + etransitivity; [|apply max_cpus_ge]. lia.
  - apply IH. exact H.
Qed.
Lemma max_cpus_le : forall c rows m k, m <= k -> (forall r, In r rows -> cnt r c <= k) -> max_cpus c rows m <= k.
Proof.
  intros c rows; induction rows as [|x rows IH]; intros m k Hm H; [exact Hm|].
  cbn [max_cpus]. apply IH.
  - pose proof (H x (or_introl eq_refl)) as Hx. rewrite <- equal_cpus_count in Hx. destruct (m <? equal_cpus c x); lia.
  - intros r Hr. apply H. right; exact Hr.
Qed.
Definition maxc (c : Z) (rows : list (list Z)) : nat := max_cpus c rows 0.

Lemma seen_false : forall c before done, seen c before done = false <-> (forall r, In r before -> ~ In c r) /\ ~ In c done.
Proof.
  intros c before done. unfold seen. rewrite Bool.orb_false_iff. split.
  - intros [A B]. split.
    + intros r Hr Hc. assert (existsb (existsb (Z.eqb c)) before = true) as X; [|congruence].
      apply existsb_exists. exists r. split; [exact Hr|]. apply existsb_exists. exists c. split; [exact Hc|apply Z.eqb_refl].
    + intros Hc. assert (existsb (Z.eqb c) done = true) as X; [|congruence].
      apply existsb_exists. exists c. split; [exact Hc|apply Z.eqb_refl].
  - intros [A B]. split; apply Bool.not_true_iff_false; intros X; apply existsb_exists in X.
    + destruct X as (r & Hr & X). apply existsb_exists in X. destruct X as (d & Hd & X). apply Z.eqb_eq in X. subst. exact (A _ Hr Hd).
    + destruct X as (d & Hd & X). apply Z.eqb_eq in X. subst. exact (B Hd).
Qed.

Definition but (c : Z) (l : list Z) : list Z := filter (fun x => negb (Z.eqb x c)) l.
Lemma but_length : forall c l, length l = cnt l c + length (but c l).
Proof.
  intros c l; induction l as [|x l IH]; [reflexivity|].
  unfold but in *. cbn [filter count_occ length]. destruct (Z.eq_dec x c) as [E|E].
  - subst. rewrite Z.eqb_refl. cbn [negb]. rewrite IH. lia.
  - apply Z.eqb_neq in E. rewrite E. cbn [negb length]. rewrite IH. lia.
Qed.
Lemma but_same : forall c l, cnt (but c l) c = 0.
Proof.
  intros c l. apply count_occ_not_In. intros H. apply filter_In in H. destruct H as [_ H]. rewrite Z.eqb_refl in H. discriminate.
Qed.
Lemma but_other : forall c d l, d <> c -> cnt (but c l) d = cnt l d.
Proof.
  intros c d l H; induction l as [|x l IH]; [reflexivity|].
  unfold but in *. cbn [filter count_occ]. destruct (Z.eqb_spec x c) as [E|E]; cbn [negb].
  - destruct (Z.eq_dec x d); [congruence|]. exact IH.
  - cbn [count_occ]. rewrite IH. reflexivity.
Qed.

(** A list that has at most as many of each mask as the largest state is not longer than the pool. *)
Lemma row_le : forall before todo done from M,
  (forall c, seen c before done = true -> cnt M c = 0) ->
  (forall c, cnt M c <= maxc c from) ->
  exists M', length M = length M' + (length M - length M') /\ length M - length M' <= row_threads before done todo from /\ length M' <= length M
    /\ (forall c, seen c before (done ++ todo) = true -> cnt M' c = 0) /\ (forall c, cnt M' c <= cnt M c).
Proof.
  intros before todo; induction todo as [|x todo IH]; intros done from M H0 H1.
  - exists M. rewrite app_nil_r. cbn [row_threads]. repeat split; try lia; auto.
  - cbn [row_threads]. destruct (seen x before done) eqn:E.
    + destruct (IH (done ++ [x]) from M) as (M' & A & B & C & D & F).
      * intros c Hc. destruct (Z.eq_dec c x) as [->|N]; [apply H0; exact E|].
        apply H0. destruct (seen c before done) eqn:G; [reflexivity|]. apply seen_false in G. destruct G as [G1 G2].
        assert (seen c before (done ++ [x]) = false) as X; [|congruence]. apply seen_false. split; [exact G1|].
        intros I. apply in_app_or in I. destruct I as [I|[I|[]]]; [exact (G2 I)|congruence].
      * exact H1.
      * exists M'. rewrite <- app_assoc in D. cbn [app] in D. repeat split; try lia; auto.
    + destruct (IH (done ++ [x]) from (but x M)) as (M' & A & B & C & D & F).
      * intros c Hc. destruct (Z.eq_dec c x) as [->|N]; [apply but_same|]. rewrite but_other by exact N.
        apply H0. destruct (seen c before done) eqn:G; [reflexivity|]. apply seen_false in G. destruct G as [G1 G2].
        assert (seen c before (done ++ [x]) = false) as X; [|congruence]. apply seen_false. split; [exact G1|].
        intros I. apply in_app_or in I. destruct I as [I|[I|[]]]; [exact (G2 I)|congruence].
      * intros c. destruct (Z.eq_dec c x) as [->|N]; [rewrite but_same; lia|]. rewrite but_other by exact N. apply H1.
      * pose proof (but_length x M) as L. pose proof (H1 x) as Hx. unfold maxc in Hx.
        exists M'. rewrite <- app_assoc in D. cbn [app] in D.
        assert (forall c, cnt (but x M) c <= cnt M c) as Hb.
        { intros c. destruct (Z.eq_dec c x) as [->|N]; [rewrite but_same; lia|rewrite but_other by exact N; lia]. }
        repeat split; try lia; auto. intros c. etransitivity; [apply F|apply Hb].
Qed.

Lemma seen_app : forall c before row, seen c (before ++ [row]) [] = seen c before ([] ++ row).
Proof.
  intros c before row. unfold seen. rewrite existsb_app. cbn [existsb app]. rewrite !Bool.orb_false_r. reflexivity.
Qed.
Lemma maxc_cons : forall c r rows, ~ In c r -> maxc c (r :: rows) = maxc c rows.
Proof.
  intros c r rows H. unfold maxc. cbn [max_cpus]. rewrite equal_cpus_count. rewrite (proj1 (count_occ_not_In Z.eq_dec r c) H). reflexivity.
Qed.

Lemma threads_ge_aux : forall rows before M,
  (forall c, seen c before [] = true -> cnt M c = 0) -> (forall c, cnt M c <= maxc c rows) -> length M <= max_threads before rows.
Proof.
  induction rows as [|row rows IH]; intros before M H0 H1.
  - destruct M as [|x M]; [cbn; lia|]. pose proof (H1 x) as H. rewrite count_occ_cons_eq in H by reflexivity. cbn in H. lia.
  - cbn [max_threads]. destruct (row_le before row [] (row :: rows) M H0 H1) as (M' & A & B & C & D & F).
    assert (length M' <= max_threads (before ++ [row]) rows) as X.
    { apply IH.
      - intros c Hc. rewrite seen_app in Hc. apply D. exact Hc.
      - intros c. destruct (seen c before ([] ++ row)) eqn:E.
        + rewrite (D _ E). lia.
        + apply seen_false in E. destruct E as [_ E]. rewrite <- (maxc_cons c row rows E). etransitivity; [apply F|apply H1]. }
    lia.
Qed.
Lemma threads_ge : forall rows M, (forall c, cnt M c <= maxc c rows) -> length M <= max_threads [] rows.
Proof. intros rows M H. apply threads_ge_aux; [intros c Hc; discriminate|exact H]. Qed.

(** A pool with enough threads of each mask is not smaller. *)
Lemma row_ge : forall before todo done from M,
  (forall c, seen c before done = false -> maxc c from <= cnt M c) ->
  exists M', row_threads before done todo from + length M' <= length M
    /\ (forall c, seen c before (done ++ todo) = false -> cnt M' c = cnt M c).
Proof.
  intros before todo; induction todo as [|x todo IH]; intros done from M H.
  - exists M. rewrite app_nil_r. cbn [row_threads]. split; [lia|auto].
  - cbn [row_threads].
    assert (forall c, seen c before (done ++ [x]) = false -> c <> x /\ seen c before done = false) as W.
    { intros c Hc. apply seen_false in Hc. destruct Hc as [A B]. split.
      - intros ->. apply B. apply in_or_app. right; left; reflexivity.
      - apply seen_false. split; [exact A|]. intros I. apply B. apply in_or_app. left; exact I. }
    destruct (seen x before done) eqn:E.
    + destruct (IH (done ++ [x]) from M) as (M' & A & B).
      * intros c Hc. apply H. apply W. exact Hc.
      * exists M'. rewrite <- app_assoc in B. cbn [app] in B. split; [lia|exact B].
    + destruct (IH (done ++ [x]) from (but x M)) as (M' & A & B).
      * intros c Hc. destruct (W _ Hc) as [N G]. rewrite but_other by exact N. apply H. exact G.
      * exists M'. rewrite <- app_assoc in B. cbn [app] in B. split.
        -- pose proof (but_length x M) as L. pose proof (H x E) as Hx. unfold maxc in Hx. lia.
        -- intros c Hc. rewrite (B c Hc). apply but_other. apply seen_false in Hc. intros ->. apply (proj2 Hc).
           apply in_or_app. right; left; reflexivity.
Qed.
Lemma threads_le_aux : forall rows before M,
  (forall c, seen c before [] = false -> maxc c rows <= cnt M c) -> max_threads before rows <= length M.
Proof.
  induction rows as [|row rows IH]; intros before M H; cbn [max_threads]; [lia|].
  destruct (row_ge before row [] (row :: rows) M H) as (M' & A & B).
  assert (max_threads (before ++ [row]) rows <= length M') as X; [|lia].
  apply IH. intros c Hc. rewrite seen_app in Hc. rewrite (B c Hc).
  apply seen_false in Hc. destruct Hc as [H1 H2]. rewrite <- (maxc_cons c row rows H2). apply H. apply seen_false. split; [exact H1|intros []].
Qed.
Lemma threads_le : forall rows M, (forall c, maxc c rows <= cnt M c) -> max_threads [] rows <= length M.
Proof. intros rows M H. apply threads_le_aux. intros c _. apply H. Qed.

(** * Cells *)
Lemma set_nth_length : forall A (l : list A) i x, length (set_nth l i x) = length l.
Proof. intros A l; induction l as [|y l IH]; intros [|i] x; cbn; auto. Qed.
Lemma set_nth_error_eq : forall A (l : list A) i x, i < length l -> nth_error (set_nth l i x) i = Some x.
Proof. intros A l; induction l as [|y l IH]; intros [|i] x H; cbn in *; try lia; auto. apply IH; lia. Qed.
Lemma set_nth_error_neq : forall A (l : list A) i j x, i <> j -> nth_error (set_nth l i x) j = nth_error l j.
Proof. intros A l; induction l as [|y l IH]; intros [|i] [|j] x H; cbn; try congruence; auto. Qed.
Lemma cell_set_eq : forall l i x, i < length l -> cell (set_nth l i x) i = x.
Proof. intros l i x H. unfold cell. erewrite nth_error_nth; [reflexivity|]. apply set_nth_error_eq. exact H. Qed.
Lemma cell_set_neq : forall l i j x, i <> j -> cell (set_nth l i x) j = cell l j.
Proof.
  intros l i j x H. unfold cell. destruct (nth_error l j) eqn:E.
  - rewrite (nth_error_nth _ _ _ E). apply nth_error_nth. rewrite set_nth_error_neq by exact H. exact E.
  - apply nth_error_None in E. rewrite !nth_overflow; auto. rewrite set_nth_length. exact E.
Qed.
Lemma cell_repeat : forall n h, cell (repeat all_cpus n) h = all_cpus.
Proof.
  intros n h. unfold cell. destruct (Nat.lt_ge_cases h n) as [H|H].
  - rewrite nth_repeat. reflexivity.
  - apply nth_overflow. rewrite repeat_length. exact H.
Qed.

(** * The search for a pool thread *)
Lemma look_found : forall prev h cpu inv, (exists r, In r prev /\ cell r h = cpu) -> fst (look prev h cpu inv) = true.
Proof.
  induction prev as [|r prev IH]; intros h cpu inv (x & Hx & E); [destruct Hx|].
  cbn [look]. destruct (Z.eqb_spec (cell r h) cpu); [reflexivity|].
  apply IH. destruct Hx as [->|Hx]; [congruence|]. exists x; auto.
Qed.
Lemma look_true : forall prev h cpu inv, fst (look prev h cpu inv) = true -> exists r, In r prev /\ cell r h = cpu.
Proof.
  induction prev as [|r prev IH]; intros h cpu inv H; [discriminate|].
  cbn [look] in H. destruct (Z.eqb_spec (cell r h) cpu) as [E|E].
  - exists r. split; [left; reflexivity|exact E].
  - destruct (IH _ _ _ H) as (x & A & B). exists x. split; [right; exact A|exact B].
Qed.
Lemma look_inv : forall prev last h cpu inv, fst (look (prev ++ [last]) h cpu inv) = false ->
  snd (look (prev ++ [last]) h cpu inv) = Z.eqb (cell last h) all_cpus.
Proof.
  induction prev as [|r prev IH]; intros last h cpu inv H.
  - cbn [app look] in *. destruct (Z.eqb (cell last h) cpu); [discriminate|reflexivity].
  - cbn [app look] in *. destruct (Z.eqb (cell r h) cpu); [discriminate|]. apply IH. exact H.
Qed.

(** A free cell of the row that the state before leaves free, too. *)
Definition fresh (prev : list (list Z)) (cur : list Z) (h : nat) : Prop :=
  cell cur h = all_cpus /\ (prev = [] \/ exists p l, prev = p ++ [l] /\ cell l h = all_cpus).
(** A free cell that an earlier state gave to this mask. *)
Definition reusable (prev : list (list Z)) (cur : list Z) (cpu : Z) (h : nat) : Prop :=
  cell cur h = all_cpus /\ exists r, In r prev /\ cell r h = cpu.

Lemma fresh_test : forall prev cur h cpu, cell cur h = all_cpus -> fst (look prev h cpu false) = false ->
  (snd (look prev h cpu false) || is_nil prev = true <-> fresh prev cur h).
Proof.
  intros prev cur h cpu Hc Hf. unfold fresh. destruct prev as [|r prev'] using rev_ind.
  - cbn. split; auto.
  - clear IHprev'. rewrite (look_inv _ _ _ _ _ Hf). assert (is_nil (prev' ++ [r]) = false) as E by (destruct prev'; reflexivity).
    rewrite E, Bool.orb_false_r. rewrite Z.eqb_eq. split.
    + intros H. split; [exact Hc|]. right. exists prev', r. auto.
    + intros [_ [H|(p & l & H & G)]]; [destruct prev'; discriminate|]. apply app_inj_tail in H. destruct H as [_ ->]. exact G.
Qed.

(** The search over the whole row, from cell h on. *)
Lemma scan_spec : forall prev whole cpu cur h first,
  (forall k, cell cur k = cell whole (h + k)) -> h + length cur = length whole ->
  match scan prev cur h cpu first with
  | (Some f, _) => h <= f < length whole /\ reusable prev whole cpu f
  | (None, o) => (forall k, h <= k < length whole -> ~ reusable prev whole cpu k) /\
                 match first with
                 | Some f => o = Some f
                 | None => match o with
                           | Some f => h <= f < length whole /\ fresh prev whole f /\ (forall k, h <= k < f -> ~ fresh prev whole k)
                           | None => forall k, h <= k < length whole -> ~ fresh prev whole k
                           end
                 end
  end.
Proof.
  intros prev whole cpu cur; induction cur as [|x cur IH]; intros h first HC HL.
  - cbn [scan]. cbn [length] in HL. split; [intros k Hk; lia|]. destruct first; [reflexivity|]. intros k Hk; lia.
  - cbn [length] in HL. assert (cell whole h = x) as Hx.
    { pose proof (HC 0) as E. rewrite Nat.add_0_r in E. rewrite <- E. reflexivity. }
    assert (forall k, cell cur k = cell whole (S h + k)) as HC'.
    { intros k. pose proof (HC (S k)) as E. replace (S h + k) with (h + S k) by lia. rewrite <- E. reflexivity. }
    cbn [scan]. destruct (Z.eqb_spec x all_cpus) as [E|E].
    + destruct (look prev h cpu false) as [fd inv] eqn:EL. destruct fd.
      * split; [lia|]. split; [congruence|]. apply look_true with (inv := false). rewrite EL. reflexivity.
      * assert (~ reusable prev whole cpu h) as NR.
        { intros [_ R]. apply (look_found _ _ _ false) in R. rewrite EL in R. discriminate. }
        assert (inv || is_nil prev = true <-> fresh prev whole h) as FT.
        { pose proof (fresh_test prev whole h cpu) as T. rewrite EL in T. apply T; [congruence|reflexivity]. }
        set (first' := if inv || is_nil prev then match first with None => Some h | Some _ => first end else first).
        specialize (IH (S h) first' HC' ltac:(lia)). destruct (scan prev cur (S h) cpu first') as [[f|] o].
        -- destruct IH as [A B]. split; [lia|exact B].
        -- destruct IH as [A B]. split.
           { intros k Hk. destruct (Nat.eq_dec k h) as [->|N]; [exact NR|apply A; lia]. }
           unfold first' in B. destruct (inv || is_nil prev) eqn:EI.
           ++ destruct first as [f|]; [exact B|]. rewrite B. split; [lia|]. split; [apply FT; reflexivity|]. intros k Hk; lia.
           ++ destruct first as [f|]; [exact B|].
              assert (~ fresh prev whole h) as NF by (intros F; apply FT in F; discriminate).
              destruct o as [f|].
              ** destruct B as (B1 & B2 & B3). split; [lia|]. split; [exact B2|]. intros k Hk.
                 destruct (Nat.eq_dec k h) as [->|N]; [exact NF|apply B3; lia].
              ** intros k Hk. destruct (Nat.eq_dec k h) as [->|N]; [exact NF|apply B; lia].
    + specialize (IH (S h) first HC' ltac:(lia)).
      assert (cell whole h <> all_cpus) as NE by congruence.
      destruct (scan prev cur (S h) cpu first) as [[f|] o].
      * destruct IH as [A B]. split; [lia|exact B].
      * destruct IH as [A B]. split.
        { intros k Hk. destruct (Nat.eq_dec k h) as [->|N]; [intros [R _]; exact (NE R)|apply A; lia]. }
        destruct first as [f|]; [exact B|]. destruct o as [f|].
        -- destruct B as (B1 & B2 & B3). split; [lia|]. split; [exact B2|]. intros k Hk.
           destruct (Nat.eq_dec k h) as [->|N]; [intros [R _]; exact (NE R)|apply B3; lia].
        -- intros k Hk. destruct (Nat.eq_dec k h) as [->|N]; [intros [R _]; exact (NE R)|apply B; lia].
Qed.
