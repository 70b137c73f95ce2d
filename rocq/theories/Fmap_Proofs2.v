(** Proofs about the pool of the fast scheduler: the invariant of the map. *)
From Coq Require Import Lia.
From Verif Require Import Base Fmap_Model Fmap_Spec Fmap_Proofs.
Open Scope nat_scope.

(** A row uses a pool thread for the mask of its owner or not at all. *)
Definition fits (own r : list Z) : Prop := forall h, cell r h = all_cpus \/ cell r h = cell own h.

Lemma cell_nil : forall h, cell [] h = all_cpus.
Proof. intros [|h]; reflexivity. Qed.
Lemma cell_cons_0 : forall x l, cell (x :: l) 0 = x.
Proof. reflexivity. Qed.
Lemma cell_cons_S : forall x l h, cell (x :: l) (S h) = cell l h.
Proof. reflexivity. Qed.
Lemma cell_over : forall l h, length l <= h -> cell l h = all_cpus.
Proof. intros l h H. apply nth_overflow. exact H. Qed.
Lemma cell_app_l : forall l m h, h < length l -> cell (l ++ m) h = cell l h.
Proof. intros l m h H. apply app_nth1. exact H. Qed.
Lemma cell_app_r : forall l x, cell (l ++ [x]) (length l) = x.
Proof. intros l x. unfold cell. rewrite app_nth2 by lia. rewrite Nat.sub_diag. reflexivity. Qed.
Lemma fits_tail : forall o own x r, fits (o :: own) (x :: r) -> fits own r.
Proof. intros o own x r H h. apply (H (S h)). Qed.

Lemma fits_le : forall c r own, c <> all_cpus -> fits own r -> cnt r c <= cnt own c.
Proof.
  intros c r; induction r as [|x r IH]; intros own N F; [cbn; lia|].
  destruct own as [|o own].
  - destruct (F 0) as [E|E]; rewrite cell_cons_0 in E; rewrite ?cell_nil in E; subst x;
      (rewrite count_occ_cons_neq by congruence; apply IH; [exact N|]; intros h; left; destruct (F (S h)) as [G|G]; rewrite cell_cons_S in G; [exact G|rewrite cell_nil in G; exact G]).
  - pose proof (IH own N (fits_tail _ _ _ _ F)) as L. destruct (F 0) as [E|E]; rewrite cell_cons_0 in E; rewrite ?cell_cons_0 in E; subst x.
    + rewrite count_occ_cons_neq by congruence. cbn [count_occ]. destruct (Z.eq_dec o c); lia.
    + cbn [count_occ]. destruct (Z.eq_dec o c); lia.
Qed.
Lemma fits_ge : forall c own r, c <> all_cpus -> (forall h, h < length own -> cell own h = c -> cell r h = c) -> cnt own c <= cnt r c.
Proof.
  intros c own; induction own as [|o own IH]; intros r N H; [cbn; lia|].
  destruct r as [|x r].
  - assert (cnt (o :: own) c = 0) as E; [|rewrite E; lia]. apply count_occ_not_In. intros I.
    apply (In_nth _ _ all_cpus) in I. destruct I as (h & Hh & E). specialize (H h Hh E). rewrite cell_nil in H. congruence.
  - assert (cnt own c <= cnt r c) as L.
    { apply IH; [exact N|]. intros h Hh E. apply (H (S h)); [cbn; lia|exact E]. }
    cbn [count_occ]. destruct (Z.eq_dec o c) as [E|E]; destruct (Z.eq_dec x c) as [G|G]; try lia.
    specialize (H 0 ltac:(cbn; lia) E). rewrite cell_cons_0 in H. congruence.
Qed.
Lemma fits_full : forall own r, Forall (fun o => o <> all_cpus) own -> fits own r -> (forall c, c <> all_cpus -> cnt own c <= cnt r c) ->
  forall h, h < length own -> cell r h = cell own h.
Proof.
  induction own as [|o own IH]; intros r FA F H h Hh; [cbn in Hh; lia|].
  inversion FA as [|o' own' No FA']; subst.
  assert (o :: own <> []) as _ by discriminate.
  destruct r as [|x r].
  - pose proof (H o No) as L. rewrite count_occ_cons_eq in L by reflexivity. cbn in L. lia.
  - pose proof (fits_tail _ _ _ _ F) as F'.
    assert (x = o) as Ex.
    { destruct (F 0) as [E|E]; rewrite cell_cons_0 in E; [|exact E]. subst x. exfalso.
      pose proof (H o No) as L. rewrite count_occ_cons_eq in L by reflexivity. rewrite count_occ_cons_neq in L by congruence.
      pose proof (fits_le o r own No F'). lia. }
    subst x. destruct h as [|h]; [reflexivity|]. rewrite !cell_cons_S. apply IH; auto.
    + intros c Nc. pose proof (H c Nc) as L. cbn [count_occ] in L. destruct (Z.eq_dec o c); lia.
    + cbn in Hh. lia.
Qed.
Lemma count_set : forall c r h x, h < length r -> cell r h = all_cpus -> c <> all_cpus ->
  cnt (set_nth r h x) c = cnt r c + (if Z.eq_dec x c then 1 else 0).
Proof.
  intros c r; induction r as [|y r IH]; intros h x Hh E N; [cbn in Hh; lia|].
  destruct h as [|h]; cbn [set_nth count_occ].
  - rewrite cell_cons_0 in E. subst y. destruct (Z.eq_dec all_cpus c); [congruence|]. destruct (Z.eq_dec x c); lia.
  - rewrite cell_cons_S in E. rewrite IH; [|cbn in Hh; lia|exact E|exact N]. destruct (Z.eq_dec y c); destruct (Z.eq_dec x c); lia.
Qed.
Lemma count_repeat_all : forall n c, c <> all_cpus -> cnt (repeat all_cpus n) c = 0.
Proof. intros n c N. apply count_occ_not_In. intros I. apply repeat_spec in I. congruence. Qed.
Lemma count_snoc : forall l x c, cnt (l ++ [x]) c = cnt l c + (if Z.eq_dec x c then 1 else 0).
Proof. intros l x c. rewrite count_occ_app. cbn [count_occ]. destruct (Z.eq_dec x c); lia. Qed.

Definition masks_list (n : nat) (own : list Z) : list (option Z) := map Some own ++ repeat None (n - length own).
Lemma masks_list_set : forall n own x, length own < n -> set_nth (masks_list n own) (length own) (Some x) = masks_list n (own ++ [x]).
Proof.
  intros n own x H. unfold masks_list. rewrite map_app, app_length. cbn [map length].
  replace (n - length own) with (S (n - (length own + 1))) by lia. cbn [repeat]. generalize (n - (length own + 1)) as k. intros k.
  clear H. induction own as [|o own IH]; cbn [map app length set_nth]; [reflexivity|]. rewrite IH. reflexivity.
Qed.
Lemma masks_list_nth : forall n own h, h < length own -> nth_error (masks_list n own) h = Some (Some (cell own h)).
Proof.
  intros n own h H. unfold masks_list. rewrite nth_error_app1 by (rewrite map_length; exact H).
  rewrite nth_error_map. unfold cell. rewrite (nth_error_nth' own all_cpus H). reflexivity.
Qed.
Lemma masks_list_length : forall n own, length own <= n -> length (masks_list n own) = n.
Proof. intros n own H. unfold masks_list. rewrite app_length, map_length, repeat_length. lia. Qed.

Record inv (n : nat) (prev : list (list Z)) (own own0 : list Z) (cur done : list Z) : Prop := {
  i_len : length cur = n;
  i_own : length own <= n;
  i_all : Forall (fun o => o <> all_cpus) own;
  i_prev : forall r, In r prev -> fits own r;
  i_cur : fits own cur;
  i_used : forall h, h < length own -> ~ fresh prev cur h;
  i_some : forall h, h < length own -> cell cur h = all_cpus -> exists r, In r prev /\ cell r h = cell own h;
  i_cnt : forall c, c <> all_cpus -> cnt cur c = cnt done c;
  i_max : forall c, cnt own c <= Nat.max (cnt own0 c) (cnt done c)
}.

Lemma fresh_over : forall n prev own own0 cur done h, inv n prev own own0 cur done -> length own <= h -> fresh prev cur h.
Proof.
  intros n prev own own0 cur done h I H. split.
  - destruct (i_cur _ _ _ _ _ _ I h) as [E|E]; [exact E|]. rewrite E. apply cell_over. exact H.
  - destruct prev as [|l p] using rev_ind; [left; reflexivity|]. clear IHp. right. exists p, l. split; [reflexivity|].
    destruct (i_prev _ _ _ _ _ _ I l ltac:(apply in_or_app; right; left; reflexivity) h) as [E|E]; [exact E|]. rewrite E. apply cell_over. exact H.
Qed.

(** One thread. *)
Lemma create_ok : forall n rows prev own own0 cur done cpu, inv n prev own own0 cur done -> n = max_threads [] rows ->
  cpu <> all_cpus -> (forall c, Nat.max (cnt own0 c) (cnt (done ++ [cpu]) c) <= maxc c rows) ->
  exists h ext, create_map prev cur (masks_list n own) cpu = Some (set_nth cur h cpu, masks_list n (own ++ ext), h)
    /\ h < length (own ++ ext) /\ cell (own ++ ext) h = cpu /\ cell cur h = all_cpus
    /\ inv n prev (own ++ ext) own0 (set_nth cur h cpu) (done ++ [cpu]).
Proof.
  intros n rows prev own own0 cur done cpu I Hn Nc HB.
  pose proof (scan_spec prev cur cpu cur 0 None ltac:(reflexivity) ltac:(reflexivity)) as SC.
  unfold create_map. destruct (scan prev cur 0 cpu None) as [[h|] o].
  - destruct SC as [[_ Hh] [Hfree (r & Hr & Er)]]. exists h, []. rewrite app_nil_r.
    assert (cell own h = cpu) as Eo.
    { destruct (i_prev _ _ _ _ _ _ I r Hr h) as [E|E]; congruence. }
    assert (h < length own) as Ho.
    { destruct (Nat.lt_ge_cases h (length own)) as [L|L]; [exact L|]. rewrite (cell_over own h L) in Eo. congruence. }
    split; [reflexivity|]. split; [exact Ho|]. split; [exact Eo|]. split; [exact Hfree|].
    destruct I as [J1 J2 J3 J4 J5 J6 J7 J8 J9]. constructor.
    + rewrite set_nth_length. exact J1.
    + exact J2.
    + exact J3.
    + exact J4.
    + intros k. destruct (Nat.eq_dec h k) as [<-|N].
      * right. rewrite cell_set_eq by exact Hh. congruence.
      * rewrite cell_set_neq by exact N. apply J5.
    + intros k Hk [F1 F2]. destruct (Nat.eq_dec h k) as [<-|N].
      * rewrite cell_set_eq in F1 by exact Hh. congruence.
      * rewrite cell_set_neq in F1 by exact N. apply (J6 k Hk). split; [exact F1|exact F2].
    + intros k Hk E. destruct (Nat.eq_dec h k) as [<-|N].
      * rewrite cell_set_eq in E by exact Hh. congruence.
      * rewrite cell_set_neq in E by exact N. apply J7; assumption.
    + intros c Hc. rewrite count_set by assumption. rewrite count_snoc. rewrite (J8 c Hc). reflexivity.
    + intros c. rewrite count_snoc. pose proof (J9 c). destruct (Z.eq_dec cpu c); lia.
  - destruct SC as [NR SC].
    assert (cnt own cpu = cnt done cpu) as EQ.
    { rewrite <- (i_cnt _ _ _ _ _ _ I cpu Nc). apply Nat.le_antisymm; [|apply fits_le; [exact Nc|apply (i_cur _ _ _ _ _ _ I)]].
      apply fits_ge; [exact Nc|]. intros h Hh E. destruct (i_cur _ _ _ _ _ _ I h) as [F|F]; [|congruence].
      exfalso. destruct (i_some _ _ _ _ _ _ I h Hh F) as (r & Hr & Er). apply (NR h).
      - pose proof (i_len _ _ _ _ _ _ I). pose proof (i_own _ _ _ _ _ _ I). lia.
      - split; [exact F|]. exists r. split; [exact Hr|congruence]. }
    assert (forall c, cnt (own ++ [cpu]) c <= Nat.max (cnt own0 c) (cnt (done ++ [cpu]) c)) as MX.
    { intros c. rewrite !count_snoc. pose proof (i_max _ _ _ _ _ _ I c). destruct (Z.eq_dec cpu c) as [<-|N]; lia. }
    assert (length own < n) as LT.
    { pose proof (threads_ge rows (own ++ [cpu])) as T. rewrite app_length in T. cbn [length] in T. rewrite <- Hn in T.
      enough (length own + 1 <= n) by lia. apply T. intros c. etransitivity; [apply MX|apply HB]. }
    pose proof (i_len _ _ _ _ _ _ I) as Lc.
    assert (o = Some (length own)) as ->.
    { pose proof (fresh_over _ _ _ _ _ _ (length own) I (le_n _)) as FO. destruct o as [f|].
      - destruct SC as (S1 & S2 & S3). f_equal.
        destruct (Nat.lt_trichotomy f (length own)) as [L|[L|L]]; [|exact L|].
        + exfalso. exact (i_used _ _ _ _ _ _ I f L S2).
        + exfalso. apply (S3 (length own)); [lia|exact FO].
      - exfalso. apply (SC (length own)); [lia|exact FO]. }
    clear SC. set (h := length own) in *. exists h, [cpu].
    assert (cell cur h = all_cpus) as Hfree.
    { destruct (i_cur _ _ _ _ _ _ I h) as [E|E]; [exact E|]. rewrite E. apply cell_over. unfold h. lia. }
    assert (h < length cur) as Hh by (unfold h in *; lia).
    split; [unfold h; rewrite masks_list_set by exact LT; reflexivity|].
    split; [rewrite app_length; cbn; unfold h; lia|]. split; [apply cell_app_r|]. split; [exact Hfree|].
    assert (forall r, fits own r -> fits (own ++ [cpu]) r) as FX.
    { intros r F k. destruct (F k) as [E|E]; [left; exact E|]. destruct (Nat.lt_ge_cases k (length own)) as [L|L].
      - right. rewrite cell_app_l by exact L. exact E.
      - left. rewrite E. apply cell_over. exact L. }
    destruct I as [J1 J2 J3 J4 J5 J6 J7 J8 J9]. constructor.
    + rewrite set_nth_length. exact J1.
    + rewrite app_length. cbn. unfold h in *. lia.
    + apply Forall_app. split; [exact J3|]. constructor; [exact Nc|constructor].
    + intros r Hr. apply FX. apply J4. exact Hr.
    + intros k. destruct (Nat.eq_dec h k) as [<-|N].
      * right. rewrite cell_set_eq by exact Hh. symmetry. apply cell_app_r.
      * rewrite cell_set_neq by exact N. apply FX. exact J5.
    + intros k Hk [F1 F2]. rewrite app_length in Hk. cbn in Hk. destruct (Nat.eq_dec h k) as [<-|N].
      * rewrite cell_set_eq in F1 by exact Hh. congruence.
      * rewrite cell_set_neq in F1 by exact N. apply (J6 k); [unfold h in *; lia|]. split; [exact F1|exact F2].
    + intros k Hk E. rewrite app_length in Hk. cbn in Hk. destruct (Nat.eq_dec h k) as [<-|N].
      * rewrite cell_set_eq in E by exact Hh. congruence.
      * rewrite cell_set_neq in E by exact N. rewrite cell_app_l by (unfold h in *; lia). apply J7; [unfold h in *; lia|exact E].
    + intros c Hc. rewrite count_set by assumption. rewrite count_snoc. rewrite (J8 c Hc). reflexivity.
    + exact MX.
Qed.

(** The threads of one state. *)
Lemma row_ok : forall n rows prev own0 todo own cur done, inv n prev own own0 cur done -> n = max_threads [] rows ->
  (forall c, In c todo -> c <> all_cpus) -> (forall c, Nat.max (cnt own0 c) (cnt (done ++ todo) c) <= maxc c rows) ->
  exists cur' ext l, map_row prev cur (masks_list n own) todo = Some (cur', masks_list n (own ++ ext), l)
    /\ inv n prev (own ++ ext) own0 cur' (done ++ todo)
    /\ Forall2 (fun c h => h < length (own ++ ext) /\ cell (own ++ ext) h = c) todo l /\ NoDup l
    /\ (forall h, In h l -> cell cur h = all_cpus).
Proof.
  intros n rows prev own0 todo; induction todo as [|cpu todo IH]; intros own cur done I Hn Ha HB.
  - exists cur, [], []. rewrite !app_nil_r. split; [reflexivity|]. split; [exact I|]. split; [constructor|]. split; [constructor|]. intros h [].
  - assert (forall c, Nat.max (cnt own0 c) (cnt (done ++ [cpu]) c) <= maxc c rows) as HB1.
    { intros c. pose proof (HB c) as X. rewrite !count_occ_app in *. cbn [count_occ] in *. destruct (Z.eq_dec cpu c); lia. }
    destruct (create_ok n rows prev own own0 cur done cpu I Hn (Ha cpu (or_introl eq_refl)) HB1) as (h & ext & E & H1 & H2 & H3 & I').
    destruct (IH (own ++ ext) (set_nth cur h cpu) (done ++ [cpu]) I' Hn) as (cur' & ext' & l & E' & I2 & F & ND & Fr).
    + intros c Hc. apply Ha. right; exact Hc.
    + intros c. rewrite <- app_assoc. exact (HB c).
    + rewrite <- app_assoc in E', I2, F. cbn [app] in I2. rewrite <- app_assoc in I2. cbn [app] in I2.
      exists cur', (ext ++ ext'), (h :: l). cbn [map_row]. rewrite E, E'. split; [reflexivity|]. split; [exact I2|].
      split; [|split].
      * constructor; [|exact F]. rewrite app_assoc. split; [rewrite app_length; lia|]. rewrite cell_app_l by exact H1. exact H2.
      * constructor; [|exact ND]. intros Hin. specialize (Fr h Hin). rewrite cell_set_eq in Fr.
        -- exact (Ha cpu (or_introl eq_refl) Fr).
        -- rewrite (i_len _ _ _ _ _ _ I). pose proof (i_own _ _ _ _ _ _ I'). lia.
      * intros k [<-|Hk]; [exact H3|]. specialize (Fr k Hk). destruct (Nat.eq_dec h k) as [<-|N]; [exact H3|].
        rewrite cell_set_neq in Fr by exact N. exact Fr.
Qed.

(** All the states.  [before]: the states already done. *)
Lemma rows_ok : forall n all rest before prev own, all = before ++ rest -> n = max_threads [] all ->
  (forall r c, In r all -> In c r -> c <> all_cpus) ->
  (forall b u a r c, all = b ++ u :: a -> a <> [] -> In r b -> cnt r c <= cnt u c) ->
  length own <= n -> Forall (fun o => o <> all_cpus) own ->
  (forall r, In r prev -> fits own r) ->
  (rest <> [] -> forall h, h < length own -> ~ fresh prev (repeat all_cpus n) h) ->
  (forall h, h < length own -> exists r, In r prev /\ cell r h = cell own h) ->
  (forall c, cnt own c <= maxc c before) ->
  exists ext ls, map_rows n prev rest (masks_list n own) = Some (masks_list n (own ++ ext), ls)
    /\ Forall2 (fun row l => NoDup l /\ Forall2 (fun c h => h < length (own ++ ext) /\ cell (own ++ ext) h = c) row l) rest ls
    /\ length (own ++ ext) <= n.
Proof.
  intros n all rest; induction rest as [|row rest IH]; intros before prev own HA Hn Nall Grow Lo Fo Fp Us So Mx.
  - exists [], []. rewrite app_nil_r. split; [reflexivity|]. split; [constructor|exact Lo].
  - assert (forall c, maxc c before <= maxc c all) as MA.
    { intros c. unfold maxc at 1. apply max_cpus_le; [lia|]. intros r Hr. apply max_cpus_in. rewrite HA. apply in_or_app. left; exact Hr. }
    assert (In row all) as Hrow by (rewrite HA; apply in_or_app; right; left; reflexivity).
    assert (inv n prev own own (repeat all_cpus n) []) as I0.
    { constructor.
      - apply repeat_length.
      - exact Lo.
      - exact Fo.
      - exact Fp.
      - intros h. left. apply cell_repeat.
      - apply Us. discriminate.
      - intros h Hh _. apply So. exact Hh.
      - intros c Hc. rewrite count_repeat_all by exact Hc. reflexivity.
      - intros c. lia. }
    destruct (row_ok n all prev own row own (repeat all_cpus n) [] I0 Hn) as (cur & ext & l & E & I1 & F & ND & _).
    { intros c Hc. exact (Nall row c Hrow Hc). }
    { intros c. cbn [app]. pose proof (Mx c). pose proof (MA c). pose proof (max_cpus_in c all 0 row Hrow). unfold maxc in *. lia. }
    cbn [app] in I1.
    destruct (IH (before ++ [row]) (prev ++ [cur]) (own ++ ext)) as (ext2 & ls & E2 & F2 & L2).
    + rewrite <- app_assoc. exact HA.
    + exact Hn.
    + exact Nall.
    + exact Grow.
    + apply (i_own _ _ _ _ _ _ I1).
    + apply (i_all _ _ _ _ _ _ I1).
    + intros r Hr. apply in_app_or in Hr. destruct Hr as [Hr|[<-|[]]]; [apply (i_prev _ _ _ _ _ _ I1); exact Hr|apply (i_cur _ _ _ _ _ _ I1)].
    + intros NE h Hh [_ [X|(p & q & X & Y)]]; [destruct prev; discriminate|]. apply app_inj_tail in X. destruct X as [_ <-].
      assert (cell cur h = cell (own ++ ext) h) as Z.
      { apply fits_full; [apply (i_all _ _ _ _ _ _ I1)|apply (i_cur _ _ _ _ _ _ I1)| |exact Hh].
        intros c Hc. rewrite (i_cnt _ _ _ _ _ _ I1 c Hc). etransitivity; [apply (i_max _ _ _ _ _ _ I1)|].
        apply Nat.max_lub; [|lia]. etransitivity; [apply Mx|]. unfold maxc. apply max_cpus_le; [lia|].
        intros r Hr. apply (Grow before row rest); [exact HA|exact NE|exact Hr]. }
      rewrite Y in Z. pose proof (i_all _ _ _ _ _ _ I1) as FA. rewrite Forall_forall in FA.
      apply (FA (cell (own ++ ext) h)); [apply nth_In; exact Hh|congruence].
    + intros h Hh. destruct (i_cur _ _ _ _ _ _ I1 h) as [X|X].
      * destruct (i_some _ _ _ _ _ _ I1 h Hh X) as (r & Hr & Er). exists r. split; [apply in_or_app; left; exact Hr|exact Er].
      * exists cur. split; [apply in_or_app; right; left; reflexivity|exact X].
    + intros c. etransitivity; [apply (i_max _ _ _ _ _ _ I1)|]. apply Nat.max_lub.
      * etransitivity; [apply Mx|]. unfold maxc at 1. apply max_cpus_le; [lia|]. intros r Hr. apply max_cpus_in. apply in_or_app; left; exact Hr.
      * apply max_cpus_in. apply in_or_app; right; left; reflexivity.
    + exists (ext ++ ext2), (l :: ls). cbn [map_rows]. rewrite E, E2. rewrite <- app_assoc in F2, L2 |- *. split; [reflexivity|]. split; [|exact L2].
      constructor; [|exact F2]. split; [exact ND|]. rewrite app_assoc. clear - F.
      induction F as [|c h row l [H1 H2] F IHF]; constructor; [|exact IHF]. split; [rewrite app_length; lia|].
      rewrite cell_app_l by exact H1. exact H2.
Qed.
