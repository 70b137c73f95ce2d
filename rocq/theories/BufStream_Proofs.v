From Verif Require Import Base StrStream_Model BufStream_Model BufStream_Spec.
From Verif Require StrStream_Proofs.

Ltac sp := repeat match goal with |- _ /\ _ => split end.
Notation zl l := (Z.of_nat (length l)).
Record brep (b : iob) (u : list Z) (p : Z) : Prop := {
  b_cells : exists R, cells b = map Some u ++ R;
  b_size : zl (cells b) = maxu b;
  b_max : 8 <= maxu b < 2 ^ 32;
  b_pos : 0 <= p <= zl u;
  b_used : zl u <= maxu b;
  b_left : left b = maxu b - p;
  b_fill : fill b = maxu b - zl u;
  b_ptr : ptr b = p
}.
Lemma bnum b u p : brep b u p -> position b = p /\ used_size b = zl u /\ used_left b = zl u - p.
Proof.
  intros [? ? ? ? ? ? ? ?]. unfold position, used_size, used_left. rewrite !uwrap_id by lia. lia.
Qed.
Lemma bempty b u p : brep b u p -> brep (empty b) [] 0.
Proof. intros [? ? ? ? ? ? ? ?]. split; cbn; try lia. exists (cells b). reflexivity. Qed.
Lemma bnew n : 8 <= n < 2 ^ 32 -> brep (new_buf n) [] 0.
Proof. intros H. split; cbn; try lia; [eexists; reflexivity|]. rewrite repeat_length. lia. Qed.

Lemma bread b u p n : brep b u p -> 0 <= n -> exists b', io_read b n = Some (firstn (Z.to_nat n) (skipn (Z.to_nat p) u), b') /\
  brep b' u (p + zl (firstn (Z.to_nat n) (skipn (Z.to_nat p) u))) /\ maxu b' = maxu b.
Proof.
  intros R Hn. destruct (bnum b u p R) as (_ & _ & UL). pose proof R as R0. destruct R0 as [[Rr Ce] Sz Mx Po Us Le Fi Pt].
  unfold io_read. rewrite UL. set (k := if n >? zl u - p then zl u - p else n).
  assert (Hk : k = Z.min n (zl u - p)) by (unfold k; destruct (n >? zl u - p) eqn:E; lia). clearbody k.
  assert (EQ : firstn (Z.to_nat n) (skipn (Z.to_nat p) u) = firstn (Z.to_nat k) (skipn (Z.to_nat p) u)).
  { destruct (Z.le_gt_cases n (zl u - p)); [f_equal; lia|]. rewrite !firstn_all2; auto; rewrite skipn_length; lia. }
  rewrite EQ. assert (LQ : zl (firstn (Z.to_nat k) (skipn (Z.to_nat p) u)) = k) by (rewrite firstn_length, skipn_length; lia).
  destruct (k >? 0) eqn:E.
  - rewrite Pt, Ce, StrStream_Proofs.peek_ok by lia. eexists. split; [reflexivity|]. rewrite LQ. split; [|reflexivity].
    split; cbn [cells maxu left fill ptr]; rewrite <- ?Ce; try lia. exists Rr. auto.
  - replace k with 0 in * by lia. cbn [Z.to_nat firstn length] in *. exists b. split; [reflexivity|]. replace (p + Z.of_nat 0) with p by lia. auto.
Qed.
Lemma bwrite b u d : brep b u (zl u) -> let k := Z.min (zl d) (maxu b - zl u) in
  exists b', io_write b d = Some (k, b') /\ brep b' (u ++ firstn (Z.to_nat k) d) (zl u + k) /\ maxu b' = maxu b.
Proof.
  intros R k. pose proof R as R0. destruct R0 as [[Rr Ce] Sz Mx Po Us Le Fi Pt]. unfold io_write.
  assert (Hk : (if zl d >? left b then left b else zl d) = k) by (rewrite Le; destruct (zl d >? maxu b - zl u) eqn:E; unfold k; lia).
  rewrite Hk. assert (K0 : 0 <= k <= zl d /\ k <= maxu b - zl u) by lia. clearbody k.
  assert (LK : zl (firstn (Z.to_nat k) d) = k) by (rewrite firstn_length; lia).
  destruct (k >? 0) eqn:E.
  - rewrite Pt, Ce. destruct (StrStream_Proofs.poke_ok u Rr (zl u) (firstn (Z.to_nat k) d)) as (R' & EP & LP).
    { lia. } { rewrite <- Ce. lia. }
    rewrite EP. eexists. split; [reflexivity|]. split; [|reflexivity]. revert EP LP. rewrite Nat2Z.id, firstn_all, skipn_all2 by lia. rewrite app_nil_r. intros EP LP.
    split; cbn [cells maxu left fill ptr]; rewrite ?app_length, ?Nat2Z.inj_add; try rewrite LK; try lia.
    + exists R'. reflexivity.
    + rewrite <- Nat2Z.inj_add, <- app_length, LP, <- Ce. lia.
    + rewrite Fi, Le. destruct (maxu b - zl u >? maxu b - zl u - k) eqn:E2; lia.
  - assert (k = 0) by lia. subst k. rewrite H. cbn [Z.to_nat firstn]. exists b. split; [reflexivity|]. rewrite app_nil_r, Z.add_0_r. auto.
Qed.
Lemma bseek b u p q : brep b u p -> 0 <= q <= zl u -> brep (snd (io_seek b q)) u q /\ maxu (snd (io_seek b q)) = maxu b.
Proof.
  intros R Hq. destruct (bnum b u p R) as (_ & US & _). destruct R as [Ce Sz Mx Po Us Le Fi Pt]. unfold io_seek. rewrite US.
  replace (q <=? zl u) with true by lia. cbn [snd]. split; [|reflexivity].
  split; cbn [cells maxu left fill ptr]; try lia; auto. rewrite uwrap_id; lia.
Qed.
Lemma bpeek b u p : brep b u p -> peek (cells b) 0 (zl u) = Some u.
Proof.
  intros [[Rr Ce] Sz Mx Po Us Le Fi Pt]. rewrite Ce, StrStream_Proofs.peek_ok by lia. cbn [Z.to_nat skipn]. rewrite Nat2Z.id, firstn_all. reflexivity.
Qed.

Lemma skipn_twice {A} (n m : nat) : forall D : list A, skipn n (skipn m D) = skipn (n + m) D.
Proof.
  induction m as [|m IH]; intros D; [rewrite Nat.add_0_r; reflexivity|].
  rewrite Nat.add_succ_r. destruct D; [rewrite !skipn_nil; reflexivity|]. cbn [skipn]. apply IH.
Qed.
(** The device *)
Lemma dev_eq a b : data a = data b -> off a = off b -> a = b.
Proof. destruct a as [a1 a2], b as [b1 b2]. cbn. congruence. Qed.
Definition dok (d : dev) : Prop := 0 <= off d <= os_size d /\ os_size d < 2 ^ 62.
Lemma os_write_nil d : dok d -> os_write d [] = d.
Proof. intros [? _]. unfold os_write. cbn [app length]. rewrite Nat.add_0_r, firstn_skipn, Z.add_0_r. destruct d; reflexivity. Qed.
Lemma os_write_app d a b : dok d -> os_write (os_write d a) b = os_write d (a ++ b).
Proof.
  intros [H _]. unfold os_write, os_size in *. cbn [data off].
  set (D := data d) in *. set (o := off d) in *.
  replace (Z.to_nat (o + zl a)) with (Z.to_nat o + length a)%nat by lia.
  assert (LF : length (firstn (Z.to_nat o) D) = Z.to_nat o) by (rewrite firstn_length; lia).
  f_equal.
  - rewrite (app_assoc (firstn (Z.to_nat o) D) a), (firstn_app _ (firstn (Z.to_nat o) D ++ a)), (skipn_app _ (firstn (Z.to_nat o) D ++ a)).
    rewrite (firstn_all2 (firstn (Z.to_nat o) D ++ a)) by (rewrite app_length; lia).
    rewrite (skipn_all2 (firstn (Z.to_nat o) D ++ a)) by (rewrite app_length; lia).
    rewrite app_length, LF. replace (Z.to_nat o + length a - (Z.to_nat o + length a))%nat with 0%nat by lia. cbn [firstn app].
    rewrite app_nil_r, <- !app_assoc. f_equal. f_equal. f_equal.
    replace (Z.to_nat o + length a + length b - (Z.to_nat o + length a))%nat with (length b) by lia. rewrite app_length.
    replace (Z.to_nat o + (length a + length b))%nat with (length b + (Z.to_nat o + length a))%nat by lia.
    apply skipn_twice.
  - rewrite app_length. lia.
Qed.
Lemma os_write_size d b : dok d -> os_size (os_write d b) = Z.max (os_size d) (off d + zl b) /\ off (os_write d b) = off d + zl b.
Proof.
  intros [H _]. unfold os_write, os_size in *. cbn [data off]. rewrite !app_length, firstn_length, skipn_length. split; lia.
Qed.

Lemma dok_write d b : dok d -> os_size d + zl b < 2 ^ 62 -> dok (os_write d b).
Proof. intros D H. destruct (os_write_size d b D) as [S1 S2]. destruct D as [D1 D2]. split; lia. Qed.

(** The invariant *)
Definition inv (s : sbs) (d : dev) (size : Z) (w big : bool) : Prop :=
  maxu (buf s) = size /\ wmode s = w /\ dok d /\ dok (device s) /\
  if w then exists u, brep (buf s) u (zl u) /\ d = os_write (device s) u
  else data d = data (device s) /\ exists u p, brep (buf s) u p /\
    ((exists A C, data d = A ++ u ++ C /\ off (device s) = zl A + zl u /\ off d = zl A + p) \/
     (big = true /\ p = zl u /\ off d = off (device s))).
Ltac sp ::= repeat match goal with |- _ /\ _ => split | |- inv _ _ _ _ _ => red | |- if true then _ else _ => cbv iota | |- if false then _ else _ => cbv iota end.
Lemma inv_big s d size w big : inv s d size w false -> inv s d size w big.
Proof.
  unfold inv. destruct w; auto. intros (H1 & H2 & H3 & H4 & H5 & u & p & B & [H6|[H6 _]]); [|discriminate].
  sp; auto; try apply H3; try apply H4. exists u, p. split; auto.
Qed.

(** switching to write mode *)
Lemma to_write_ok s d size w big : inv s d size w big -> inv (to_write s) d size true false /\ (w = false -> device (to_write s) = d /\ brep (buf (to_write s)) [] 0).
Proof.
  unfold inv, to_write. intros (M & W & D & D' & H). rewrite W. destruct w; [rewrite M, W; sp; auto; try apply D; try apply D'; discriminate|].
  destruct H as (E & u & p & B & H). destruct (bnum _ _ _ B) as (_ & US & UL). unfold resync. rewrite US, UL.
  assert (X : off (device s) - (zl u - p) = off d) by (destruct H as [(A & C & _ & E2 & E3)|(_ & E2 & E3)]; lia).
  rewrite X. pose proof D as [D1 D2]. rewrite uwrap_id by (unfold os_size in *; lia).
  pose proof (b_pos _ _ _ B) as BP.
  destruct (zl u >? 0) eqn:EU; cbn [device buf].
  - assert (Y : os_seek (device s) (off d) = d) by (unfold os_seek; rewrite <- E; destruct d; reflexivity).
    rewrite Y. assert (BE : brep (empty (buf s)) [] 0) by (eapply bempty; eauto).
    sp; auto; try lia. exists []. split; auto. symmetry. apply os_write_nil. split; auto.
  - assert (u = []) by (destruct u; [auto|cbn in EU; lia]). subst u. cbn [length] in *.
    assert (p = 0) by lia. subst p. assert (Y : device s = d) by (apply dev_eq; [auto|lia]).
    rewrite Y. sp; auto; try lia. exists []. split; auto. symmetry. apply os_write_nil. split; auto.
Qed.
Lemma flush_ok s d size w big : inv s d size w big -> exists s', flush s = Some s' /\ inv s' d size true false /\ device s' = d /\ brep (buf s') [] 0.
Proof.
  intros H. destruct (to_write_ok _ _ _ _ _ H) as [H1 _]. unfold flush. set (t := to_write s) in *. clearbody t. clear H.
  destruct H1 as (M & W & D & D' & u & B & E). destruct (bnum _ _ _ B) as (_ & US & UL). unfold no_more_space. rewrite US.
  destruct (zl u =? 0) eqn:EU.
  - assert (u = []) by (destruct u; [auto|cbn in EU; lia]). subst u. rewrite os_write_nil in E by auto.
    exists t. sp; auto; try apply D; try apply D'. exists []. split; auto. rewrite E. symmetry. apply os_write_nil. auto.
  - rewrite (bpeek _ _ _ B). eexists. split; [reflexivity|]. cbn [device buf wmode]. rewrite <- E.
    pose proof (bempty _ _ _ B) as BE. sp; cbn [device buf wmode]; auto; try apply D. exists []. split; auto. symmetry. apply os_write_nil. auto.
Qed.
Lemma inv_clean s d b : device s = d -> dok d -> brep b [] 0 -> forall size, maxu b = size -> inv (SBS (device s) b false) d size false false.
Proof.
  intros E D B size M. subst d. sp; cbn [device buf wmode]; auto; try apply D. exists [], 0. split; auto. left.
  exists (firstn (Z.to_nat (off (device s))) (data (device s))), (skipn (Z.to_nat (off (device s))) (data (device s))).
  cbn [app length]. rewrite firstn_skipn, firstn_length. destruct D as [D _]. unfold os_size in D. sp; auto; lia.
Qed.
Lemma to_read_ok s d size w big : inv s d size w big -> exists s', to_read s = Some s' /\ inv s' d size false (negb w && big).
Proof.
  intros H. unfold to_read. pose proof H as (M & W & D & D' & _). rewrite W. destruct w.
  - destruct (flush_ok _ _ _ _ _ H) as (s' & -> & (M' & W' & _) & E & B). eexists. split; [reflexivity|]. cbn [negb andb].
    apply inv_clean; auto.
  - exists s. split; auto.
Qed.

(** Refilling an exhausted buffer *)
Lemma refill_ok s size A C u p : maxu (buf s) = size -> wmode s = false -> brep (buf s) u p -> data (device s) = A ++ C -> off (device s) = zl A ->
  exists s', refill s = Some (zl C >? 0, s') /\ maxu (buf s') = size /\ wmode s' = false /\ data (device s') = A ++ C /\
    off (device s') = zl A + zl (firstn (Z.to_nat size) C) /\ brep (buf s') (firstn (Z.to_nat size) C) 0.
Proof.
  intros M W B E O. unfold refill, to_read. rewrite W. unfold no_more_data, os_read. cbn [empty maxu left fill ptr cells]. rewrite M, E, O, Nat2Z.id.
  rewrite skipn_app, skipn_all, Nat.sub_diag. cbn [skipn app]. set (u' := firstn (Z.to_nat size) C).
  pose proof (b_max _ _ _ B) as MX. rewrite M in MX.
  assert (LU : zl u' = Z.min size (zl C)) by (unfold u'; rewrite firstn_length; lia).
  eexists. split; [f_equal; f_equal|].
  - destruct (zl C >? 0) eqn:E1; lia.
  - cbn [device buf wmode data off set_used maxu cells left fill ptr]. sp; auto.
    unfold set_used. split; cbn [maxu cells left fill ptr]; try lia.
    + exists (skipn (length u') (cells (buf s))). reflexivity.
    + rewrite app_length, map_length, skipn_length. pose proof (b_size _ _ _ B). lia.
    + destruct (zl u' >? size) eqn:E2; [lia|]. rewrite uwrap_id; lia.
Qed.

(** Reading in a synchronised state *)
Definition rsync (s : sbs) (size : Z) (A u C : list Z) (p : Z) : Prop :=
  maxu (buf s) = size /\ wmode s = false /\ data (device s) = A ++ u ++ C /\ off (device s) = zl A + zl u /\ brep (buf s) u p.
Ltac sp ::= repeat match goal with |- _ /\ _ => split | |- rsync _ _ _ _ _ _ => red | |- inv _ _ _ _ _ => red | |- if true then _ else _ => cbv iota | |- if false then _ else _ => cbv iota end.
Lemma skipn_shape (u C : list Z) p : 0 <= p <= zl u -> forall n, 0 <= n ->
  firstn (Z.to_nat n) (skipn (Z.to_nat p) u ++ C) = firstn (Z.to_nat n) (skipn (Z.to_nat p) u) ++ firstn (Z.to_nat (n - (zl u - p))) C.
Proof. intros H n Hn. rewrite firstn_app, skipn_length. f_equal. f_equal. lia. Qed.

Lemma read_loop_ok size : forall fuel s A u C p toRead n out, rsync s size A u C p -> 0 <= toRead -> toRead <= Z.of_nat fuel ->
  (toRead = 0 \/ p < zl u) ->
  let r := firstn (Z.to_nat toRead) (skipn (Z.to_nat p) u ++ C) in
  exists ok k s' A' u' C' p', read_loop fuel s toRead n out = Some (ok, k, out ++ r, s') /\ rsync s' size A' u' C' p' /\
    A' ++ u' ++ C' = A ++ u ++ C /\ zl A' + p' = zl A + p + zl r /\
    ((ok = true /\ k = n + zl r) \/ (zl u - p + zl C < toRead /\ ok = false /\ n <= k <= n + zl r)).
Proof.
  induction fuel as [|fuel IH]; intros s A u C p toRead n out H H0 Hf Hp; cbn zeta.
  - assert (toRead = 0) by lia. subst toRead. cbn [read_loop]. cbn [Z.gtb Z.compare Z.to_nat firstn]. rewrite app_nil_r.
    exists true, n, s, A, u, C, p. split; [reflexivity|]. split; [auto|]. split; [auto|]. cbn [length]. split; [lia|]. left. split; [auto|lia].
  - cbn [read_loop]. destruct (toRead >? 0) eqn:E0.
    2:{ assert (toRead = 0) by lia. subst toRead. cbn [Z.to_nat firstn]. rewrite app_nil_r.
        exists true, n, s, A, u, C, p. split; [reflexivity|]. split; [auto|]. split; [auto|]. cbn [length]. split; [lia|]. left. split; [auto|lia]. }
    destruct H as (M & W & E & O & B). destruct (bread _ _ _ toRead B H0) as (b' & ER & B' & M'). rewrite ER.
    set (dd := firstn (Z.to_nat toRead) (skipn (Z.to_nat p) u)) in *.
    pose proof (b_pos _ _ _ B) as BP.
    assert (LD : zl dd = Z.min toRead (zl u - p)) by (unfold dd; rewrite firstn_length, skipn_length; lia).
    rewrite (skipn_shape u C p BP toRead H0). fold dd.
    destruct (zl dd =? toRead) eqn:ED; cbn [negb].
    + apply Z.eqb_eq in ED. destruct (IH (SBS (device s) b' (wmode s)) A u C (p + zl dd) (toRead - zl dd) (n + zl dd) (out ++ dd)) as (ok & k & s' & A' & u' & C' & p' & EL & RS & EA & EP & EK).
      { sp; cbn [device buf wmode]; auto; try lia. } { lia. } { lia. } { lia. }
      rewrite EL. replace (toRead - zl dd) with 0 in * by lia. cbn [Z.to_nat firstn length] in *.
      replace (Z.to_nat (toRead - (zl u - p))) with 0%nat by lia. cbn [firstn]. rewrite !app_nil_r.
      exists ok, k, s', A', u', C', p'. split; [reflexivity|]. split; [auto|]. split; [auto|]. split; [lia|].
      destruct EK as [[-> ->]|(X & _)]; [left; split; auto; lia|]. right. rewrite ?app_nil_r in *. lia.
    + apply Z.eqb_neq in ED. assert (LDu : zl dd = zl u - p) by lia.
      destruct (refill_ok (SBS (device s) b' (wmode s)) size (A ++ u) C u (p + zl dd)) as (s2 & -> & M2 & W2 & E2 & O2 & B2).
      { cbn [buf]. lia. } { auto. } { auto. } { cbn [device]. rewrite E, <- app_assoc. auto. } { cbn [device]. rewrite app_length. lia. }
      pose proof (b_max _ _ _ B) as MX.
      set (u2 := firstn (Z.to_nat size) C) in *. assert (C2 : C = u2 ++ skipn (Z.to_nat size) C) by (unfold u2; rewrite firstn_skipn; auto).
      assert (L2 : zl u2 = Z.min size (zl C)) by (unfold u2; rewrite firstn_length; lia).
      destruct (zl C >? 0) eqn:EC.
      * destruct (IH s2 (A ++ u) u2 (skipn (Z.to_nat size) C) 0 (toRead - zl dd) (n + zl dd) (out ++ dd)) as (ok & k & s' & A' & u' & C' & p' & EL & RS & EA & EP & EK).
        { sp; auto; try apply B2; try lia. rewrite E2, <- C2. auto. } { lia. } { lia. } { right. lia. }
        rewrite EL. cbn [Z.to_nat skipn] in *. rewrite <- C2 in *. rewrite LDu in *.
        exists ok, k, s', A', u', C', p'. rewrite <- app_assoc. split; [reflexivity|]. split; [auto|]. split; [rewrite EA, <- app_assoc; reflexivity|].
        rewrite !app_length, !Nat2Z.inj_add in *. rewrite LDu.
        assert (LC : zl C = zl u2 + zl (skipn (Z.to_nat size) C)) by (rewrite C2 at 1; rewrite app_length; lia).
        split; [lia|].
        destruct EK as [[-> ->]|(X & -> & Y)]; [left; split; auto; lia|right; split; [lia|split; auto; lia]].
      * assert (C = []) by (destruct C; [auto|cbn in EC; lia]). subst C. rewrite firstn_nil, app_nil_r in *.
        exists false, n, s2, (A ++ u), u2, [], 0. split; [reflexivity|]. cbn [length] in *.
        assert (u2 = []) by (destruct u2; [auto|cbn in L2; lia]). rewrite H in *.
        split; [sp; auto; cbn [app]; rewrite ?app_nil_r in *; auto; rewrite ?app_length in *; cbn [length] in *; lia|].
        split; [rewrite ?app_nil_r; auto|]. split; [rewrite app_length; lia|]. right. split; [lia|]. split; [auto|lia].
Qed.

Lemma rsync_inv s size A u C p d : rsync s size A u C p -> dok d -> data d = A ++ u ++ C -> off d = zl A + p -> inv s d size false false.
Proof.
  intros (M & W & E & O & B) D ED OD. sp; auto; try congruence.
  - pose proof D as [D1 D2]. unfold dok, os_size in *. rewrite E, O. rewrite ED in *. rewrite !app_length in *. lia.
  - exists u, p. split; auto. left. exists A, C. auto.
Qed.

Lemma os_read_shape d A B n : data d = A ++ B -> off d = zl A -> os_read d n = (firstn (Z.to_nat n) B, Dev (A ++ B) (zl A + zl (firstn (Z.to_nat n) B))).
Proof. intros E O. unfold os_read. rewrite E, O, Nat2Z.id, skipn_app, skipn_all, Nat.sub_diag. reflexivity. Qed.
Lemma dok_read d n : dok d -> dok (snd (os_read d n)).
Proof. intros [H1 H2]. unfold os_read, dok, os_size in *. cbn [snd data off]. rewrite firstn_length, skipn_length. lia. Qed.

Lemma read_ok s d size w big n : inv s d size w big -> 0 <= n < 2 ^ 32 ->
  exists ok k s', sbs_read s n = Some (ok, k, fst (os_read d n), s') /\ inv s' (snd (os_read d n)) size false ((negb w && big) || (size <=? 4 * n)) /\
    ((ok = true /\ k = zl (fst (os_read d n))) \/ (os_size d < off d + n /\ ok = false /\ 0 <= k <= zl (fst (os_read d n)))).
Proof.
  intros H Hn. unfold sbs_read. destruct (to_read_ok _ _ _ _ _ H) as (s1 & -> & I). set (big1 := negb w && big) in *. clearbody big1. clear H s w big.
  pose proof (dok_read d n) as DR. destruct I as (M & W & D & D' & ED & u & p & B & I). specialize (DR D).
  pose proof (b_pos _ _ _ B) as BP. pose proof (b_max _ _ _ B) as MX. pose proof (b_used _ _ _ B) as BU.
  destruct (bread _ _ _ n B ltac:(lia)) as (b' & ER & B' & M'). rewrite ER.
  set (dd := firstn (Z.to_nat n) (skipn (Z.to_nat p) u)) in *.
  assert (LD : zl dd = Z.min n (zl u - p)) by (unfold dd; rewrite firstn_length, skipn_length; lia).
  (* the data seen from the stream: L before the buffer position, remaining buffer, C after the device position *)
  assert (SH : exists L C, data d = L ++ skipn (Z.to_nat p) u ++ C /\ off d = zl L /\ off (device s1) = zl L + zl u - p /\
      ((exists A, L = A ++ firstn (Z.to_nat p) u /\ data d = A ++ u ++ C) \/ (big1 = true /\ p = zl u))).
  { destruct I as [(A & C & E1 & E2 & E3)|(Bg & E2 & E3)].
    - exists (A ++ firstn (Z.to_nat p) u), C. rewrite E1. rewrite app_length, firstn_length. rewrite <- app_assoc, (app_assoc (firstn _ u)), firstn_skipn.
      split; [auto|]. split; [lia|]. split; [lia|]. left. exists A. auto.
    - exists (firstn (Z.to_nat (off d)) (data d)), (skipn (Z.to_nat (off d)) (data d)). destruct D as [D _]. unfold os_size in D.
      rewrite (skipn_all2 u) by lia. cbn [app]. rewrite firstn_skipn, firstn_length. sp; auto; try lia. }
  destruct SH as (L & C & E1 & O1 & O2 & SH).
  rewrite (os_read_shape d L (skipn (Z.to_nat p) u ++ C) n E1 O1) in *. rewrite (skipn_shape u C p BP n ltac:(lia)) in *. fold dd in DR |- *. cbn [fst snd] in *.
  assert (OS : os_size d = zl L + (zl u - p) + zl C) by (unfold os_size; rewrite E1, !app_length, skipn_length; lia).
  destruct (zl dd =? n) eqn:EN; cbn [negb].
  - (* served by the buffer *)
    apply Z.eqb_eq in EN. replace (Z.to_nat (n - (zl u - p))) with 0%nat in * by lia. cbn [firstn] in *. rewrite !app_nil_r in *.
    exists true, (zl dd), (SBS (device s1) b' (wmode s1)). split; [reflexivity|]. split; [|left; auto].
    split; [cbn [buf]; lia|]. split; [auto|]. split; [auto|]. split; [auto|]. split; [cbn [data device]; rewrite <- E1; auto|].
    exists u, (p + zl dd). split; [auto|]. cbn [data off device].
    destruct SH as [(A & -> & E3)|(-> & ->)].
    + left. exists A, C. rewrite <- E1. rewrite app_length, firstn_length in *. sp; auto; lia.
    + right. sp; auto; lia.
  - apply Z.eqb_neq in EN. assert (LU : zl dd = zl u - p) by lia. cbn [buf]. rewrite M', M.
    assert (dd = skipn (Z.to_nat p) u) as Edd by (unfold dd; apply firstn_all2; rewrite skipn_length; lia).
    set (L1 := L ++ skipn (Z.to_nat p) u).
    assert (E1' : data (device s1) = L1 ++ C) by (unfold L1; rewrite <- ED, E1, <- app_assoc; reflexivity).
    assert (O1' : off (device s1) = zl L1) by (unfold L1; rewrite app_length, <- Edd; lia).
    rewrite LU in *.
    destruct (uwrap 32 ((n - (zl u - p)) * 4) <? size) eqn:ESM.
    + (* refill *)
      destruct (refill_ok (SBS (device s1) b' (wmode s1)) size L1 C u (p + (zl u - p))) as (s2 & -> & M2 & W2 & E2 & OO2 & B2); auto; try (cbn [buf device]; lia).
      set (u2 := firstn (Z.to_nat size) C) in *. assert (C2 : C = u2 ++ skipn (Z.to_nat size) C) by (unfold u2; rewrite firstn_skipn; auto).
      assert (L2 : zl u2 = Z.min size (zl C)) by (unfold u2; rewrite firstn_length; lia).
      destruct (zl C >? 0) eqn:EC.
      * destruct (read_loop_ok size (Z.to_nat n + 2) s2 L1 u2 (skipn (Z.to_nat size) C) 0 (n - (zl u - p)) (zl u - p) dd) as (ok & k & s' & A' & u' & C' & p' & EL & RS & EA & EP & EK); try lia.
        { sp; auto; try apply B2; try lia. rewrite E2, <- C2. auto. }
        rewrite EL. cbn [Z.to_nat skipn] in *. rewrite <- C2 in *.
        set (r := firstn (Z.to_nat (n - (zl u - p))) C) in *.
        exists ok, k, s'. split; [reflexivity|]. split.
        -- apply inv_big. apply (rsync_inv s' size A' u' C' p'); auto; cbn [data off].
           ++ rewrite EA. unfold L1. rewrite <- app_assoc. reflexivity.
           ++ rewrite EP. unfold L1. rewrite !app_length, Edd. lia.
        -- rewrite app_length. replace (zl u2 - 0 + zl (skipn (Z.to_nat size) C)) with (zl C) in EK by (rewrite C2 at 1; rewrite app_length; lia).
           destruct EK as [[-> ->]|(X & -> & Y)]; [left; split; auto; lia|right; split; [lia|split; auto; lia]].
      * assert (C = []) by (destruct C; [auto|cbn in EC; lia]). subst C. rewrite firstn_nil, app_nil_r in *.
        exists false, (zl u - p), s2. split; [reflexivity|]. cbn [length] in *.
        assert (u2 = []) as U2 by (destruct u2; [auto|cbn in L2; lia]). rewrite U2 in *. split.
        -- apply inv_big. apply (rsync_inv s2 size L1 [] [] 0); cbn [data off length app]; rewrite ?app_nil_r.
           ++ sp; auto; cbn [length app] in *; rewrite ?app_nil_r; auto.
           ++ rewrite app_nil_r in DR. exact DR.
           ++ reflexivity.
           ++ unfold L1. rewrite app_length, Edd. lia.
        -- right. split; [lia|]. split; [auto|lia].
    + (* direct read *)
      cbn [device]. rewrite (os_read_shape (device s1) L1 C _ E1' O1').
      set (r := firstn (Z.to_nat (n - (zl u - p))) C) in *. exists true, (zl u - p + zl r). eexists. split; [reflexivity|]. split.
      * split; [cbn [buf]; lia|]. split; [auto|]. split; [auto|]. split; [|split].
        -- cbn [device]. unfold dok, os_size in *. cbn [data off] in *. unfold L1. rewrite <- app_assoc. rewrite !app_length, Edd in *. rewrite ?app_length in DR. lia.
        -- cbn [data device]. unfold L1. rewrite <- app_assoc. reflexivity.
        -- exists u, (p + (zl u - p)). split; [auto|]. right. split.
           ++ assert (X : 4 * n >= size). { unfold uwrap in ESM. apply Z.ltb_ge in ESM. pose proof (Z.mod_le ((n - (zl u - p)) * 4) (2 ^ 32) ltac:(lia) ltac:(lia)). lia. }
              replace (size <=? 4 * n) with true by lia. apply orb_true_r.
           ++ split; [lia|]. cbn [off device]. unfold L1. rewrite !app_length, Edd. lia.
      * left. split; auto. rewrite app_length. lia.
Qed.

(** Writing *)
Lemma write_loop_ok size : forall fuel s d input n, inv s d size true false -> os_size d + zl input < 2 ^ 62 ->
  ((length input < fuel)%nat \/ ((length input <= fuel)%nat /\ used_size (buf s) < size) \/ length input = 0%nat) ->
  exists s', write_loop fuel s input n = Some (true, n + zl input, s') /\ inv s' (os_write d input) size true false.
Proof.
  induction fuel as [|fuel IH]; intros s d input n I HB Hf; cbn [write_loop].
  - destruct input; [|cbn in Hf; lia]. cbn. exists s. rewrite Z.add_0_r. split; auto. pose proof I as (_ & _ & D & _). rewrite os_write_nil by auto. auto.
  - destruct (zl input >? 0) eqn:E0.
    2:{ destruct input; [|cbn in E0; lia]. cbn. exists s. rewrite Z.add_0_r. split; auto. pose proof I as (_ & _ & D & _). rewrite os_write_nil by auto. auto. }
    pose proof I as (M & W & D & D' & u & B & E). destruct (bwrite _ _ input B) as (b' & -> & B' & M'). rewrite M in *.
    destruct (bnum _ _ _ B) as (_ & US & _).
    set (k := Z.min (zl input) (size - zl u)) in *. pose proof (b_used _ _ _ B) as BU. pose proof (b_max _ _ _ B) as MX. rewrite M in *.
    assert (LK : zl (firstn (Z.to_nat k) input) = k) by (rewrite firstn_length; lia).
    assert (DW : os_write d input = os_write (os_write d (firstn (Z.to_nat k) input)) (skipn (Z.to_nat k) input)) by (rewrite os_write_app, firstn_skipn; auto).
    assert (I1 : inv (SBS (device s) b' (wmode s)) (os_write d (firstn (Z.to_nat k) input)) size true false).
    { pose proof (dok_write d (firstn (Z.to_nat k) input) D ltac:(lia)) as DW2.
      sp; cbn [device buf wmode]; auto; try apply D'; try lia. exists (u ++ firstn (Z.to_nat k) input). split.
      - rewrite app_length, Nat2Z.inj_add, LK. auto.
      - rewrite E. apply os_write_app. auto. }
    destruct (os_write_size d (firstn (Z.to_nat k) input) D) as [S1 S2]. rewrite LK in S1, S2. pose proof D as [D1 D2].
    assert (SK : zl (skipn (Z.to_nat k) input) = zl input - k) by (rewrite skipn_length; lia).
    destruct (k =? zl input) eqn:EK; cbn [negb].
    + destruct (IH _ _ (skipn (Z.to_nat k) input) (n + k) I1) as (s' & -> & I2); [lia|lia|]. exists s'. rewrite <- DW in I2. split; auto. f_equal. f_equal. f_equal. lia.
    + destruct (flush_ok _ _ _ _ _ I1) as (s2 & -> & I2 & _ & B2). destruct (bnum _ _ _ B2) as (_ & US2 & _). cbn [length] in US2.
      destruct (IH _ _ (skipn (Z.to_nat k) input) (n + k) I2) as (s' & -> & I3); [lia| |].
      { rewrite US2. destruct Hf as [Hf|[[Hf Hu]|Hf]]; [right; left; lia|right; left; lia|lia]. }
      exists s'. rewrite <- DW in I3. split; auto. f_equal. f_equal. f_equal. lia.
Qed.
Lemma write_ok s d size w big input : inv s d size w big -> os_size d + zl input < 2 ^ 62 ->
  exists s', sbs_write s input = Some (true, zl input, s') /\ inv s' (os_write d input) size true false.
Proof.
  intros I HB. unfold sbs_write. destruct (to_write_ok _ _ _ _ _ I) as [I1 _]. pose proof I1 as (M & _ & D & _). rewrite M.
  destruct (size >? _).
  - destruct (write_loop_ok size (length input + 2) _ _ input 0 I1 HB) as (s' & -> & I2); [left; lia|]. exists s'. auto.
  - destruct (flush_ok _ _ _ _ _ I1) as (s2 & -> & (M2 & W2 & _) & E2 & B2). eexists. split; [reflexivity|].
    pose proof (dok_write d input D ltac:(lia)) as DW2. rewrite E2.
    sp; cbn [device buf wmode]; auto; try lia.
    exists []. split; auto. symmetry. apply os_write_nil. auto.
Qed.

(** Seeking *)
Lemma dok_seek d p : dok d -> 0 <= p <= os_size d -> dok (os_seek d p).
Proof. intros [? ?] ?. split; auto. Qed.
Lemma seek_ok s d size w big p : inv s d size w big -> 0 <= p <= os_size d -> (big = true -> p < off d - size \/ off d <= p) ->
  exists s', sbs_seek s p = Some s' /\ inv s' (os_seek d p) size w false.
Proof.
  intros I Hp Hb. unfold sbs_seek. pose proof I as (M & W & D & D' & H). rewrite W. pose proof (dok_seek d p D Hp) as DS. destruct w.
  - destruct H as (u & B & E). destruct (bnum _ _ _ B) as (_ & US & _). rewrite US. destruct (zl u >? 0) eqn:EU.
    + destruct (flush_ok _ _ _ _ _ I) as (s2 & -> & (M2 & W2 & _) & E2 & B2). eexists. split; [reflexivity|]. rewrite E2.
      sp; cbn [device buf wmode]; auto; try apply DS. exists []. split; auto. symmetry. apply os_write_nil. auto.
    + assert (u = []) by (destruct u; [auto|cbn in EU; lia]). subst u. rewrite os_write_nil in E by auto. eexists. split; [reflexivity|]. rewrite <- E.
      sp; cbn [device buf wmode]; auto; try apply DS. exists []. split; auto. symmetry. apply os_write_nil. auto.
  - destruct H as (ED & u & q & B & H). destruct (bnum _ _ _ B) as (_ & US & _). rewrite US. pose proof (b_pos _ _ _ B) as BP. pose proof (b_used _ _ _ B) as BU. rewrite M in BU.
    pose proof D as [D1 D2]. pose proof D' as [D1' D2'].
    assert (ES : os_seek (device s) p = os_seek d p) by (unfold os_seek; rewrite <- ED; reflexivity).
    assert (CL : forall b, brep b [] 0 -> maxu b = size -> inv (SBS (os_seek (device s) p) b false) (os_seek d p) size false false).
    { intros b Bb Mb. pose proof (inv_clean (SBS (os_seek (device s) p) b false) (os_seek d p) b ES DS Bb size Mb) as X. exact X. }
    destruct (zl u >? 0) eqn:EU.
    + destruct H as [(A & C & E1 & E2 & E3)|(Bg & E2 & E3)].
      * rewrite uwrap_id by (unfold os_size in *; rewrite ED in *; lia). replace (off (device s) - zl u) with (zl A) by lia.
        destruct ((p >=? zl A) && (p <? off (device s))) eqn:EP.
        -- apply andb_true_iff in EP. pose proof (b_max _ _ _ B) as MX. rewrite uwrap_id by lia. destruct (bseek _ _ _ (p - zl A) B ltac:(lia)) as [B2 M2].
           eexists. split; [reflexivity|]. sp; cbn [device buf wmode]; auto; try apply DS; try lia.
           exists u, (p - zl A). split; auto. left. exists A, C. cbn [os_seek data off]. sp; auto; lia.
        -- eexists. split; [reflexivity|]. apply CL; auto. eapply bempty; eauto.
      * specialize (Hb Bg). destruct ((p >=? uwrap 64 (off (device s) - zl u)) && (p <? off (device s))) eqn:EP.
        -- exfalso. apply andb_true_iff in EP. destruct Hb as [Hb|Hb]; [|lia].
           rewrite uwrap_id in EP by (unfold os_size in *; lia). lia.
        -- eexists. split; [reflexivity|]. apply CL; auto. eapply bempty; eauto.
    + assert (u = []) by (destruct u; [auto|cbn in EU; lia]). subst u. cbn [length] in *. assert (q = 0) by lia. subst q.
      eexists. split; [reflexivity|]. apply CL; auto.
Qed.
Lemma rel_ok s d size big k : inv s d size true big -> 0 <= off d + k <= os_size d ->
  exists s', sbs_relseek s k = Some (true, s') /\ inv s' (os_seek d (off d + k)) size true big.
Proof.
  intros I Hp. unfold sbs_relseek. pose proof I as (M & W & D & D' & u & B & E). destruct (k =? 0) eqn:E0.
  { apply Z.eqb_eq in E0. subst k. rewrite Z.add_0_r. exists s. split; auto. destruct d; auto. }
  rewrite W. destruct (bnum _ _ _ B) as (_ & US & _). rewrite US.
  assert (F : exists s2, (if zl u >? 0 then flush s else Some s) = Some s2 /\ maxu (buf s2) = size /\ wmode s2 = true /\ device s2 = d /\ brep (buf s2) [] 0).
  { destruct (zl u >? 0) eqn:EU.
    - destruct (flush_ok _ _ _ _ _ I) as (s2 & -> & (M2 & W2 & _) & E2 & B2). exists s2. sp; auto; apply B2.
    - assert (u = []) by (destruct u; [auto|cbn in EU; lia]). subst u. rewrite os_write_nil in E by auto. exists s. sp; auto; apply B. }
  destruct F as (s2 & -> & M2 & W2 & E2 & B2). rewrite W2, E2. pose proof (dok_seek d (off d + k) D Hp) as DS. pose proof D as [D1 D2].
  replace ((Z.abs k >? off d) && (k <? 0)) with false by lia. eexists. split; [reflexivity|].
  replace (uwrap 64 (if k <? 0 then off d - Z.abs k else off d + Z.abs k)) with (off d + k) by (rewrite uwrap_id; destruct (k <? 0) eqn:EK; unfold os_size in *; lia).
  sp; cbn [device buf wmode]; auto; try apply DS. exists []. split; auto. symmetry. apply os_write_nil. auto.
Qed.
Lemma position_ok s d size w big : inv s d size w big -> sbs_position s = off d.
Proof.
  intros (M & W & D & D' & H). unfold sbs_position. rewrite W. pose proof D as [D1 D2]. unfold os_size in *. destruct w.
  - destruct H as (u & B & E). destruct (bnum _ _ _ B) as (P & _ & _). rewrite P. destruct (os_write_size (device s) u D') as [_ S2]. rewrite <- E in S2. rewrite uwrap_id; lia.
  - destruct H as (ED & u & q & B & H). destruct (bnum _ _ _ B) as (_ & _ & UL). rewrite UL.
    assert (X : off (device s) - (zl u - q) = off d) by (destruct H as [(A & C & _ & E2 & E3)|(_ & E2 & E3)]; lia). rewrite X. apply uwrap_id. lia.
Qed.
Lemma flush_resync_ok s d size w big : inv s d size w big -> exists s', flush_resync s = Some s' /\ inv s' d size w false /\ device s' = d.
Proof.
  intros I. unfold flush_resync. pose proof I as (M & W & D & D' & H). rewrite W. destruct w.
  - destruct (flush_ok _ _ _ _ _ I) as (s2 & -> & I2 & E2 & B2). eauto.
  - destruct (to_write_ok _ _ _ _ _ I) as [(M2 & _) X]. destruct (X eq_refl) as [X1 X2]. unfold to_write in *. rewrite W in *. cbn [device buf] in *.
    exists (resync s). split; auto. split; auto. pose proof (inv_clean (resync s) d (buf (resync s)) X1 D X2 size M2) as Y.
    assert (W2 : wmode (resync s) = false) by (unfold resync; destruct (_ >? 0); auto).
    destruct (resync s) as [a b c]. cbn [device buf wmode] in *. rewrite W2. exact Y.
Qed.

Lemma step_ok s d size w big o r : inv s d size w big -> usable d size w big (o :: r) -> os_size d + written o < 2 ^ 62 ->
  exists a s' size' w' big', bstep s o = Some (a, s') /\ dans d o a /\ inv s' (dnext d o) size' w' big' /\ usable (dnext d o) size' w' big' r.
Proof.
  intros I U B. destruct o as [n|input|p|k| | | |n]; cbn [usable bstep dnext written] in *.
  - destruct U as [U1 U2]. destruct (read_ok _ _ _ _ _ _ I U1) as (ok & k & s' & -> & I' & A). do 5 eexists. split; [reflexivity|]. split; [|split; eauto].
    cbn [dans b_bytes b_ok b_num]. split; auto.
  - destruct U as [U1 U2]. destruct (write_ok _ _ _ _ _ input I B) as (s' & -> & I'). do 5 eexists. split; [reflexivity|]. split; [reflexivity|]. split; eauto.
  - destruct U as (U1 & U2 & U3). destruct (seek_ok _ _ _ _ _ p I U1 U2) as (s' & -> & I'). do 5 eexists. split; [reflexivity|]. split; [reflexivity|]. split; eauto.
  - destruct U as (-> & U2 & U3). destruct (rel_ok _ _ _ _ k I U2) as (s' & -> & I'). do 5 eexists. split; [reflexivity|]. split; [reflexivity|]. split; eauto.
  - destruct (flush_ok _ _ _ _ _ I) as (s' & -> & I' & _). do 5 eexists. split; [reflexivity|]. split; [reflexivity|]. split; eauto.
  - unfold sbs_size. destruct (flush_resync_ok _ _ _ _ _ I) as (s' & -> & I' & E). do 5 eexists. split; [reflexivity|]. rewrite E. split; [reflexivity|]. split; eauto.
  - rewrite (position_ok _ _ _ _ _ I). do 5 eexists. split; [reflexivity|]. split; [reflexivity|]. split; eauto.
  - destruct U as [U1 U2]. unfold sbs_set_buffer. destruct (flush_resync_ok _ _ _ _ _ I) as (s' & -> & I' & E). do 5 eexists. split; [reflexivity|]. split; [reflexivity|]. split; [|exact U2].
    assert (Y : (if n <? 8 then 8 else n) = Z.max 8 n) by (destruct (n <? 8) eqn:E8; lia). rewrite Y.
    pose proof (bnew (Z.max 8 n) ltac:(lia)) as BN. destruct I' as (_ & W' & D & D' & _). rewrite W'. destruct w.
    + sp; cbn [device buf wmode]; auto; try apply D; try apply D'. exists []. split; auto. rewrite E. symmetry. apply os_write_nil. auto.
    + apply inv_clean; auto.
Qed.
Lemma run_ok : forall ops s d size w big, inv s d size w big -> usable d size w big ops -> os_size d + total_written ops < 2 ^ 62 ->
  exists answers s' size' w' big', brun s ops = Some (answers, s') /\ dhist d ops answers /\ inv s' (dfinal d ops) size' w' big'.
Proof.
  induction ops as [|o ops IH]; intros s d size w big I U B; cbn [brun dfinal].
  - exists [], s, size, w, big. cbn. auto.
  - cbn [total_written fold_right] in B. change (fold_right _ 0 ops) with (total_written ops) in B.
    assert (TW : 0 <= total_written ops) by (clear; unfold total_written; induction ops as [|[] ops IH]; cbn [fold_right written]; lia).
    destruct (step_ok _ _ _ _ _ _ _ I U ltac:(lia)) as (a & s' & size' & w' & big' & -> & A & I' & U').
    destruct (IH _ _ _ _ _ I' U') as (l & s2 & size2 & w2 & big2 & -> & A2 & I2).
    { assert (X : os_size (dnext d o) <= os_size d + written o).
      { pose proof I as (_ & _ & D & _). destruct o; cbn [dnext written]; unfold os_seek, os_read, os_size; cbn [data snd]; try lia.
        destruct (os_write_size d d0 D) as [S1 _]. unfold os_size in *. destruct D as [D1 _]. unfold os_size in *. lia. }
      lia. }
    exists (a :: l), s2, size2, w2, big2. cbn [dhist]. auto.
Qed.
