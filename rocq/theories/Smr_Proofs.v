From Verif Require Import Base Smr_Model Smr_Spec.

Record rep (b : smr) (v : view) (s : bool) : Prop := {
  r_cells : cells b = block v;
  r_w : canw b = writable v;
  r_small : room v < 2 ^ 32;
  r_cur : 0 <= cur v <= used v;
  r_used : used v <= room v;
  r_left : left b = room v - cur v;
  r_fill : fill b = room v - used v;
  r_ptr : s = false -> ptr b = cur v
}.
Lemma uw x : 0 <= x < 2 ^ 32 -> uwrap 32 x = x.
Proof. intros H. unfold uwrap. apply Z.mod_small. exact H. Qed.
Lemma rep_nums b v s : rep b v s -> maxu b = room v /\ used_left b = used v - cur v /\ position b = cur v /\ used_size b = used v.
Proof.
  intros [A B C D E F G H]. unfold used_left, position, used_size, maxu. rewrite A. fold (room v). rewrite F, G.
  repeat split; rewrite ?uw by lia; lia.
Qed.
Lemma open_ok w m : Z.of_nat (length m) < 2 ^ 32 -> rep (open w m) (opened w m) false.
Proof.
  intros H. destruct w; unfold open, opened, open_rw, open_ro, set_used, maxu, room; constructor; cbn [cells canw left fill ptr block writable used cur]; unfold room; cbn [block]; try lia; try reflexivity.
  destruct (_ >? _); rewrite Z.sub_diag; reflexivity.
Qed.
Lemma overwrite_len m p d : 0 <= p -> p + Z.of_nat (length d) <= Z.of_nat (length m) -> length (overwrite m p d) = length m.
Proof. intros. unfold overwrite. rewrite !app_length, firstn_length, skipn_length. lia. Qed.

Lemma step_ok b v s o : rep b v s -> proper v o -> settled s o ->
  exists b', step b o = Some (fst (expect v o), b') /\ rep b' (snd (expect v o)) (moved_back s o).
Proof.
  intros R P T. pose proof (rep_nums _ _ _ R) as (N1 & N2 & N3 & N4). pose proof R as [A B C D E F G H].
  pose proof D as [D1 D2].
  destruct o as [n|d|p|d|n| |]; cbn [step expect proper settled moved_back] in *.
  - subst s. specialize (H eq_refl). unfold read. rewrite N2.
    replace (if n >? used v - cur v then used v - cur v else n) with (Z.min n (used v - cur v)) by (destruct (Z.gtb_spec n (used v - cur v)); lia).
    set (k := Z.min n (used v - cur v)). assert (K : 0 <= k <= used v - cur v) by lia.
    destruct (Z.gtb_spec k 0).
    + unfold inside. rewrite A, H. fold (room v).
      destruct (Z.leb_spec 0 (cur v)); [|lia]. destruct (Z.leb_spec (cur v + k) (room v)); [|lia]. cbn [andb].
      eexists. split; [reflexivity|]. cbn [fst snd].
      constructor; unfold room in *; cbn [cells canw left fill ptr block writable used cur]; try assumption; try reflexivity; try lia.
      rewrite uw; lia.
    + replace k with 0 by lia. exists b. split; [reflexivity|]. cbn [snd]. rewrite Z.add_0_r. destruct v; exact R.
  - subst s. specialize (H eq_refl). unfold write. rewrite B. destruct (writable v) eqn:W; [|exists b; split; [reflexivity|exact R]].
    rewrite F.
    replace (if Z.of_nat (length d) >? room v - cur v then room v - cur v else Z.of_nat (length d)) with (Z.min (Z.of_nat (length d)) (room v - cur v))
      by (destruct (Z.gtb_spec (Z.of_nat (length d)) (room v - cur v)); lia).
    set (k := Z.min (Z.of_nat (length d)) (room v - cur v)). assert (K : 0 <= k <= room v - cur v) by lia.
    assert (L : Z.of_nat (length (firstn (Z.to_nat k) d)) = k) by (rewrite firstn_length; lia).
    destruct (Z.gtb_spec k 0).
    + unfold inside. rewrite A, H. fold (room v).
      destruct (Z.leb_spec 0 (cur v)); [|lia]. destruct (Z.leb_spec (cur v + k) (room v)); [|lia]. cbn [andb].
      eexists. split; [reflexivity|]. cbn [fst snd].
      assert (Q : Z.of_nat (length (overwrite (block v) (cur v) (firstn (Z.to_nat k) d))) = room v).
      { rewrite overwrite_len; [reflexivity|lia|]. unfold room in *. lia. }
      constructor; unfold room in Q |- *; cbn [cells canw left fill ptr block writable used cur]; rewrite ?Q; fold (room v); try assumption; try reflexivity; try lia.
      * unfold overwrite. do 2 f_equal. f_equal. lia.
      * rewrite uw; lia.
      * rewrite uw by lia. rewrite G. destruct (Z.gtb_spec (room v - used v) (room v - cur v - k)); lia.
    + assert (k = 0) as -> by lia. exists b. split; [reflexivity|]. cbn [snd Z.to_nat firstn].
      unfold overwrite. cbn [app length]. rewrite Nat.add_0_r, firstn_skipn, Z.add_0_r.
      replace (Z.max (used v) (cur v)) with (used v) by lia. destruct v; cbn in *; subst; exact R.
  - unfold seek, io_seek. rewrite N4, Z.leb_refl, N1. cbn [snd].
    destruct (Z.gtb_spec p (used v)).
    + destruct (Z.leb_spec p (used v)); [lia|]. eexists; split; [reflexivity|].
      constructor; unfold room in *; cbn [cells canw left fill ptr block writable used cur]; try assumption; try lia. rewrite uw; lia.
    + rewrite (uw p) by lia. destruct (Z.leb_spec p (used v)); [|lia]. eexists; split; [reflexivity|].
      constructor; unfold room in *; cbn [cells canw left fill ptr block writable used cur]; try assumption; try lia. rewrite uw; lia.
  - destruct P as [P1 P2]. unfold rel_seek.
    destruct (Z.gtb_spec d 2147483647); cbn [orb].
    { destruct (Z.leb_spec d 2147483647); [lia|]. rewrite andb_false_r. exists b. split; [reflexivity|]. cbn [snd]. destruct R; constructor; try assumption. intros Q. apply orb_false_elim in Q as [-> _]. auto. }
    destruct (Z.ltb_spec d (-2147483648)).
    { destruct (Z.leb_spec (-2147483648) d); [lia|]. exists b. split; [reflexivity|]. cbn [snd]. destruct R; constructor; try assumption. intros Q. apply orb_false_elim in Q as [-> _]. auto. }
    destruct (Z.leb_spec (-2147483648) d); [|lia]. destruct (Z.leb_spec d 2147483647); [|lia]. cbn [andb].
    destruct (Z.geb_spec d 0).
    + fold (used_left b). rewrite N2, F.
      eexists. split; [cbn [fst]; do 3 f_equal; destruct (Z.gtb_spec d (used v - cur v)), (Z.leb_spec 0 (cur v + d)), (Z.leb_spec (cur v + d) (used v)); try lia; reflexivity|].
      destruct (Z.gtb_spec d (used v - cur v));
      constructor; unfold room in *; cbn [snd cells canw left fill ptr block writable used cur]; try assumption; try lia; rewrite uw; lia.
    + destruct (Z.eqb_spec d (-2147483648)); [exfalso; apply P2; rewrite e; reflexivity|].
      rewrite N3. set (g := if - d >? cur v then cur v else - d).
      assert (Hg : g = Z.min (- d) (cur v)) by (unfold g; destruct (Z.gtb_spec (- d) (cur v)); lia).
      eexists. split; [cbn [fst]; do 3 f_equal; destruct (Z.gtb_spec (- d) (cur v)), (Z.leb_spec 0 (cur v + d)), (Z.leb_spec (cur v + d) (used v)); try lia; reflexivity|].
      unfold position, maxu. cbn [snd cells left]. rewrite A. fold (room v). rewrite F.
      assert (room v - cur v + g < 2 ^ 32) by lia.
      rewrite (uw (room v - cur v + g)) by lia.
      constructor; unfold room in *; cbn [cells canw left fill ptr block writable used cur]; try assumption; try reflexivity; try lia.
  - unfold set_size. rewrite (uw n) by lia. unfold set_used, used_size, maxu. cbn [cells fill]. rewrite A. fold (room v).
    destruct (Z.gtb_spec n (room v)); rewrite ?Z.sub_diag.
    + destruct (Z.leb_spec n (room v)); [lia|]. rewrite (uw 0), Z.sub_0_r, (uw (room v)) by lia.
      destruct (Z.eqb_spec (room v) n); [lia|]. eexists; split; [reflexivity|].
      constructor; unfold room in *; cbn [snd cells canw left fill ptr block writable used cur]; try assumption; try reflexivity; lia.
    + destruct (Z.leb_spec n (room v)); [|lia]. rewrite (uw (room v - n)) by lia.
      rewrite (uw (room v - (room v - n))) by lia.
      destruct (Z.eqb_spec (room v - (room v - n)) n); [|lia]. eexists; split; [reflexivity|].
      constructor; unfold room in *; cbn [snd cells canw left fill ptr block writable used cur]; try assumption; try reflexivity; lia.
  - rewrite N4. exists b. split; [reflexivity|exact R].
  - rewrite N3. exists b. split; [reflexivity|exact R].
Qed.
Lemma run_ok ops : forall b v s, rep b v s -> all_proper s v ops ->
  exists b', run b ops = Some (fst (expects v ops), b') /\ cells b' = block (snd (expects v ops)).
Proof.
  induction ops as [|o ops IH]; intros b v s R P; cbn [run expects].
  - exists b. split; [reflexivity|]. apply R.
  - destruct P as (P1 & P2 & P3). destruct (step_ok _ _ _ _ R P1 P2) as (b1 & E1 & R1).
    destruct (IH _ _ _ R1 P3) as (b2 & E2 & Q). rewrite E1, E2. destruct (expect v o) as [r v1]. cbn [fst snd] in *.
    destruct (expects v1 ops). exists b2. split; [reflexivity|exact Q].
Qed.
Lemma block_len ops : forall b v s, rep b v s -> all_proper s v ops ->
  length (block (snd (expects v ops))) = length (block v) /\ (writable v = false -> block (snd (expects v ops)) = block v).
Proof.
  induction ops as [|o ops IH]; intros b v s R P; cbn [expects]; [auto|].
  destruct P as (P1 & P2 & P3). destruct (step_ok _ _ _ _ R P1 P2) as (b1 & E1 & R1).
  destruct (IH _ _ _ R1 P3) as (Q1 & Q2).
  assert (L : length (block (snd (expect v o))) = length (block v) /\
              (writable v = false -> block (snd (expect v o)) = block v /\ writable (snd (expect v o)) = false)).
  { destruct R as [_ _ _ D E _ _ _]. destruct o; cbn [expect]; try (split; [reflexivity|intros; split; [reflexivity|assumption]]).
    - destruct (writable v) eqn:W; cbn [snd block writable].
      + split; [|discriminate]. apply overwrite_len; [lia|]. rewrite firstn_length. unfold room in *. lia.
      + auto.
    - destruct (_ && _); cbn [snd block writable]; auto. }
  destruct (expect v o) as [r v1]. cbn [snd] in *. destruct (expects v1 ops) as [rs v2]. cbn [snd] in *.
  destruct L as [L1 L2]. split; [congruence|]. intros W. destruct (L2 W) as [U1 U2]. rewrite Q2 by exact U2. exact U1.
Qed.
