(** C26: multi-buffer brokers copy circularly. *)
From Coq Require Import ZArith List Bool Lia.
From Verif Require Import Base MultiBuf_Model.
Import ListNotations.
Open Scope Z_scope.

Ltac zdm := Z.div_mod_to_equations; lia.

(** * Specification *)

(** The line [e] of the copy table, the answer [off] of the data source and
    the area of the signal are meaningful: the area is a circular buffer of
    maxOffset bytes and all numbers are representable. *)
Record meaningful (e : entry) (off : Z) (area : mem) : Prop :=
  { mg_max : 0 < e_max e < 2 ^ 31;
    mg_area : msize area = e_max e;
    mg_off : 0 <= e_off e;
    mg_uoff : 0 <= off;
    mg_sum : e_off e + off < 2 ^ 31;
    mg_size : 0 <= e_size e < 2 ^ 31 }.

(** The bytes of the GAM's signal are those read circularly from position
    [p] of the area; all other bytes of the GAM are what they were. *)
Definition reads_circularly (area : mem) (p g len : Z) (gam gam' : mem) : Prop :=
  msize gam' = msize gam /\
  (forall i, 0 <= i < len -> mdat gam' (g + i) = mdat area ((p + i) mod msize area)) /\
  (forall j, ~ (g <= j < g + len) -> mdat gam' j = mdat gam j).

(** The bytes of the GAM's signal are written circularly from position [p] of
    the area (of several bytes that fall on the same place the last stays);
    all other bytes of the area are what they were. *)
Definition writes_circularly (gam : mem) (g len p : Z) (area area' : mem) : Prop :=
  msize area' = msize area /\
  (forall i, 0 <= i < len -> len - msize area <= i ->
     mdat area' ((p + i) mod msize area) = mdat gam (g + i)) /\
  (forall x, (forall i, 0 <= i < len -> (p + i) mod msize area <> x) ->
     mdat area' x = mdat area x).

(** When the copy stays inside the area.  The first alternative is a copy
    that does not need to wrap; the second one is a copy of the whole signal. *)
Definition stays_inside (e : entry) (off : Z) : Prop :=
  let M := e_max e in
  (e_off e + off) mod M + e_size e <= M \/
  (e_off e = 0 /\ off < M /\ (e_size e < M \/ e_size e mod M + off <= M)).

(** * The chunks *)

Fixpoint tiles (M p o pos : Z) (cs : list chunk) (L : Z) : Prop :=
  match cs with
  | [] => pos = L
  | (g, d, len) :: cs' =>
      g = pos /\ 0 <= len /\ 0 <= o + d /\ o + d + len <= M /\
      (forall i, 0 <= i < len -> o + d + i = (p + pos + i) mod M) /\
      tiles M p o (pos + len) cs' L
  end.

Definition inb (M o : Z) (c : chunk) : Prop :=
  let '(_, d, len) := c in 0 <= len /\ 0 <= o + d /\ o + d + len <= M.

Lemma tiles_le M p o cs : forall pos L, tiles M p o pos cs L -> pos <= L.
Proof.
  induction cs as [|[[g d] len] cs IH]; cbn [tiles]; intros pos L H; [lia|].
  destruct H as (_ & Hl & _ & _ & _ & H). apply IH in H. lia.
Qed.

Lemma reduce_spec o M : 0 < M -> forall fuel off ch,
  0 <= o + off < 2 ^ 31 -> 0 <= o -> M < 2 ^ 31 -> o < 2 ^ 31 ->
  (Z.to_nat ((o + off) / M) <= fuel)%nat ->
  reduce fuel o off M ch = Some ((o + off) mod M - o, ch || (M <=? o + off)).
Proof.
  intros HM fuel; induction fuel as [|f IH]; intros off ch Hr Ho HM2 Ho2 Hf; cbn [reduce]; unfold i32 at 1;
    replace ((- 2 ^ 31 <=? o + off) && (o + off <? 2 ^ 31)) with true by lia.
  - destruct (Z.leb_spec M (o + off)) as [Hle|Hlt].
    + assert (1 <= (o + off) / M) by (apply Z.div_le_lower_bound; lia). lia.
    + rewrite orb_false_r. rewrite (Z.mod_small (o + off)) by lia. f_equal. f_equal. lia.
  - destruct (Z.leb_spec M (o + off)) as [Hle|Hlt].
    + unfold i32. replace ((- 2 ^ 31 <=? off - M) && (off - M <? 2 ^ 31)) with true by lia.
      rewrite IH; try lia.
      * f_equal. f_equal.
        -- replace (o + (off - M)) with (o + off + (-1) * M) by ring.
           rewrite Z.mod_add by lia. reflexivity.
        -- rewrite orb_true_r. reflexivity.
      * replace (o + (off - M)) with (o + off + (-1) * M) by ring.
        rewrite Z.div_add by lia.
        assert (1 <= (o + off) / M) by (apply Z.div_le_lower_bound; lia).
        lia.
    + rewrite orb_false_r. rewrite (Z.mod_small (o + off)) by lia. f_equal. f_equal. lia.
Qed.

Lemma sw z : 0 <= z < 2 ^ 31 -> swrap 32 z = z.
Proof. intros; apply swrap_id; lia. Qed.

(** The chunks, with the arithmetic simplified. *)
Lemma chunks_eq e off area : meaningful e off area ->
  let M := e_max e in let o := e_off e in let L := e_size e in
  chunks e off =
  Some (if M <=? o + off then [(0, (o + off) mod M - o, L)]
        else if o + off + L <=? M then [(0, off, L)]
        else if L <? M then
          [(0, off, M - off); (M - off, 0, L - (M - off))]
        else
          let phased := 0 <? o + off + L mod M in
          let first := if phased then [(0, off, M - off)] else [] in
          let phase := if phased then M - off else 0 in
          let off' := if phased then 0 else off in
          let full := L / M - 1 in
          first ++ full_copies (Z.to_nat full) phase off' M
          ++ [(phase + M * full, off', L - M * full - phase)]).
Proof.
  intros [H1 H2 H3 H4 H5 H6]. unfold chunks. cbv zeta.
  set (M := e_max e) in *. set (o := e_off e) in *. set (L := e_size e) in *.
  clearbody M o L. clear H2.
  rewrite (sw o) by lia. rewrite (sw off) by lia. rewrite (sw L) by lia.
  rewrite Z.max_r by lia. cbv zeta.
  rewrite (reduce_spec o M) by lia.
  cbn [orb].
  destruct (Z.leb_spec M (o + off)) as [Ha|Ha]; [reflexivity|].
  rewrite (Z.mod_small (o + off)) by lia.
  replace (o + off - o) with off by ring.
  destruct (Z.leb_spec (o + off + L) M) as [Hb|Hb].
  { replace (M - (o + off) <? L) with false by lia. reflexivity. }
  replace (M - (o + off) <? L) with true by lia.
  rewrite !(Z.rem_mod_nonneg L M) by lia.
  pose proof (Z.mod_pos_bound L M ltac:(lia)) as Hm.
  pose proof (Z.div_mod L M ltac:(lia)) as Hdm.
  assert (Hrem : Z.rem (L - L mod M) M = 0).
  { assert (0 <= L - L mod M) by (pose proof (Z.mod_le L M); lia).
    rewrite Z.rem_mod_nonneg by lia.
    replace (L - L mod M) with ((L / M) * M) by lia. apply Z.mod_mul; lia. }
  rewrite Hrem. rewrite Z.eqb_refl. cbn [andb].
  assert (Hq : Z.quot (L - L mod M) M = L / M).
  { assert (0 <= L - L mod M) by (pose proof (Z.mod_le L M); lia).
    rewrite Z.quot_div_nonneg by lia.
    replace (L - L mod M) with ((L / M) * M) by lia. apply Z.div_mul; lia. }
  rewrite Hq.
  destruct (Z.ltb_spec L M) as [Hc|Hc].
  - rewrite (Z.mod_small L M) by lia. rewrite (Z.div_small L M) by lia.
    replace (L <? L) with false by lia.
    replace (M - (o + off) <? L) with true by lia.
    cbn [Z.to_nat full_copies app Z.of_nat].
    replace (M - off + M * 0) with (M - off) by ring.
    replace (L - M * 0 - (M - off)) with (L - (M - off)) by ring. reflexivity.
  - replace (L mod M <? L) with true by lia. 
    assert (1 <= L / M) by (apply Z.div_le_lower_bound; lia).
    replace (M - (o + off) <? L mod M + M) with (0 <? o + off + L mod M) by lia.
    rewrite Z2Nat.id by lia. destruct (0 <? o + off + L mod M); reflexivity.
Qed.

Lemma tiles_app M p o cs1 : forall pos mid cs2 L,
  tiles M p o pos cs1 mid -> tiles M p o mid cs2 L -> tiles M p o pos (cs1 ++ cs2) L.
Proof.
  induction cs1 as [|[[g d] len] cs1 IH]; cbn [tiles app]; intros pos mid cs2 L H1 H2.
  - subst; auto.
  - destruct H1 as (A & B & C & D & E & F). repeat (split; [assumption|]). eauto.
Qed.

Lemma tiles_full M p : 0 < M -> forall n pos, (p + pos) mod M = 0 ->
  tiles M p 0 pos (full_copies n pos 0 M) (pos + M * Z.of_nat n).
Proof.
  intros HM n; induction n as [|n IH]; intros pos Hp.
  - cbn [tiles full_copies Z.of_nat]. ring.
  - cbn [tiles full_copies].
    split; [reflexivity|]. split; [lia|]. split; [lia|]. split; [lia|]. split.
    + intros i Hi. rewrite <- Z.add_mod_idemp_l by lia. rewrite Hp.
      rewrite Z.add_0_l. rewrite Z.mod_small; lia.
    + replace (pos + M * Z.of_nat (S n)) with (pos + M + M * Z.of_nat n) by lia.
      apply IH. replace (p + (pos + M)) with (p + pos + 1 * M) by ring.
      rewrite Z.mod_add by lia. exact Hp.
Qed.

(** Inside: the chunks tile the copy. *)
Lemma chunks_tiles e off area : meaningful e off area -> stays_inside e off ->
  exists cs, chunks e off = Some cs /\
             tiles (e_max e) (e_off e + off) (e_off e) 0 cs (e_size e).
Proof.
  intros MG SI. rewrite (chunks_eq e off area MG). unfold stays_inside in SI. cbv zeta.
  eexists; split; [reflexivity|]. destruct MG as [H1 H2 H3 H4 H5 H6].
  set (M := e_max e) in *. set (o := e_off e) in *. set (L := e_size e) in *. clearbody M o L. clear H2.
  pose proof (Z.mod_pos_bound (o + off) M ltac:(lia)) as Hp.
  destruct (Z.leb_spec M (o + off)) as [Ha|Ha].
  - assert (Hin : (o + off) mod M + L <= M) by (destruct SI as [?|(?&?&?)]; lia).
    cbn [tiles]. split; [reflexivity|]. split; [lia|]. split; [lia|]. split; [lia|]. split; [|lia].
    intros i Hi. rewrite Z.add_0_r. rewrite <- (Z.add_mod_idemp_l (o + off) i M) by lia.
    rewrite (Z.mod_small ((o + off) mod M + i)) by lia. lia.
  - rewrite (Z.mod_small (o + off)) in * by lia.
    destruct (Z.leb_spec (o + off + L) M) as [Hb|Hb].
    + cbn [tiles]. split; [reflexivity|]. split; [lia|]. split; [lia|]. split; [lia|]. split; [|lia].
      intros i Hi. rewrite Z.mod_small; lia.
    + destruct SI as [?|(Ho & Hoff & Hc)]; [lia|].
      rewrite Ho in *. rewrite Z.add_0_l in *.
      destruct (Z.ltb_spec L M) as [HL|HL].
      * cbn [tiles]. split; [reflexivity|]. split; [lia|]. split; [lia|]. split; [lia|]. split.
        { intros i Hi. rewrite Z.mod_small; lia. }
        split; [lia|]. split; [lia|]. split; [lia|]. split; [lia|]. split; [|lia].
        intros i Hi. replace (off + (0 + (M - off)) + i) with (i + 1 * M) by ring.
        rewrite Z.mod_add by lia. rewrite Z.mod_small; lia.
      * destruct Hc as [?|Hc]; [lia|].
        pose proof (Z.mod_pos_bound L M ltac:(lia)) as Hm.
        pose proof (Z.div_mod L M ltac:(lia)) as Hdm.
        assert (Hq : 1 <= L / M) by (apply Z.div_le_lower_bound; lia).
        destruct (Z.ltb_spec 0 (off + L mod M)) as [Hph|Hph].
        -- cbn [app]. cbn [tiles].
           split; [reflexivity|]. split; [lia|]. split; [lia|]. split; [lia|]. split.
           { intros i Hi. rewrite Z.mod_small; lia. }
           replace (0 + (M - off)) with (M - off) by ring.
           eapply tiles_app.
           { apply tiles_full; [lia|]. replace (off + (M - off)) with (1 * M) by ring.
             apply Z.mod_mul; lia. }
           rewrite Z2Nat.id by lia. cbn [tiles].
           split; [ring|]. split; [nia|]. split; [lia|]. split; [nia|]. split; [|nia].
           intros i Hi.
           replace (off + (M - off + M * (L / M - 1)) + i) with (i + (L / M) * M) by ring.
           rewrite Z.mod_add by lia. rewrite Z.mod_small; nia.
        -- assert (Hz : off = 0) by lia. rewrite Hz in *.
           cbn [app]. eapply tiles_app.
           { apply tiles_full; [lia|]. reflexivity. }
           rewrite Z2Nat.id by lia. cbn [tiles].
           split; [ring|]. split; [nia|]. split; [lia|]. split; [nia|]. split; [|nia].
           intros i Hi.
           replace (0 + (0 + M * (L / M - 1)) + i) with (i + (L / M - 1) * M) by ring.
           rewrite Z.mod_add by lia. rewrite Z.mod_small; nia.
Qed.

(** Outside: some chunk leaves the area. *)
Lemma chunks_inb e off area cs : meaningful e off area -> chunks e off = Some cs ->
  Forall (inb (e_max e) (e_off e)) cs -> stays_inside e off.
Proof.
  intros MG. rewrite (chunks_eq e off area MG). intro E; injection E as <-. unfold stays_inside. cbv zeta.
  destruct MG as [H1 H2 H3 H4 H5 H6].
  set (M := e_max e) in *. set (o := e_off e) in *. set (L := e_size e) in *. clearbody M o L. clear H2.
  destruct (Z.leb_spec M (o + off)) as [Ha|Ha].
  - intro F. inversion F as [|? ? F1 _]; subst. cbn [inb] in F1. left. lia.
  - rewrite (Z.mod_small (o + off)) by lia.
    destruct (Z.leb_spec (o + off + L) M) as [Hb|Hb]; [intros _; left; lia|].
    destruct (Z.ltb_spec L M) as [HL|HL].
    + intro F. inversion F as [|? ? F1 _]; subst. cbn [inb] in F1. right. lia.
    + pose proof (Z.mod_pos_bound L M ltac:(lia)) as Hm.
      pose proof (Z.div_mod L M ltac:(lia)) as Hdm.
      destruct (Z.ltb_spec 0 (o + off + L mod M)) as [Hph|Hph].
      * intro F. cbn [app] in F. inversion F as [|? ? F1 F2]; subst. cbn [inb] in F1.
        apply Forall_app in F2. destruct F2 as [_ F2]. inversion F2 as [|? ? F3 _]; subst.
        cbn [inb] in F3. right. split; [lia|]. split; [lia|]. right. nia.
      * intros _. right. lia.
Qed.

(** * Running the chunks *)

Lemma mcopy_inv dst dpos src spos len dst' : mcopy dst dpos src spos len = Some dst' ->
  0 <= len /\ 0 <= dpos /\ dpos + len <= msize dst /\ 0 <= spos /\ spos + len <= msize src /\
  msize dst' = msize dst /\
  (forall i, 0 <= i < len -> mdat dst' (dpos + i) = mdat src (spos + i)) /\
  (forall j, ~ (dpos <= j < dpos + len) -> mdat dst' j = mdat dst j).
Proof.
  unfold mcopy. destruct (_ && _) eqn:E; [|discriminate].
  intro H; injection H as <-. rewrite !andb_true_iff in E.
  cbn [msize mdat]. do 6 (split; [lia|]). split.
  - intros i Hi. replace ((dpos <=? dpos + i) && (dpos + i <? dpos + len)) with true by lia.
    f_equal. lia.
  - intros j Hj. replace ((dpos <=? j) && (j <? dpos + len)) with false by lia. reflexivity.
Qed.

Lemma mcopy_some dst dpos src spos len :
  0 <= len -> 0 <= dpos -> dpos + len <= msize dst -> 0 <= spos -> spos + len <= msize src ->
  exists dst', mcopy dst dpos src spos len = Some dst'.
Proof.
  intros. unfold mcopy.
  replace ((0 <=? len) && (0 <=? dpos) && (dpos + len <=? msize dst)
     && (0 <=? spos) && (spos + len <=? msize src)) with true by lia. eauto.
Qed.

Lemma run_in_ok e area p : forall cs gam pos L,
  tiles (msize area) p (e_off e) pos cs L -> 0 <= pos ->
  0 <= e_gam e -> e_gam e + L <= msize gam ->
  exists gam', run_in e area gam cs = Some gam' /\ msize gam' = msize gam /\
    (forall i, pos <= i < L -> mdat gam' (e_gam e + i) = mdat area ((p + i) mod msize area)) /\
    (forall j, ~ (e_gam e + pos <= j < e_gam e + L) -> mdat gam' j = mdat gam j).
Proof.
  induction cs as [|[[g d] len] cs IH]; cbn [tiles run_in]; intros gam pos L T Hpos Hg Hf.
  - subst. exists gam. split; [reflexivity|]. split; [reflexivity|]. split; [lia|auto].
  - destruct T as (-> & Hl & Hd & Hm & Hc & T).
    pose proof (tiles_le _ _ _ _ _ _ T) as HL.
    destruct (mcopy_some gam (e_gam e + pos) area (e_off e + d) len) as (g1 & E1); try lia.
    rewrite E1. apply mcopy_inv in E1. destruct E1 as (_&_&_&_&_& S1 & C1 & O1).
    destruct (IH g1 (pos + len) L T) as (g2 & E2 & S2 & C2 & O2); try lia.
    exists g2. split; [exact E2|]. split; [lia|]. split.
    + intros i Hi. destruct (Z.lt_ge_cases i (pos + len)) as [Hlt|Hge].
      * rewrite O2 by lia. replace (e_gam e + i) with (e_gam e + pos + (i - pos)) by ring.
        rewrite C1 by lia. rewrite Hc by lia. f_equal. f_equal. lia.
      * apply C2; lia.
    + intros j Hj. rewrite O2 by lia. apply O1. lia.
Qed.

Lemma run_in_inb e area : forall cs gam gam',
  run_in e area gam cs = Some gam' -> Forall (inb (msize area) (e_off e)) cs.
Proof.
  induction cs as [|[[g d] len] cs IH]; cbn [run_in]; intros gam gam' H; [constructor|].
  destruct (mcopy _ _ _ _ _) as [g1|] eqn:E; [|discriminate].
  apply mcopy_inv in E. constructor; [|eauto]. cbn [inb]. lia.
Qed.

Lemma mod_inj M p i j : 0 < M -> 0 < j - i < M -> (p + j) mod M <> (p + i) mod M.
Proof.
  intros HM H E.
  assert (Hd : (j - i) mod M = 0).
  { replace (j - i) with ((p + j) - (p + i)) by ring.
    rewrite Zminus_mod, E, Z.sub_diag. apply Z.mod_0_l. lia. }
  rewrite Z.mod_small in Hd; lia.
Qed.

Lemma run_out_ok e gam p : forall cs area pos L,
  0 < msize area ->
  tiles (msize area) p (e_off e) pos cs L -> 0 <= pos ->
  0 <= e_gam e -> e_gam e + L <= msize gam ->
  exists area', run_out e gam area cs = Some area' /\ msize area' = msize area /\
    (forall i, pos <= i < L -> L - msize area <= i ->
        mdat area' ((p + i) mod msize area) = mdat gam (e_gam e + i)) /\
    (forall x, (forall i, pos <= i < L -> (p + i) mod msize area <> x) ->
        mdat area' x = mdat area x).
Proof.
  induction cs as [|[[g d] len] cs IH]; cbn [tiles run_out]; intros area pos L HM T Hpos Hg Hf.
  - subst. exists area. split; [reflexivity|]. split; [reflexivity|]. split; [lia|auto].
  - destruct T as (-> & Hl & Hd & Hm & Hc & T).
    pose proof (tiles_le _ _ _ _ _ _ T) as HL.
    destruct (mcopy_some area (e_off e + d) gam (e_gam e + pos) len) as (a1 & E1); try lia.
    rewrite E1. apply mcopy_inv in E1. destruct E1 as (_&_&_&_&_& S1 & C1 & O1).
    rewrite <- S1 in T, HM.
    destruct (IH a1 (pos + len) L HM T) as (a2 & E2 & S2 & C2 & O2); try lia.
    exists a2. split; [exact E2|]. split; [lia|]. rewrite S1 in *. split.
    + intros i Hi Hw. destruct (Z.lt_ge_cases i (pos + len)) as [Hlt|Hge].
      * rewrite O2.
        -- replace ((p + i) mod msize area) with (e_off e + d + (i - pos)).
           ++ rewrite C1 by lia. f_equal. lia.
           ++ rewrite Hc by lia. f_equal. lia.
        -- intros j Hj. apply mod_inj; lia.
      * apply C2; lia.
    + intros x Hx. rewrite O2.
      * apply O1. intro Hin.
        apply (Hx (pos + (x - (e_off e + d)))); [lia|].
        replace (p + (pos + (x - (e_off e + d)))) with (p + pos + (x - (e_off e + d))) by ring.
        rewrite <- Hc by lia. ring.
      * intros i Hi. apply Hx. lia.
Qed.

Lemma run_out_inb e gam : forall cs area area',
  run_out e gam area cs = Some area' ->
  msize area' = msize area /\ Forall (inb (msize area) (e_off e)) cs.
Proof.
  induction cs as [|[[g d] len] cs IH]; cbn [run_out]; intros area area' H.
  - injection H as <-. split; [reflexivity|constructor].
  - destruct (mcopy _ _ _ _ _) as [a1|] eqn:E; [|discriminate].
    apply mcopy_inv in E. destruct E as (A&B&C&D&F&S1&_).
    apply IH in H. rewrite S1 in H. destruct H as [H1 H2]. split; [exact H1|].
    constructor; [cbn [inb]; lia|exact H2].
Qed.

(** * The theorems *)

(** Reading.  Whatever the sizes and offsets, a copy that stays inside the
    area reads consecutive bytes modulo the size of the area and changes
    nothing else. *)
Theorem C26_read_circular :
  forall e off area gam,
    meaningful e off area -> stays_inside e off ->
    0 <= e_gam e -> e_gam e + e_size e <= msize gam ->
    exists gam', copy_in e off area gam = Some gam' /\
      reads_circularly area (e_off e + off) (e_gam e) (e_size e) gam gam'.
Proof.
  intros e off area gam MG SI Hg Hf.
  destruct (chunks_tiles e off area MG SI) as (cs & E & T).
  unfold copy_in. rewrite E. rewrite <- (mg_area _ _ _ MG) in T.
  destruct (run_in_ok e area _ cs gam 0 (e_size e) T) as (g' & R & S & C & O); try lia.
  exists g'. split; [exact R|]. split; [exact S|]. split.
  - intros i Hi. apply C; lia.
  - intros j Hj. apply O; lia.
Qed.
Print Assumptions C26_read_circular.

(** Writing, likewise. *)
Theorem C26_write_circular :
  forall e off area gam,
    meaningful e off area -> stays_inside e off ->
    0 <= e_gam e -> e_gam e + e_size e <= msize gam ->
    exists area', copy_out e off gam area = Some area' /\
      writes_circularly gam (e_gam e) (e_size e) (e_off e + off) area area'.
Proof.
  intros e off area gam MG SI Hg Hf.
  destruct (chunks_tiles e off area MG SI) as (cs & E & T).
  unfold copy_out. rewrite E. rewrite <- (mg_area _ _ _ MG) in T.
  pose proof (mg_area _ _ _ MG). pose proof (mg_max _ _ _ MG).
  destruct (run_out_ok e gam (e_off e + off) cs area 0 (e_size e)) as (g' & R & S & C & O); try lia; auto.
  exists g'. split; [exact R|]. split; [exact S|]. split.
  - intros i Hi Hw. apply C; lia.
  - intros x Hx. apply O; auto.
Qed.
Print Assumptions C26_write_circular.

(** The condition is exact: outside it the broker accesses memory outside the
    area of the signal, in both directions. *)
Theorem C26_inside_exactly_when :
  forall e off area gam,
    meaningful e off area ->
    0 <= e_gam e -> e_gam e + e_size e <= msize gam ->
    ((exists gam', copy_in e off area gam = Some gam') <-> stays_inside e off) /\
    ((exists area', copy_out e off gam area = Some area') <-> stays_inside e off).
Proof.
  intros e off area gam MG Hg Hf. split; split.
  - intros (g' & H). unfold copy_in in H. destruct (chunks e off) as [cs|] eqn:E; [|discriminate].
    apply run_in_inb in H. rewrite (mg_area _ _ _ MG) in H. eapply chunks_inb; eauto.
  - intro SI. destruct (C26_read_circular e off area gam MG SI Hg Hf) as (g' & H & _). eauto.
  - intros (a' & H). unfold copy_out in H. destruct (chunks e off) as [cs|] eqn:E; [|discriminate].
    apply run_out_inb in H. destruct H as [_ H]. rewrite (mg_area _ _ _ MG) in H. eapply chunks_inb; eauto.
  - intro SI. destruct (C26_write_circular e off area gam MG SI Hg Hf) as (g' & H & _). eauto.
Qed.
Print Assumptions C26_inside_exactly_when.

(** A signal of [n] consecutive samples of [s] bytes, in a data source of [N]
    buffers with [n <= N], starting at sample [k < N]: sample [j] of the GAM is
    sample [(k + j) mod N] of the data source. *)
Theorem C26_whole_samples :
  forall e area gam N s k n,
    0 < N -> 0 < s -> N * s < 2 ^ 31 -> 0 <= k < N -> 0 <= n <= N ->
    e_max e = N * s -> msize area = N * s -> e_off e = 0 -> e_size e = n * s ->
    0 <= e_gam e -> e_gam e + e_size e <= msize gam ->
    exists gam', copy_in e (k * s) area gam = Some gam' /\
      msize gam' = msize gam /\
      (forall j b, 0 <= j < n -> 0 <= b < s ->
         mdat gam' (e_gam e + j * s + b) = mdat area (((k + j) mod N) * s + b)) /\
      (forall x, ~ (e_gam e <= x < e_gam e + n * s) -> mdat gam' x = mdat gam x).
Proof.
  intros e area gam N s k n HN Hs HNs Hk Hn EM EA EO ES Hg Hf.
  assert (MG : meaningful e (k * s) area).
  { constructor; try lia; nia. }
  assert (SI : stays_inside e (k * s)).
  { right. rewrite EO, EM, ES. split; [reflexivity|]. split; [nia|].
    destruct (Z.eq_dec n N) as [->|Hne]; [right|left; nia].
    rewrite Z.mod_same by nia. nia. }
  destruct (C26_read_circular e (k * s) area gam MG SI Hg Hf) as (g' & R & S & C & O).
  exists g'. split; [exact R|]. split; [exact S|]. split.
  - intros j b Hj Hb. replace (e_gam e + j * s + b) with (e_gam e + (j * s + b)) by ring.
    rewrite C by (rewrite ES; nia). f_equal. rewrite EA, EO.
    pose proof (Z.div_mod (k + j) N ltac:(lia)) as D.
    pose proof (Z.mod_pos_bound (k + j) N ltac:(lia)) as B.
    replace (0 + k * s + (j * s + b)) with (((k + j) mod N * s + b) + ((k + j) / N) * (N * s)) by nia.
    rewrite Z.mod_add by nia. rewrite Z.mod_small; nia.
  - intros x Hx. apply O. rewrite ES. exact Hx.
Qed.
Print Assumptions C26_whole_samples.

(** A range [rs, rs + r) of each sample (one line of the table for every
    sample [h]): the bytes of the range of sample [(k + h) mod N], for every
    number of samples. *)
Theorem C26_ranges :
  forall e area gam N s k h rs r,
    0 < N -> 0 < s -> 0 <= k < N -> 0 <= h -> 0 <= rs -> 0 <= r -> rs + r <= s ->
    (h + k + 1) * s < 2 ^ 31 -> N * s < 2 ^ 31 ->
    e_max e = N * s -> msize area = N * s -> e_off e = rs + h * s -> e_size e = r ->
    0 <= e_gam e -> e_gam e + e_size e <= msize gam ->
    exists gam', copy_in e (k * s) area gam = Some gam' /\
      msize gam' = msize gam /\
      (forall b, 0 <= b < r ->
         mdat gam' (e_gam e + b) = mdat area (((k + h) mod N) * s + rs + b)) /\
      (forall x, ~ (e_gam e <= x < e_gam e + r) -> mdat gam' x = mdat gam x).
Proof.
  intros e area gam N s k h rs r HN Hs Hk Hh Hrs Hr Hle Hbig HNs EM EA EO ES Hg Hf.
  destruct (Z.eq_dec rs s) as [Hfull|Hfull].
  { (* an empty range at the end of the sample *)
    assert (Hr0 : r = 0) by lia. rewrite Hr0 in *.
    assert (MG : meaningful e (k * s) area) by (constructor; try lia; nia).
    assert (SI : stays_inside e (k * s)).
    { left. rewrite ES. pose proof (Z.mod_pos_bound (e_off e + k * s) (e_max e) ltac:(lia)). lia. }
    destruct (C26_read_circular e (k * s) area gam MG SI Hg Hf) as (g' & R & S & C & O).
    exists g'. split; [exact R|]. split; [exact S|]. split; [lia|].
    intros x Hx. apply O. rewrite ES. exact Hx. }
  assert (MG : meaningful e (k * s) area).
  { constructor; try lia; nia. }
  pose proof (Z.div_mod (k + h) N ltac:(lia)) as D.
  pose proof (Z.mod_pos_bound (k + h) N ltac:(lia)) as B.
  assert (Hmod : (e_off e + k * s) mod (N * s) = ((k + h) mod N) * s + rs).
  { rewrite EO.
    replace (rs + h * s + k * s) with (((k + h) mod N * s + rs) + ((k + h) / N) * (N * s)) by nia.
    rewrite Z.mod_add by nia. rewrite Z.mod_small; nia. }
  assert (SI : stays_inside e (k * s)).
  { left. rewrite EM, ES, Hmod. nia. }
  destruct (C26_read_circular e (k * s) area gam MG SI Hg Hf) as (g' & R & S & C & O).
  exists g'. split; [exact R|]. split; [exact S|]. split.
  - intros b Hb. rewrite C by lia. f_equal. rewrite EA.
    rewrite <- (Z.add_mod_idemp_l (e_off e + k * s) b (N * s)) by nia. rewrite Hmod.
    assert (((k + h) mod N + 1) * s <= N * s) by (apply Z.mul_le_mono_nonneg_r; lia).
    assert (0 <= (k + h) mod N * s) by (apply Z.mul_nonneg_nonneg; lia).
    rewrite Z.mod_small; lia.
  - intros x Hx. apply O. rewrite ES. exact Hx.
Qed.
Print Assumptions C26_ranges.

(** ** The whole table *)

(** The lines served before the first one for which the data source fails:
    that line is copied if it is the end of the copy that fails, and not if no
    offset could be given. *)
Fixpoint served (tab : list (entry * answer)) : list (entry * Z) :=
  match tab with
  | [] => []
  | (_, (None, _)) :: _ => []
  | (e, (Some off, true)) :: tab' => (e, off) :: served tab'
  | (e, (Some off, false)) :: _ => [(e, off)]
  end.

Definition all_answered (tab : list (entry * answer)) : bool :=
  forallb (fun l => match snd l with (Some _, true) => true | _ => false end) tab.

(** The GAM memory of two lines does not overlap. *)
Definition apart (l1 l2 : entry * Z) : Prop :=
  let e1 := fst l1 in let e2 := fst l2 in
  e_gam e1 + e_size e1 <= e_gam e2 \/ e_gam e2 + e_size e2 <= e_gam e1.

(** One execution of the input broker: every line served has the circular
    bytes of its signal, in the GAM memory of that line; no other byte of the
    GAM changes; and the broker succeeds exactly when the data source answered
    for all lines. *)
Theorem C26_execute_inputs :
  forall tab ds gam,
    (forall e off, In (e, off) (served tab) ->
       meaningful e off (ds (e_sig e)) /\ stays_inside e off /\
       0 <= e_gam e /\ e_gam e + e_size e <= msize gam) ->
    ForallOrdPairs apart (served tab) ->
    exists gam', copy_inputs tab ds gam = Some (all_answered tab, gam') /\
      msize gam' = msize gam /\
      (forall e off i, In (e, off) (served tab) -> 0 <= i < e_size e ->
         mdat gam' (e_gam e + i) = mdat (ds (e_sig e)) ((e_off e + off + i) mod e_max e)) /\
      (forall j, (forall e off, In (e, off) (served tab) -> ~ (e_gam e <= j < e_gam e + e_size e)) ->
         mdat gam' j = mdat gam j).
Proof.
  induction tab as [|[e [[off|] term]] tab IH]; intros ds gam H P.
  - exists gam. cbn. split; [reflexivity|]. split; [reflexivity|]. split; [tauto|auto].
  - cbn [copy_inputs].
    assert (Hin : In (e, off) (served ((e, (Some off, term)) :: tab))).
    { cbn [served]. destruct term; left; reflexivity. }
    destruct (H _ _ Hin) as (MG & SI & Hg & Hf).
    destruct (C26_read_circular e off (ds (e_sig e)) gam MG SI Hg Hf) as (g1 & R & S1 & C1 & O1).
    rewrite R. rewrite (mg_area _ _ _ MG) in C1.
    destruct term.
    + cbn [served] in *. inversion P as [|? ? P1 P2]; subst.
      destruct (IH ds g1) as (g2 & R2 & S2 & C2 & O2); [|exact P2|].
      { intros e0 off0 H0. rewrite S1. apply H. right. exact H0. }
      exists g2. cbn [all_answered forallb snd]. split; [exact R2|]. split; [lia|]. split.
      * intros e0 off0 i [E0|H0] Hi.
        -- injection E0 as <- <-. rewrite O2; [apply C1; lia|].
           intros e1 off1 H1. rewrite Forall_forall in P1. specialize (P1 _ H1).
           unfold apart in P1; cbn [fst] in P1. lia.
        -- apply C2 with (1 := H0). exact Hi.
      * intros j Hj. rewrite O2.
        -- apply O1. apply (Hj e off). left. reflexivity.
        -- intros e1 off1 H1. apply (Hj e1 off1). right. exact H1.
    + exists g1. cbn [all_answered forallb snd andb]. split; [reflexivity|]. split; [exact S1|].
      cbn [served] in *. split.
      * intros e0 off0 i [E0|[]] Hi. injection E0 as <- <-. apply C1; lia.
      * intros j Hj. apply O1. apply (Hj e off). left. reflexivity.
  - exists gam. cbn. split; [reflexivity|]. split; [reflexivity|]. split; [tauto|auto].
Qed.
Print Assumptions C26_execute_inputs.

(** One execution of the output broker is, line by line, a circular write to
    the area of the signal of the line; the other areas do not change. *)
Inductive written (gam : mem) : list (entry * Z) -> areas -> areas -> Prop :=
| written_nil ds : written gam [] ds ds
| written_cons e off ls ds ds1 ds2 :
    writes_circularly gam (e_gam e) (e_size e) (e_off e + off) (ds (e_sig e)) (ds1 (e_sig e)) ->
    (forall k, k <> e_sig e -> ds1 k = ds k) ->
    written gam ls ds1 ds2 ->
    written gam ((e, off) :: ls) ds ds2.

Theorem C26_execute_outputs :
  forall tab ds gam,
    (forall e off, In (e, off) (served tab) ->
       meaningful e off (ds (e_sig e)) /\ stays_inside e off /\
       0 <= e_gam e /\ e_gam e + e_size e <= msize gam) ->
    exists ds', copy_outputs tab gam ds = Some (all_answered tab, ds') /\
      written gam (served tab) ds ds'.
Proof.
  induction tab as [|[e [[off|] term]] tab IH]; intros ds gam H.
  - exists ds. cbn. split; [reflexivity|constructor].
  - cbn [copy_outputs].
    assert (Hin : In (e, off) (served ((e, (Some off, term)) :: tab))).
    { cbn [served]. destruct term; left; reflexivity. }
    destruct (H _ _ Hin) as (MG & SI & Hg & Hf).
    destruct (C26_write_circular e off (ds (e_sig e)) gam MG SI Hg Hf) as (a1 & R & W).
    rewrite R.
    assert (Es : set_area ds (e_sig e) a1 (e_sig e) = a1).
    { unfold set_area. rewrite Nat.eqb_refl. reflexivity. }
    assert (Eo : forall k, k <> e_sig e -> set_area ds (e_sig e) a1 k = ds k).
    { intros k Hk. unfold set_area. apply Nat.eqb_neq in Hk. rewrite Hk. reflexivity. }
    destruct term.
    + cbn [served all_answered forallb snd andb] in *.
      destruct (IH (set_area ds (e_sig e) a1) gam) as (ds2 & R2 & W2).
      { intros e0 off0 H0. destruct (H e0 off0 (or_intror H0)) as (MG0 & SI0 & Hg0 & Hf0).
        split; [|auto].
        destruct MG0 as [M1 M2 M3 M4 M5 M6]. constructor; try assumption.
        destruct (Nat.eq_dec (e_sig e0) (e_sig e)) as [Heq|Hne].
        - rewrite Heq, Es. destruct W as [W _]. rewrite W. rewrite <- Heq. exact M2.
        - rewrite Eo by exact Hne. exact M2. }
      exists ds2. split; [exact R2|].
      econstructor; [rewrite Es; exact W|exact Eo|exact W2].
    + cbn [served all_answered forallb snd andb] in *.
      eexists. split; [reflexivity|].
      econstructor; [rewrite Es; exact W|exact Eo|constructor].
  - exists ds. cbn. split; [reflexivity|constructor].
Qed.
Print Assumptions C26_execute_outputs.

(** ** Findings *)

(** More samples than buffers: 7 samples of 4 bytes from a data source of 5
    buffers, starting at the last buffer: the last copy reads 24 bytes from
    the start of an area of 20. *)
Theorem C26_more_samples_than_buffers_refuted :
  exists e off area gam,
    meaningful e off area /\ e_off e = 0 /\ off < e_max e /\ e_size e mod 4 = 0 /\
    0 <= e_gam e /\ e_gam e + e_size e <= msize gam /\
    chunks e off = Some [(0, 16, 4); (4, 0, 24)] /\
    copy_in e off area gam = None.
Proof.
  exists (Entry 28 0 0 20 0), 16, (Mem 20 (fun i => i)), (Mem 28 (fun _ => 0)).
  split; [constructor; cbn [e_max e_off e_size msize]; lia|].
  split; [reflexivity|]. split; [cbn [e_max]; lia|]. split; [reflexivity|].
  split; [cbn [e_gam]; lia|]. split; [cbn [e_gam e_size msize]; lia|].
  split; vm_compute; reflexivity.
Qed.
Print Assumptions C26_more_samples_than_buffers_refuted.

(** An offset of one full turn (offset = maxOffset) is reduced, but then the
    copy does not wrap: 2 samples from sample 4 of a data source of 5, given as
    offset 36 instead of 16, leave the area. *)
Theorem C26_unreduced_offset_refuted :
  exists e off area gam,
    meaningful e off area /\ e_off e = 0 /\ e_size e <= e_max e /\
    0 <= e_gam e /\ e_gam e + e_size e <= msize gam /\
    copy_in e off area gam = None /\
    exists gam', copy_in e (off mod e_max e) area gam = Some gam'.
Proof.
  exists (Entry 8 0 0 20 0), 36, (Mem 20 (fun i => i)), (Mem 28 (fun _ => 0)).
  split; [constructor; cbn [e_max e_off e_size msize]; lia|].
  split; [reflexivity|]. split; [cbn [e_max e_size]; lia|].
  split; [cbn [e_gam]; lia|]. split; [cbn [e_gam e_size msize]; lia|].
  split; [vm_compute; reflexivity|].
  eexists. vm_compute. reflexivity.
Qed.
Print Assumptions C26_unreduced_offset_refuted.

(** Non-vacuity: 3 samples of 4 bytes starting at sample 3 of 4, and a range
    of 2 bytes of sample 1 + 3 of 4 of a second signal, in one execution. *)
Definition ex_tab : list (entry * answer) :=
  [(Entry 12 2 0 16 0, (Some 12, true)); (Entry 2 14 5 16 1, (Some 12, true))].
Definition ex_ds : areas := fun k => Mem 16 (fun i => i + 100 * Z.of_nat k).

Example C26_case :
  (forall e off, In (e, off) (served ex_tab) ->
     meaningful e off (ex_ds (e_sig e)) /\ stays_inside e off /\
     0 <= e_gam e /\ e_gam e + e_size e <= 16) /\
  ForallOrdPairs apart (served ex_tab) /\
  match copy_inputs ex_tab ex_ds (Mem 16 (fun _ => -1)) with
  | Some (true, g) => map (mdat g) [0;1;2;3;4;5;6;7;8;9;10;11;12;13;14;15]
      = [-1;-1;12;13;14;15;0;1;2;3;4;5;6;7;101;102]
  | _ => False
  end.
Proof.
  split.
  - intros e off [E|[E|[]]]; injection E as <- <-.
    + split; [constructor; cbn [e_max e_off e_size msize ex_ds e_sig]; lia|].
      split; [right; cbn [e_max e_off e_size]; lia|]. cbn [e_gam e_size]; lia.
    + split; [constructor; cbn [e_max e_off e_size msize ex_ds e_sig]; lia|].
      split; [left; cbn [e_max e_off e_size]; vm_compute; discriminate|]. cbn [e_gam e_size]; lia.
  - split.
    + cbn [served ex_tab]. constructor; [constructor; [left; cbn; lia|constructor]|constructor; constructor].
    + vm_compute. reflexivity.
Qed.
