(** C54: converting a number from one range of bits to another gives the nearest number that the
    destination can hold and touches nothing else. *)
From Verif Require Import Base BitsBase Bsb_Model Bsb_Spec Bsb_Proofs.
Local Open Scope Z_scope.

(** The case in which the code spills ones beyond the destination: a negative number of a signed range
    that fits in a narrower signed range. *)
Definition spills (sz dz : Z) (sg dg : bool) (v : Z) : Prop :=
  sg = true /\ dg = true /\ dz < sz /\ lowest dz true <= v < 0.

Lemma narrowed_spills sz dz sg dg v : ~ spills sz dz sg dg v -> narrowed sz dz sg dg v = false.
Proof.
  unfold spills, narrowed, lowest. intros H. destruct sg, dg; cbn; try reflexivity.
  destruct (dz <? sz) eqn:E; cbn; [|reflexivity].
  destruct (v <? 0) eqn:E2; cbn; [|reflexivity]. destruct (_ <=? v) eqn:E3; [|reflexivity].
  exfalso. apply H. repeat split; lia.
Qed.

(** The destination holds the nearest number, the pointers and shifts designate the bits that
    follow, and nothing outside the bytes of the destination changes. Missing: ranges that
    do not fit in 128 bits with the bits before them, the bits that share the last byte of the
    destination in the case [spills] (false, see below). *)
Theorem C54_value_partial : forall dm dp ds dz dg sm sp ss sz sg,
  bytes dm -> bytes sm -> 0 <= ds -> 0 <= ss ->
  let d := 8 * Z.of_nat dp + ds in
  let s := 8 * Z.of_nat sp + ss in
  inside dm d dz -> inside sm s sz -> ds mod 8 + dz <= 128 -> ss mod 8 + sz <= 128 ->
  exists o, bitset_to_bitset dm dp ds dz dg sm sp ss sz sg = Some o /\ o_ret o = true /\
    8 * Z.of_nat (o_dp o) + o_ds o = d + dz /\ 8 * Z.of_nat (o_sp o) + o_ss o = s + sz /\
    field (o_mem o) d dz dg = nearest dz dg (field sm s sz sg) /\
    same_but dm (o_mem o) d (8 * ((d + dz + 7) / 8) - d).
Proof.
  intros dm dp ds dz dg sm sp ss sz sg Bd Bs Hd Hs d s Id Is Wd Ws.
  destruct (bitset_ok dm dp ds dz dg sm sp ss sz sg Bd Bs Hd Hs Id Is Wd Ws)
    as (o & E & R & P1 & P2 & L & B & F & Fr).
  exists o. repeat (split; [assumption|]).
  intros i Hi Ho. apply Fr; [exact Hi|]. unfold next_byte.
  pose proof (Z.div_mod (d + dz + 7) 8 ltac:(lia)). pose proof (Z.mod_pos_bound (d + dz + 7) 8 ltac:(lia)).
  fold d. lia.
Qed.
Print Assumptions C54_value_partial.

(** Only the destination changes, but in the case [spills] when the destination does not end with a byte. *)
Theorem C54_frame_partial : forall dm dp ds dz dg sm sp ss sz sg o,
  bytes dm -> bytes sm -> 0 <= ds -> 0 <= ss ->
  let d := 8 * Z.of_nat dp + ds in
  let s := 8 * Z.of_nat sp + ss in
  inside dm d dz -> inside sm s sz -> ds mod 8 + dz <= 128 -> ss mod 8 + sz <= 128 ->
  ~ spills sz dz sg dg (field sm s sz sg) \/ (d + dz) mod 8 = 0 ->
  bitset_to_bitset dm dp ds dz dg sm sp ss sz sg = Some o ->
  same_but dm (o_mem o) d dz.
Proof.
  intros dm dp ds dz dg sm sp ss sz sg o Bd Bs Hd Hs d s Id Is Wd Ws Ok E.
  destruct (bitset_ok dm dp ds dz dg sm sp ss sz sg Bd Bs Hd Hs Id Is Wd Ws)
    as (o' & E' & R & P1 & P2 & L & B & F & Fr).
  rewrite E in E'. injection E' as <-.
  split; [exact L|]. split; [exact B|]. intros i Hi Ho. apply Fr; [exact Hi|].
  destruct Ho as [Ho|Ho]; [left; exact Ho|right; split; [exact Ho|]].
  destruct Ok as [Ok|Ok]; [right; apply narrowed_spills; exact Ok|left].
  unfold next_byte. fold d. pose proof (Z.div_mod (d + dz) 8 ltac:(lia)) as D. rewrite Ok in D.
  replace (d + dz + 7) with (7 + (d + dz) / 8 * 8) by lia. rewrite Z.div_add by lia.
  change (7 / 8) with 0. lia.
Qed.
Print Assumptions C54_frame_partial.

(** A range that does not fit in 128 bits is refused and nothing is written (ends below 256). *)
Theorem C54_long_partial : forall dm dp ds dz dg sm sp ss sz sg,
  0 <= ds -> 0 <= ss -> 0 <= dz -> 0 <= sz ->
  ds mod 8 + dz < 256 -> ss mod 8 + sz < 256 -> 128 < ds mod 8 + dz \/ 128 < ss mod 8 + sz ->
  exists o, bitset_to_bitset dm dp ds dz dg sm sp ss sz sg = Some o /\ o_ret o = false /\ o_mem o = dm.
Proof. exact bitset_refused. Qed.
Print Assumptions C54_long_partial.

(** Conversion between whole integers of memory (TypeConversion.cpp 214-253): the nearest value, and
    nothing else, in every case. *)
Theorem C54_integers : forall dm dp dk dg sm sp sk sg,
  bytes dm -> bytes sm -> (1 <= dk <= 16)%nat -> (1 <= sk <= 16)%nat ->
  (dp + dk <= length dm)%nat -> (sp + sk <= length sm)%nat ->
  exists o, bitset_to_bitset dm dp 0 (8 * Z.of_nat dk) dg sm sp 0 (8 * Z.of_nat sk) sg = Some o /\
    o_ret o = true /\
    field (o_mem o) (8 * Z.of_nat dp) (8 * Z.of_nat dk) dg =
      nearest (8 * Z.of_nat dk) dg (field sm (8 * Z.of_nat sp) (8 * Z.of_nat sk) sg) /\
    same_but dm (o_mem o) (8 * Z.of_nat dp) (8 * Z.of_nat dk).
Proof.
  intros dm dp dk dg sm sp sk sg Bd Bs Hd Hs Ld Ls.
  assert (Id : inside dm (8 * Z.of_nat dp + 0) (8 * Z.of_nat dk)) by (unfold inside; lia).
  assert (Is : inside sm (8 * Z.of_nat sp + 0) (8 * Z.of_nat sk)) by (unfold inside; lia).
  destruct (C54_value_partial dm dp 0 (8 * Z.of_nat dk) dg sm sp 0 (8 * Z.of_nat sk) sg Bd Bs
    ltac:(lia) ltac:(lia) Id Is ltac:(change (0 mod 8) with 0; lia) ltac:(change (0 mod 8) with 0; lia))
    as (o & E & R & _ & _ & F & _).
  pose proof (C54_frame_partial dm dp 0 (8 * Z.of_nat dk) dg sm sp 0 (8 * Z.of_nat sk) sg o Bd Bs
    ltac:(lia) ltac:(lia) Id Is ltac:(change (0 mod 8) with 0; lia) ltac:(change (0 mod 8) with 0; lia)
    ltac:(right; replace (8 * Z.of_nat dp + 0 + 8 * Z.of_nat dk) with ((Z.of_nat dp + Z.of_nat dk) * 8) by lia;
          apply Z.mod_mul; lia) E) as Fr.
  exists o. rewrite !Z.add_0_r in *. auto.
Qed.
Print Assumptions C54_integers.

(** BitSetToInteger: the variable receives the nearest value of its type. *)
Theorem C54_extract_partial : forall n dg old sm sp ss sz sg,
  (n = 1 \/ n = 2 \/ n = 4 \/ n = 8)%nat -> bytes sm -> 0 <= ss ->
  inside sm (8 * Z.of_nat sp + ss) sz -> ss mod 8 + sz <= 128 ->
  exists m sp' ss', bitset_to_integer n dg old sm sp ss sz sg = Some (true, m, sp', ss') /\
    length m = n /\ 8 * Z.of_nat sp' + ss' = 8 * Z.of_nat sp + ss + sz /\
    field m 0 (8 * Z.of_nat n) dg = nearest (8 * Z.of_nat n) dg (field sm (8 * Z.of_nat sp + ss) sz sg).
Proof.
  intros n dg old sm sp ss sz sg Hn Bs Hs Is Ws.
  assert (Id : inside (bytes_of n old) (8 * Z.of_nat 0 + 0) (8 * Z.of_nat n))
    by (unfold inside; rewrite bytes_of_length; lia).
  destruct (C54_value_partial (bytes_of n old) 0 0 (8 * Z.of_nat n) dg sm sp ss sz sg (bytes_of_bytes n old) Bs
    ltac:(lia) Hs Id Is ltac:(change (0 mod 8) with 0; lia) Ws) as (o & E & R & _ & P & F & L & _).
  unfold bitset_to_integer. rewrite E, R. do 3 eexists. split; [reflexivity|].
  rewrite bytes_of_length in L. auto.
Qed.
Print Assumptions C54_extract_partial.

(** IntegerToBitSet followed by BitSetToInteger of the same bits gives back every value that
    fits in them, whatever the integer types. *)
Theorem C54_back_partial : forall dm dp ds dz dg n n2 sg v old,
  (n = 1 \/ n = 2 \/ n = 4 \/ n = 8)%nat -> (n2 = 1 \/ n2 = 2 \/ n2 = 4 \/ n2 = 8)%nat -> dz <= 8 * Z.of_nat n2 ->
  bytes dm -> 0 <= ds -> inside dm (8 * Z.of_nat dp + ds) dz -> ds mod 8 + dz <= 128 ->
  lowest (8 * Z.of_nat n) sg <= v <= highest (8 * Z.of_nat n) sg ->
  lowest dz dg <= v <= highest dz dg ->
  exists m dp' ds' m2 sp' ss',
    integer_to_bitset dm dp ds dz dg n sg v = Some (true, m, dp', ds') /\
    bitset_to_integer n2 dg old m dp ds dz dg = Some (true, m2, sp', ss') /\
    field m2 0 (8 * Z.of_nat n2) dg = v.
Proof.
  intros dm dp ds dz dg n n2 sg v old Hn Hn2 Hz Bd Hd Id Wd Rv Rd.
  assert (Is : inside (bytes_of n v) (8 * Z.of_nat 0 + 0) (8 * Z.of_nat n))
    by (unfold inside; rewrite bytes_of_length; lia).
  destruct (C54_value_partial dm dp ds dz dg (bytes_of n v) 0 0 (8 * Z.of_nat n) sg Bd (bytes_of_bytes n v)
    Hd ltac:(lia) Id Is Wd ltac:(change (0 mod 8) with 0; lia)) as (o & E & R & _ & _ & F & L & B & _).
  assert (V : field (bytes_of n v) (8 * Z.of_nat 0 + 0) (8 * Z.of_nat n) sg = v).
  { unfold field.
    replace (unsigned_field (bytes_of n v) (8 * Z.of_nat 0 + 0) (Z.to_nat (8 * Z.of_nat n)))
      with (v mod 2 ^ (8 * Z.of_nat n)).
    - apply (signed_mod (8 * Z.of_nat n) sg v); [lia|exact Rv].
    - apply Z.bits_inj'. intros i Hi. rewrite unsigned_testbit, Z2Nat.id by lia.
      destruct (i <? 8 * Z.of_nat n) eqn:Ei.
      + rewrite Z.mod_pow2_bits_low by lia. cbn [andb].
        change (8 * Z.of_nat 0 + 0 + i) with i. rewrite bytes_of_bit by lia. reflexivity.
      + rewrite Z.mod_pow2_bits_high by lia. reflexivity. }
  rewrite V in F.
  assert (N : nearest dz dg v = v) by (unfold nearest; lia).
  rewrite N in F.
  assert (Id2 : inside (o_mem o) (8 * Z.of_nat dp + ds) dz) by (unfold inside in *; rewrite L; exact Id).
  destruct (C54_extract_partial n2 dg old (o_mem o) dp ds dz dg Hn2 B Hd Id2 Wd)
    as (m2 & sp' & ss' & E2 & _ & _ & F2).
  exists (o_mem o), (o_dp o), (o_ds o), m2, sp', ss'.
  split; [unfold integer_to_bitset; rewrite E, R; reflexivity|]. split; [exact E2|].
  rewrite F2, F. unfold nearest.
  assert (lowest (8 * Z.of_nat n2) dg <= lowest dz dg /\ highest dz dg <= highest (8 * Z.of_nat n2) dg).
  { destruct Id as (_ & Iz & _).
    assert (2 ^ (dz - 1) <= 2 ^ (8 * Z.of_nat n2 - 1)) by (apply Z.pow_le_mono_r; lia).
    assert (2 ^ dz <= 2 ^ (8 * Z.of_nat n2)) by (apply Z.pow_le_mono_r; lia).
    unfold lowest, highest. destruct dg; lia. }
  lia.
Qed.
Print Assumptions C54_back_partial.

(** A concrete case: the signed number -3 in 5 bits from bit 6 is converted to 11 bits from bit 13. *)
Example C54_case :
  let sm := [64; 7; 0] in let dm := [255; 31; 0; 254] in
  bytes sm /\ bytes dm /\ inside dm 13 11 /\ inside sm 6 5 /\ field sm 6 5 true = -3 /\
  ~ spills 5 11 true true (field sm 6 5 true) /\
  exists o, bitset_to_bitset dm 1 5 11 true sm 0 6 5 true = Some o /\
    o_mem o = [255; 191; 255; 254] /\ field (o_mem o) 13 11 true = -3 /\
    (o_dp o, o_ds o, o_sp o, o_ss o) = (1%nat, 16, 0%nat, 11).
Proof.
  cbn zeta.
  split; [repeat constructor; lia|]. split; [repeat constructor; lia|].
  split; [unfold inside; cbn [length]; lia|]. split; [unfold inside; cbn [length]; lia|].
  split; [vm_compute; reflexivity|]. split; [intros (_ & _ & H & _); discriminate H|].
  exists (Outcome true [255; 191; 255; 254] 1 16 0 11). vm_compute. auto.
Qed.

(** Saturation: 300 in 9 unsigned bits becomes 127 in 8 signed ones, -5 becomes 0 in an unsigned range. *)
Example C54_saturated :
  option_map o_mem (bitset_to_bitset [0; 0] 0 4 8 true [44; 1] 0 0 9 false) = Some [240; 7] /\
  option_map o_mem (bitset_to_bitset [170; 255] 0 4 8 false [251] 0 0 8 true) = Some [10; 240].
Proof. vm_compute. auto. Qed.

(** Finding: a negative number that fits in a narrower signed range overwrites with ones the bits that
    follow the destination in its last byte: -1 of 8 bits written to 4 bits. *)
Theorem C54_frame_refuted : ~ (forall dm dp ds dz dg sm sp ss sz sg o,
  bytes dm -> bytes sm -> 0 <= ds -> 0 <= ss ->
  let d := 8 * Z.of_nat dp + ds in
  let s := 8 * Z.of_nat sp + ss in
  inside dm d dz -> inside sm s sz -> ds mod 8 + dz <= 128 -> ss mod 8 + sz <= 128 ->
  bitset_to_bitset dm dp ds dz dg sm sp ss sz sg = Some o ->
  same_but dm (o_mem o) d dz).
Proof.
  intros H.
  assert (E : exists o, bitset_to_bitset [0] 0 0 4 true [255] 0 0 8 true = Some o /\ o_mem o = [255])
    by (exists (Outcome true [255] 0 4 0 8); vm_compute; auto).
  destruct E as (o & E & M).
  specialize (H [0] 0%nat 0 4 true [255] 0%nat 0 8 true o).
  cbn zeta in H.
  assert (B0 : bytes [0]) by (repeat constructor; lia).
  assert (B1 : bytes [255]) by (repeat constructor; lia).
  assert (I0 : inside [0] (8 * Z.of_nat 0 + 0) 4) by (unfold inside; cbn; lia).
  assert (I1 : inside [255] (8 * Z.of_nat 0 + 0) 8) by (unfold inside; cbn; lia).
  destruct (H B0 B1 ltac:(lia) ltac:(lia) I0 I1 ltac:(change (0 mod 8) with 0; lia)
    ltac:(change (0 mod 8) with 0; lia) E) as (_ & _ & Fr).
  specialize (Fr 4 ltac:(lia) ltac:(right; cbn; lia)). rewrite M in Fr. vm_compute in Fr. discriminate Fr.
Qed.
Print Assumptions C54_frame_refuted.

(** Finding: a range whose end wraps a uint8 is not refused; it is copied into a variable of 8 bits. *)
Theorem C54_long_refuted : ~ (forall dm dp ds dz dg sm sp ss sz sg,
  bytes dm -> bytes sm -> 0 <= ds < 256 -> 0 <= ss < 256 -> dz < 256 -> sz < 256 ->
  inside dm (8 * Z.of_nat dp + ds) dz -> inside sm (8 * Z.of_nat sp + ss) sz ->
  exists o, bitset_to_bitset dm dp ds dz dg sm sp ss sz sg = Some o).
Proof.
  intros H. specialize (H [0] 0%nat 0 8 false (repeat 0 33) 0%nat 7 250 false).
  assert (B0 : bytes [0]) by (repeat constructor; lia).
  assert (B1 : bytes (repeat 0 33)) by (apply Forall_forall; intros x Hx; apply repeat_spec in Hx; lia).
  assert (I0 : inside [0] (8 * Z.of_nat 0 + 0) 8) by (unfold inside; cbn; lia).
  assert (I1 : inside (repeat 0 33) (8 * Z.of_nat 0 + 7) 250)
    by (unfold inside; rewrite repeat_length; lia).
  destruct (H B0 B1 ltac:(lia) ltac:(lia) ltac:(lia) ltac:(lia) I0 I1) as (o & E).
  vm_compute in E. discriminate E.
Qed.
Print Assumptions C54_long_refuted.
