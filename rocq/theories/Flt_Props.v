(** C60: conversions between integers and floating point numbers. *)
From Verif Require Import Base Flt_Model Flt_Spec Flt_Proofs Flt_Proofs2.
From Coq Require Import Lia ZArith Bool.
Open Scope Z_scope.

(** A finite number becomes the nearest integer (of two, the one that is further from zero), or the bound of the type that it exceeds;
    it is never undefined. *)
Theorem C60_to_integer f t m e z : is_format f -> is_type t -> finite f m e -> nearest_integer (num m e) (den e) z ->
  float_to_integer f t (Fin m e) = Some (clamped t z).
Proof. apply to_integer. Qed.
Print Assumptions C60_to_integer.

(** There is one such integer. *)
Theorem C60_one_nearest m e : exists z, nearest_integer (num m e) (den e) z /\ forall z', nearest_integer (num m e) (den e) z' -> z' = z.
Proof.
  assert (P : 0 < den e) by (apply p2pos; lia). exists (away (num m e) (den e)). split; [apply away_nearest; exact P|].
  intros z' H. apply (nearest_unique _ _ _ _ P H). apply away_nearest; exact P.
Qed.
Print Assumptions C60_one_nearest.

(** 2.5 becomes 3, -2.5 becomes -3, 300 becomes 127 in an int8, 0.49999997 becomes 0. *)
Example C60_to_integer_example :
  finite binary32 5 (-1) /\ nearest_integer (num 5 (-1)) (den (-1)) 3 /\ float_to_integer binary32 (Ity true 8) (Fin 5 (-1)) = Some 3
  /\ float_to_integer binary32 (Ity true 8) (Fin (-5) (-1)) = Some (-3) /\ float_to_integer binary32 (Ity true 8) (Fin 300 0) = Some 127
  /\ float_to_integer binary32 (Ity true 8) (Fin (-300) 0) = Some (-128)
  /\ finite binary32 (2 ^ 24 - 1) (-25) /\ float_to_integer binary32 (Ity false 32) (Fin (2 ^ 24 - 1) (-25)) = Some 0
  /\ float_to_integer binary32 (Ity true 64) (Fin 1 63) = Some (2 ^ 63 - 1) /\ float_to_integer binary64 (Ity false 64) (Fin (-1) 3) = Some 0.
Proof.
  repeat split; try (vm_compute; congruence); try (right; vm_compute; congruence); vm_compute; reflexivity.
Qed.

(** The bounds are those of the types: the numbers between them are those that the bits of the type hold. *)
Theorem C60_range t n : is_type t ->
  (imin t <= n <= imax t <-> (if sgn t then - 2 ^ (wid t - 1) <= n < 2 ^ (wid t - 1) else 0 <= n < 2 ^ wid t)).
Proof. intros _. unfold imin, imax. destruct (sgn t); lia. Qed.
Print Assumptions C60_range.
Example C60_range_example : (imin (Ity true 8), imax (Ity true 8), imin (Ity false 16), imax (Ity false 16)) = (-128, 127, 0, 65535)
  /\ float_to_integer binary32 (Ity false 8) (Fin 200 0) = Some 200.
Proof. split; reflexivity. Qed.

(** An infinity becomes the bound of the type. *)
Theorem C60_infinity f t s : is_format f -> is_type t -> float_to_integer f t (Inf s) = Some (if s then imin t else imax t).
Proof.
  intros Hf Ht. destruct (of_max f t Hf Ht) as [M [[a [j [E _]]] _]]. destruct (of_min f t Hf Ht) as [a' [j' [E' _]]].
  destruct (range_facts t Ht) as [_ [_ [_ R4]]].
  unfold float_to_integer, fgt. rewrite E, E'. destruct s; cbn [fge zero negb andb]; [|rewrite orb_true_r; reflexivity].
  rewrite orb_false_r. destruct (sgn t) eqn:S; [reflexivity|]. rewrite R4 by reflexivity. reflexivity.
Qed.
Print Assumptions C60_infinity.

(** Not a number becomes 0 in an unsigned type. *)
Theorem C60_nan_unsigned f w : float_to_integer f (Ity false w) NaN = Some 0.
Proof. reflexivity. Qed.
Print Assumptions C60_nan_unsigned.

(** In a signed type it is not refused: the conversion of the language is reached, which is undefined. *)
Theorem C60_nan_refuted : ~ (forall f t x, is_format f -> is_type t -> (x = NaN \/ (exists s, x = Inf s) \/ exists m e, x = Fin m e /\ finite f m e) ->
  float_to_integer f t x <> None).
Proof.
  intros H. apply (H binary32 (Ity true 32) NaN); [left; reflexivity|unfold is_type; cbn; tauto|left; reflexivity|]. reflexivity.
Qed.
Print Assumptions C60_nan_refuted.

(** Larger numbers never become smaller integers. *)
Theorem C60_order f t m e m' e' : is_format f -> is_type t -> finite f m e -> finite f m' e' -> m * 2 ^ (e - Z.min e e') <= m' * 2 ^ (e' - Z.min e e') ->
  exists z z', float_to_integer f t (Fin m e) = Some z /\ float_to_integer f t (Fin m' e') = Some z' /\ z <= z'.
Proof.
  intros Hf Ht F F' H. apply order; try assumption. rewrite (fge_unit (Z.min e e')) by lia. apply Z.leb_le. exact H.
Qed.
Print Assumptions C60_order.

(** An integer becomes the nearest number of the format. *)
Theorem C60_to_float f t n : is_format f -> is_type t -> imin t <= n <= imax t ->
  snd (integer_to_float f n) = true /\ nearest_float f n 0 (fst (integer_to_float f n)).
Proof. intros Hf Ht H. destruct (to_float f t n Hf Ht H) as [E N]. rewrite E. split; [reflexivity|exact N]. Qed.
Print Assumptions C60_to_float.
Example C60_to_float_example : integer_to_float binary32 (2 ^ 24 + 1) = (Fin (2 ^ 23) 1, true) /\ integer_to_float binary32 (2 ^ 24 + 3) = (Fin (2 ^ 23 + 2) 1, true)
  /\ integer_to_float binary64 (2 ^ 64 - 1) = (Fin (2 ^ 53) 11, true).
Proof. vm_compute. repeat split. Qed.

(** An integer with no more digits than the mantissa has is not changed, and is found again by the conversion back. *)
Theorem C60_round_trip f t n : is_format f -> is_type t -> imin t <= n <= imax t -> Z.abs n <= 2 ^ prec f ->
  exists a j, integer_to_float f n = (Fin a j, true) /\ 0 <= j /\ a * 2 ^ j = n /\ float_to_integer f t (Fin a j) = Some n.
Proof. apply round_trip. Qed.
Print Assumptions C60_round_trip.

(** So the integers of up to 32 bits survive a float64, and those of up to 16 bits a float32. *)
Theorem C60_round_trip_32 t n : wid t = 8 \/ wid t = 16 \/ wid t = 32 -> imin t <= n <= imax t ->
  float_to_integer binary64 t (fst (integer_to_float binary64 n)) = Some n.
Proof.
  intros Ht H. destruct (round_trip binary64 t n (or_intror eq_refl)) as [a [j [E [_ [_ R]]]]]; [unfold is_type; tauto|exact H| |rewrite E; exact R].
  unfold imin, imax in H. destruct t as [[] w]; cbn [sgn wid] in *; destruct Ht as [->|[->| ->]];
  (apply Z.le_trans with (2 ^ 32); [|vm_compute; congruence]); cbn [Z.sub Z.add Z.opp Z.pos_sub Z.pred_double Pos.pred_double] in H; simpl in H; lia.
Qed.
Print Assumptions C60_round_trip_32.
Theorem C60_round_trip_16 t n : wid t = 8 \/ wid t = 16 -> imin t <= n <= imax t ->
  float_to_integer binary32 t (fst (integer_to_float binary32 n)) = Some n.
Proof.
  intros Ht H. destruct (round_trip binary32 t n (or_introl eq_refl)) as [a [j [E [_ [_ R]]]]]; [unfold is_type; tauto|exact H| |rewrite E; exact R].
  unfold imin, imax in H. destruct t as [[] w]; cbn [sgn wid] in *; destruct Ht as [->| ->];
  (apply Z.le_trans with (2 ^ 16); [|vm_compute; congruence]); simpl in H; lia.
Qed.
Print Assumptions C60_round_trip_16.

(** A 32 bit integer does not survive a float32, although each conversion reports success. *)
Theorem C60_round_trip_refuted : ~ (forall n, imin (Ity true 32) <= n <= imax (Ity true 32) ->
  float_to_integer binary32 (Ity true 32) (fst (integer_to_float binary32 n)) = Some n).
Proof. intros H. specialize (H (2 ^ 24 + 1)). vm_compute in H. specialize (H ltac:(split; congruence)). congruence. Qed.
Print Assumptions C60_round_trip_refuted.

(** A float64 becomes the nearest finite float32, which is the largest one when it is larger than all. *)
Theorem C60_to_float32 m e : snd (to_float32 (Fin m e)) = true /\ nearest_float binary32 m e (fst (to_float32 (Fin m e))).
Proof. destruct (narrow m e). auto. Qed.
Print Assumptions C60_to_float32.
Example C60_to_float32_example : finite binary64 1 1000 /\ to_float32 (Fin 1 1000) = (Fin (2 ^ 24 - 1) 104, true)
  /\ to_float32 (Fin (-1) 1000) = (Fin (- (2 ^ 24 - 1)) 104, true) /\ to_float32 (Fin (2 ^ 52 + 1) (-52)) = (Fin (2 ^ 23) (-23), true)
  /\ to_float32 (Fin 3 (-150)) = (Fin 2 (-149), true).
Proof. repeat split; try (vm_compute; congruence); try (right; vm_compute; congruence). Qed.

(** A float32 is not changed in a float64, and comes back. *)
Theorem C60_to_float64 m e : finite binary32 m e ->
  exists m1 e1, to_float64 (Fin m e) = (Fin m1 e1, true) /\ finite binary64 m1 e1 /\ e <= e1 /\ m1 * 2 ^ (e1 - e) = m
  /\ exists m2 e2, to_float32 (Fin m1 e1) = (Fin m2 e2, true) /\ e <= e2 /\ m2 * 2 ^ (e2 - e) = m.
Proof. apply widen. Qed.
Print Assumptions C60_to_float64.
(** Infinities and not a number are refused by both. *)
Theorem C60_refused s : snd (to_float32 (Inf s)) = false /\ snd (to_float64 (Inf s)) = false /\ snd (to_float32 NaN) = false /\ snd (to_float64 NaN) = false.
Proof. repeat split. Qed.
Print Assumptions C60_refused.

(** A destination that is a whole integer is converted with its own type. *)
Theorem C60_whole f signed w x word : is_type (Ity signed w) -> float_to_bits f signed w 0 x word = float_to_integer f (Ity signed w) x.
Proof. intros H. unfold is_type in H. cbn [wid] in H. unfold float_to_bits. rewrite Z.add_0_r. destruct H as [->|[->|[->| ->]]]; reflexivity. Qed.
Print Assumptions C60_whole.
Theorem C60_whole_source f signed w word : is_type (Ity signed w) -> imin (Ity signed w) <= word <= imax (Ity signed w) ->
  bits_to_float f signed w 0 word = integer_to_float f word.
Proof.
  intros H R. unfold is_type in H. cbn [wid] in H. unfold bits_to_float. rewrite Z.add_0_r.
  assert (E : type_for signed w = Some (Ity signed w)) by (destruct H as [->|[->|[->| ->]]]; reflexivity). rewrite E. f_equal.
  assert (P : 2 ^ w = 2 * 2 ^ (w - 1)) by (change 2 with (2 ^ 1) at 2; rewrite <- p2add by lia; f_equal; lia). assert (0 < 2 ^ (w - 1)) by (apply p2pos; lia).
  unfold as_type, imin, imax in *. cbn [sgn wid] in *. cbv zeta. destruct signed; cbn [andb].
  - destruct (Z_lt_le_dec word 0).
    + rewrite <- (Z.mod_add word 1 (2 ^ w)), Z.mul_1_l, Z.mod_small by lia. destruct (Z.leb_spec (2 ^ (w - 1)) (word + 2 ^ w)); lia.
    + rewrite Z.mod_small by lia. destruct (Z.leb_spec (2 ^ (w - 1)) word); lia.
  - rewrite Z.mod_small by lia. reflexivity.
Qed.
Print Assumptions C60_whole_source.

(** A destination of some bits of a word (BitRange) is not: its bits do not receive the nearest number that they can hold, and the other bits are lost. *)
Theorem C60_bit_range_refuted : ~ (forall nb addr n word, 0 < nb -> 0 <= addr -> nb + addr <= 8 -> 0 <= word < 2 ^ 8 -> 0 <= n < 2 ^ nb ->
  exists word', float_to_bits binary32 false nb addr (Fin n 0) word = Some word' /\ bit_field nb addr word' = n).
Proof.
  intros H. destruct (H 3 4 5 0 ltac:(lia) ltac:(lia) ltac:(lia) ltac:(lia) ltac:(lia)) as [w [A B]].
  vm_compute in A. injection A as <-. vm_compute in B. congruence.
Qed.
Print Assumptions C60_bit_range_refuted.
Theorem C60_neighbours_refuted : ~ (forall nb addr n word, 0 < nb -> 0 <= addr -> nb + addr <= 8 -> 0 <= word < 2 ^ 8 -> 0 <= n < 2 ^ nb ->
  exists word', float_to_bits binary32 false nb addr (Fin n 0) word = Some word' /\ (forall b, 0 <= b < addr -> Z.testbit word' b = Z.testbit word b)).
Proof.
  intros H. destruct (H 3 4 5 0 ltac:(lia) ltac:(lia) ltac:(lia) ltac:(lia) ltac:(lia)) as [w [A B]].
  vm_compute in A. injection A as <-. specialize (B 0 ltac:(lia)). vm_compute in B. congruence.
Qed.
Print Assumptions C60_neighbours_refuted.
(** A source of some bits of a word is read with the bits around it. *)
Theorem C60_bit_source_refuted : ~ (forall nb addr word, 0 < nb -> 0 <= addr -> nb + addr <= 8 -> 0 <= word < 2 ^ 8 ->
  fst (bits_to_float binary32 false nb addr word) = fst (integer_to_float binary32 (bit_field nb addr word))).
Proof. intros H. specialize (H 3 4 80 ltac:(lia) ltac:(lia) ltac:(lia) ltac:(lia)). vm_compute in H. congruence. Qed.
Print Assumptions C60_bit_source_refuted.
