(** Properties C05 (saturation), C06 (bit fields), C07 (safe arithmetic), C08 (double-width integers),
    C39 (integer square root). *)
From Verif Require Import Base BitsBase IntArith_Model IntArith_Spec IntArith_Proofs IntArith_Proofs2 IntArith_Proofs3.

(** C05.  Conversion into an [n] bit integer of any signedness yields the nearest representable value. *)
Theorem C05_saturate_integer : forall to_ ti n input,
  0 < ibits to_ -> 0 < ibits ti -> 0 < n <= ibits to_ -> in_ty ti input ->
  saturate_integer to_ ti n input = clamp (bit_min (isgn to_) n) (bit_max (isgn to_) n) input.
Proof. exact saturate_clamp. Qed.
Print Assumptions C05_saturate_integer.

(** C05.  SafeNumber2Number between integer types: success exactly when representable, otherwise the
    nearest bound. *)
Theorem C05_safe_number_to_number : forall ti to_ src,
  std_ty to_ -> std_ty ti -> in_ty ti src ->
  safe_number2number ti to_ src =
    ((imin to_ <=? src) && (src <=? imax to_), clamp (imin to_) (imax to_) src).
Proof. exact safe_number_exact. Qed.
Print Assumptions C05_safe_number_to_number.

Example C05_nonvacuous :
  saturate_integer (ITy 16 true) (ITy 32 false) 12 4000000000 = 2047
  /\ saturate_integer (ITy 16 true) (ITy 64 true) 12 (-5) = -5
  /\ saturate_integer (ITy 8 false) (ITy 8 true) 8 (-1) = 0
  /\ safe_number2number (ITy 32 true) (ITy 8 false) 256 = (false, 255).
Proof. repeat split; vm_compute; reflexivity. Qed.

(** C06.  The field reads back as the saturated value. *)
Theorem C06_bit_field_read_back : forall t ti n off word input,
  0 < ibits t <= 64 -> 0 < ibits ti -> 0 < n -> 0 <= off -> n + off <= ibits t -> in_ty ti input ->
  br_read t n off (br_assign t ti n off word input) = clamp (bit_min (isgn t) n) (bit_max (isgn t) n) input.
Proof. exact br_read_back. Qed.
Print Assumptions C06_bit_field_read_back.

(** C06.  With an unsigned base type, every bit outside the field is unchanged. *)
Theorem C06_bit_field_frame_unsigned : forall t ti n off word input i,
  isgn t = false -> 0 < ibits t <= 64 -> 0 < n -> 0 <= off -> n + off <= ibits t -> 0 <= i < ibits t ->
  i < off \/ off + n <= i ->
  Z.testbit (br_assign t ti n off word input) i = Z.testbit word i.
Proof. exact br_frame_unsigned. Qed.
Print Assumptions C06_bit_field_frame_unsigned.

(** C06, signed base type: the bits below are kept, those above become the sign of the stored value. *)
Theorem C06_bit_field_frame_signed_partial : forall t ti n off word input i,
  isgn t = true -> 0 < ibits t <= 64 -> 0 < ibits ti -> in_ty ti input ->
  0 < n -> 0 <= off -> n + off <= ibits t -> 0 <= i < ibits t ->
  (i < off -> Z.testbit (br_assign t ti n off word input) i = Z.testbit word i) /\
  (off + n <= i -> Z.testbit (br_assign t ti n off word input) i =
                   (clamp (- 2 ^ (n - 1)) (2 ^ (n - 1) - 1) input <? 0)).
Proof. exact br_frame_signed. Qed.
Print Assumptions C06_bit_field_frame_signed_partial.

(** Finding: with a signed base type an assignment does change bits above the field. *)
Theorem C06_bit_field_frame_signed_refuted : exists t ti n off word input i,
  std_ty t /\ isgn t = true /\ in_ty ti input /\ in_ty t word /\ 0 < n /\ 0 <= off /\ n + off <= ibits t /\
  off + n <= i < ibits t /\ Z.testbit (br_assign t ti n off word input) i <> Z.testbit word i.
Proof. exact br_frame_signed_refuted. Qed.
Print Assumptions C06_bit_field_frame_signed_refuted.

(** C06.  Single-bit flags: the flag reads back and every other bit is unchanged, for all base types. *)
Theorem C06_bit_boolean_assign : forall t off word flag i,
  0 < ibits t -> 0 <= off < ibits t -> 0 <= i < ibits t ->
  Z.testbit (bb_assign t off word flag) i = if i =? off then flag else Z.testbit word i.
Proof. exact bb_assign_bits. Qed.
Print Assumptions C06_bit_boolean_assign.

Theorem C06_bit_boolean_read : forall t off word, 0 < ibits t -> 0 <= off < ibits t -> in_ty t word ->
  bb_read t off word = Z.testbit word off.
Proof. exact bb_read_bit. Qed.
Print Assumptions C06_bit_boolean_read.

Example C06_nonvacuous :
  br_assign (ITy 32 false) (ITy 32 true) 5 7 4294967295 10 = 4294964607
  /\ br_read (ITy 32 false) 5 7 4294964607 = 10
  /\ br_read (ITy 16 true) 5 3 (br_assign (ITy 16 true) (ITy 32 true) 5 3 1234 (-100)) = -16.
Proof. repeat split; vm_compute; reflexivity. Qed.

(** C07.  Success exactly when the mathematical result is representable, then equal to it; overflow and
    underflow are told apart (sum above / below the range). *)
Theorem C07_safe_addition : forall t a b, 1 < ibits t -> in_ty t a -> in_ty t b ->
  sm_add t a b = (if a + b >? imax t then SmOverflow else if a + b <? imin t then SmUnderflow else SmOk, cast t (a + b)).
Proof. exact sm_add_exact. Qed.
Print Assumptions C07_safe_addition.

Theorem C07_safe_subtraction : forall t a b, 1 < ibits t -> in_ty t a -> in_ty t b ->
  sm_sub t a b = (if a - b >? imax t then SmOverflow else if a - b <? imin t then SmUnderflow else SmOk, cast t (a - b)).
Proof. exact sm_sub_exact. Qed.
Print Assumptions C07_safe_subtraction.

Theorem C07_safe_multiplication : forall t a b, std_ty t -> in_ty t a -> in_ty t b ->
  sm_mul t a b = (a * b >? imax t, a * b <? imin t, cast t (a * b)).
Proof. exact sm_mul_exact. Qed.
Print Assumptions C07_safe_multiplication.

Theorem C07_complete_multiply : forall t a b, std_ty t -> in_ty t a -> in_ty t b ->
  let '(lo, hi) := complete_multiply t a b in
  in_ty t lo /\ in_ty t hi /\ hi * 2 ^ ibits t + uwrap (ibits t) lo = a * b.
Proof. exact complete_multiply_exact. Qed.
Print Assumptions C07_complete_multiply.

(** A representable sum is returned unchanged (what [cast] above amounts to on success). *)
Theorem C07_success_is_exact : forall t z, 0 < ibits t -> imin t <= z <= imax t -> cast t z = z.
Proof. exact cast_id. Qed.
Print Assumptions C07_success_is_exact.

(** Under the strict C++ reading the check for int32/int64 happens after undefined behaviour. *)
Theorem C07_strict_addition_partial : forall t a b, std_ty t -> in_ty t a -> in_ty t b ->
  sm_add_strict t a b = if isgn t && (32 <=? ibits t) && negb ((imin t <=? a + b) && (a + b <=? imax t)) then None
                        else Some (classify t (a + b), cast t (a + b)).
Proof. exact sm_add_strict_spec. Qed.
Print Assumptions C07_strict_addition_partial.

Example C07_nonvacuous :
  sm_add (ITy 8 true) 100 100 = (SmOverflow, -56) /\ sm_add (ITy 8 true) (-100) 27 = (SmOk, -73)
  /\ sm_sub (ITy 16 false) 3 4 = (SmUnderflow, 65535)
  /\ sm_mul (ITy 32 true) (-65536) 32768 = (false, false, -2147483648)
  /\ sm_mul (ITy 32 true) 65536 32768 = (true, false, -2147483648).
Proof. repeat split; vm_compute; reflexivity. Qed.

(** C08.  Arithmetic modulo 2^(2w), comparisons and bitwise operations, for signed and unsigned halves;
    shifts for unsigned halves. *)
Theorem C08_add : forall t a b, 0 < ibits t -> dwf t a -> dwf t b ->
  dwf t (di_add t a b) /\ dval t (di_add t a b) = cast (double_ty t) (dval t a + dval t b).
Proof. exact di_add_exact. Qed.
Print Assumptions C08_add.

Theorem C08_sub : forall t a b, 0 < ibits t -> dwf t a -> dwf t b ->
  dwf t (di_sub t a b) /\ dval t (di_sub t a b) = cast (double_ty t) (dval t a - dval t b).
Proof. exact di_sub_exact. Qed.
Print Assumptions C08_sub.

Theorem C08_compare : forall t a b, 0 < ibits t -> dwf t a -> dwf t b ->
  di_eq a b = (dval t a =? dval t b) /\ di_ne a b = negb (dval t a =? dval t b) /\
  di_gt t a b = (dval t a >? dval t b) /\ di_lt t a b = (dval t a <? dval t b) /\
  di_ge t a b = (dval t a >=? dval t b) /\ di_le t a b = (dval t a <=? dval t b).
Proof. exact di_compare_exact. Qed.
Print Assumptions C08_compare.

Theorem C08_bitwise : forall t a b, 0 < ibits t -> dwf t a -> dwf t b ->
  dwf t (di_and t a b) /\ dval t (di_and t a b) = Z.land (dval t a) (dval t b) /\
  dwf t (di_or t a b) /\ dval t (di_or t a b) = Z.lor (dval t a) (dval t b) /\
  dwf t (di_not t a) /\ dval t (di_not t a) = cast (double_ty t) (Z.lnot (dval t a)).
Proof. exact di_bitwise_exact. Qed.
Print Assumptions C08_bitwise.

Theorem C08_shift_left : forall t a s, isgn t = false -> 0 < ibits t -> dwf t a -> 0 <= s < 2 * ibits t ->
  dwf t (di_shl t a s) /\ dval t (di_shl t a s) = cast (double_ty t) (dval t a * 2 ^ s).
Proof. exact di_shl_exact. Qed.
Print Assumptions C08_shift_left.

Theorem C08_shift_right : forall t a s, isgn t = false -> 0 < ibits t -> dwf t a -> 0 <= s < 2 * ibits t ->
  dwf t (di_shr t a s) /\ dval t (di_shr t a s) = dval t a / 2 ^ s.
Proof. exact di_shr_exact. Qed.
Print Assumptions C08_shift_right.

Theorem C08_conversion : forall t t2 n, 0 < ibits t -> 0 < ibits t2 -> in_ty t2 n ->
  dwf t (di_of t t2 n) /\ dval t (di_of t t2 n) = cast (double_ty t) n.
Proof. exact di_of_exact. Qed.
Print Assumptions C08_conversion.

(** Findings: with signed halves both shifts are wrong. *)
Theorem C08_signed_shift_left_refuted : exists t a s, std_ty t /\ isgn t = true /\ dwf t a /\ 0 <= s < 2 * ibits t /\
  dval t (di_shl t a s) <> cast (double_ty t) (dval t a * 2 ^ s).
Proof. exact di_shl_signed_refuted. Qed.
Print Assumptions C08_signed_shift_left_refuted.

Theorem C08_signed_shift_right_refuted : exists t a s, std_ty t /\ isgn t = true /\ dwf t a /\ 0 <= s < 2 * ibits t /\
  dval t (di_shr t a s) <> dval t a / 2 ^ s.
Proof. exact di_shr_signed_refuted. Qed.
Print Assumptions C08_signed_shift_right_refuted.

Example C08_nonvacuous :
  dwf (ITy 64 false) (DI 1 18446744073709551615) /\
  dval (ITy 64 false) (di_add (ITy 64 false) (DI 1 18446744073709551615) (DI 0 1)) = 36893488147419103232 /\
  dval (ITy 64 false) (di_shr (ITy 64 false) (DI 3 5) 66) = 0 /\
  dval (ITy 64 false) (di_shl (ITy 64 false) (DI 0 5) 66) = 20 * 2 ^ 64.
Proof.
  split; [split; unfold in_ty; vm_compute; split; discriminate|]. repeat split; vm_compute; reflexivity.
Qed.

(** C39.  The integer square roots are the exact floor of the square root. *)
Theorem C39_square_root_unsigned : forall t x, std_ty t -> isgn t = false -> in_ty t x ->
  let s := square_root_u t x in 0 <= s < 2 ^ (ibits t / 2) /\ s * s <= x < (s + 1) * (s + 1).
Proof. exact square_root_u_exact. Qed.
Print Assumptions C39_square_root_unsigned.

(** For negative arguments the root of the absolute value is returned (documented behaviour). *)
Theorem C39_square_root_signed : forall t x, std_ty t -> isgn t = true -> in_ty t x ->
  let s := square_root_s t x in 0 <= s <= imax t /\ s * s <= Z.abs x < (s + 1) * (s + 1).
Proof. exact square_root_s_exact. Qed.
Print Assumptions C39_square_root_signed.

Example C39_nonvacuous : square_root_u (ITy 64 false) 18446744073709551615 = 4294967295
  /\ square_root_s (ITy 8 true) (-128) = 11.
Proof. split; vm_compute; reflexivity. Qed.
