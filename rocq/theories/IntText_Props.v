(** Properties C01, C02, C03: integer text. *)
From Verif Require Import Base IntText_Model IntText_Spec IntText_Proofs IntText_Proofs2 IntText_Proofs3.

(** C01.  For each integer type and value, printing in decimal with the default (size 0) format puts
    exactly the canonical decimal numeral. *)
Theorem C01_decimal_print_canonical : forall t z f,
  std_ty t -> in_ty t z -> f_not f = DecN -> f_size f = 0 ->
  exists out, integer_to_stream t z f = Some out /\ decimal_text out z.
Proof. exact print_decimal_canonical. Qed.
Print Assumptions C01_decimal_print_canonical.

Example C01_nonvacuous : std_ty (ITy 64 true) /\ in_ty (ITy 64 true) (-9223372036854775808)
  /\ integer_to_stream (ITy 64 true) (-1234567890123) (Fmt 0 false false false false DecN)
     = Some [45;49;50;51;52;53;54;55;56;57;48;49;50;51].
Proof. split; [right; right; right; reflexivity|]. split; [unfold in_ty; vm_compute; split; discriminate|vm_compute; reflexivity]. Qed.

(** C01, with a field width: outside the most negative value the text is put in the requested field. *)
Theorem C01_decimal_print_field : forall t z m padded left binp,
  std_ty t -> in_ty t z -> 0 <= m ->
  let W := if m =? 0 then 20 else m in
  let P := if m =? 0 then false else padded || binp in
  ~ (isgn t = true /\ z = imin t /\ P = true) ->
  exists text out,
    decimal_text text z /\
    int_to_stream_decimal t z m padded left binp = Some out /\
    field W P left (if binp then 48 else 32) text out.
Proof. exact print_decimal_field. Qed.
Print Assumptions C01_decimal_print_field.

(** Finding: the most negative value is never padded, so the field rule fails for it. *)
Theorem C01_min_not_padded_refuted : ~ (forall t z m padded left binp,
  std_ty t -> in_ty t z -> 0 < m -> padded = true ->
  exists text out, decimal_text text z /\
    int_to_stream_decimal t z m padded left binp = Some out /\
    field m true left (if binp then 48 else 32) text out).
Proof. exact print_decimal_min_refuted. Qed.
Print Assumptions C01_min_not_padded_refuted.

(** Hexadecimal, octal and binary: the canonical numeral of the value's two's complement representation,
    with header and zero padding, in the requested field. *)
Theorem C01_hex_print_field : forall t z m padded left zp hdr,
  std_ty t -> in_ty t z -> 0 <= m -> 0 <= zp -> (m = 0 -> zp <= 900) ->
  let W := if m =? 0 then 1000 else m in
  let P := if m =? 0 then false else padded in
  let H := if hdr : bool then 2 else 0 in
  exists c, canonical 16 c (uwrap (ibits t) z) /\
    let wanted := Z.max (Z.of_nat (length c)) (Z.min ((zp + 3) / 4) (W - H)) in
    field W P left 32 ((if hdr then [48; 120] else []) ++ repeat 48 (Z.to_nat (wanted - Z.of_nat (length c))) ++ c)
          (int_to_stream_hex t z m padded left zp hdr).
Proof. exact print_hex_field. Qed.
Print Assumptions C01_hex_print_field.

Theorem C01_oct_print_field : forall t z m padded left zp hdr,
  std_ty t -> in_ty t z -> 0 <= m -> 0 <= zp -> (m = 0 -> zp <= 900) ->
  let W := if m =? 0 then 1000 else m in
  let P := if m =? 0 then false else padded in
  let H := if hdr : bool then 2 else 0 in
  exists c, canonical 8 c (uwrap (ibits t) z) /\
    let wanted := Z.max (Z.of_nat (length c)) (Z.min ((zp + 2) / 3) (W - H)) in
    field W P left 32 ((if hdr then [48; 111] else []) ++ repeat 48 (Z.to_nat (wanted - Z.of_nat (length c))) ++ c)
          (int_to_stream_oct t z m padded left zp hdr).
Proof. exact print_oct_field. Qed.
Print Assumptions C01_oct_print_field.

Theorem C01_bin_print_field : forall t z m padded left zp hdr,
  std_ty t -> in_ty t z -> 0 <= m -> 0 <= zp -> (m = 0 -> zp <= 900) ->
  let W := if m =? 0 then 1000 else m in
  let P := if m =? 0 then false else padded in
  let H := if hdr : bool then 2 else 0 in
  exists c, canonical 2 c (uwrap (ibits t) z) /\
    let wanted := Z.max (Z.of_nat (length c)) (Z.min ((zp + 0) / 1) (W - H)) in
    field W P left 32 ((if hdr then [48; 98] else []) ++ repeat 48 (Z.to_nat (wanted - Z.of_nat (length c))) ++ c)
          (int_to_stream_bin t z m padded left zp hdr).
Proof. exact print_bin_field. Qed.
Print Assumptions C01_bin_print_field.

Example C01_hex_nonvacuous :
  int_to_stream_hex (ITy 16 true) (-2) 12 true false 24 true = [32;32;32;32;48;120;48;48;70;70;70;69]
  /\ int_to_stream_hex (ITy 32 false) 48879 0 false false 0 true = [48;120;66;69;69;70].
Proof. split; vm_compute; reflexivity. Qed.

(** C02.  Print, then parse into the same type: the original value. *)
Theorem C02_integer_text_roundtrip : forall t z f,
  std_ty t -> in_ty t z -> f_size f = 0 -> (f_not f <> DecN -> f_full f = true) ->
  exists out, integer_to_stream t z f = Some out /\ string_to_integer t out = (true, z).
Proof. exact roundtrip_integer. Qed.
Print Assumptions C02_integer_text_roundtrip.

Example C02_nonvacuous :
  integer_to_stream (ITy 16 true) (-300) (Fmt 0 false false false true OctN) = Some [48;111;49;55;55;51;50;52]
  /\ string_to_integer (ITy 16 true) [48;111;49;55;55;51;50;52] = (true, -300).
Proof. split; vm_compute; reflexivity. Qed.

(** C03.  A conversion succeeds exactly on the literals of the grammar, with exactly their value. *)
Theorem C03_integer_parse_exact : forall t s v,
  std_ty t -> c_string s -> (length s <= 1000)%nat ->
  string_to_integer t s = (true, v) <-> int_literal t s v.
Proof. exact string_to_integer_exact. Qed.
Print Assumptions C03_integer_parse_exact.

(** In particular a decimal numeral whose value does not fit is rejected. *)
Theorem C03_out_of_range_rejected : forall t ds n,
  std_ty t -> c_string ds -> (length ds < 1000)%nat -> numeral 10 ds n -> hd 0 ds <> 48 ->
  (~ in_ty t n -> fst (string_to_integer t ds) = false) /\
  (~ in_ty t (- n) -> ds <> [] -> fst (string_to_integer t (45 :: ds)) = false).
Proof. exact out_of_range_rejected. Qed.
Print Assumptions C03_out_of_range_rejected.

Example C03_nonvacuous :
  string_to_integer (ITy 8 true) [45;49;50;56] = (true, -128)
  /\ fst (string_to_integer (ITy 8 true) [45;49;50;57]) = false
  /\ string_to_integer (ITy 8 false) [50;53;53] = (true, 255)
  /\ fst (string_to_integer (ITy 8 false) [50;53;54]) = false
  /\ string_to_integer (ITy 64 false) [48;120;102;70] = (true, 255).
Proof. repeat split; vm_compute; reflexivity. Qed.

(** Findings.  Strings with no digit at all are accepted as zero; hexadecimal numerals with superfluous
    leading zeros are rejected although their value fits; beyond 1000 characters the tail is ignored. *)
Theorem C03_digitless_refuted : ~ (forall t s v, std_ty t -> string_to_integer t s = (true, v) ->
  exists c, In c s /\ is_digit 10 c).
Proof. exact digitless_refuted. Qed.
Print Assumptions C03_digitless_refuted.

Theorem C03_leading_zeros_refuted : ~ (forall t ds n, std_ty t -> numeral 16 ds n -> n < 2 ^ ibits t ->
  (length ds <= 900)%nat -> fst (string_to_integer t (48 :: 120 :: ds)) = true).
Proof. exact leading_zeros_refuted. Qed.
Print Assumptions C03_leading_zeros_refuted.

Theorem C03_long_tail_ignored_refuted : ~ (forall t s v, std_ty t -> c_string s ->
  string_to_integer t s = (true, v) -> int_literal t s v).
Proof. exact long_tail_refuted. Qed.
Print Assumptions C03_long_tail_ignored_refuted.

(** The generic entry point picks the smallest type that holds the destination's bits. *)
Theorem C03_generic_destination : forall s bits sgn v,
  c_string s -> (length s <= 1000)%nat -> 0 < bits ->
  string_to_integer_generic s bits sgn = Some (true, v) <->
  exists w, (w = 8 \/ w = 16 \/ w = 32 \/ w = 64) /\ bits <= w /\ (forall w', (w' = 8 \/ w' = 16 \/ w' = 32 \/ w' = 64) -> bits <= w' -> w <= w')
            /\ int_literal (ITy w sgn) s v.
Proof. exact generic_exact. Qed.
Print Assumptions C03_generic_destination.
