(** C04: Base64 encoding and decoding. *)
From Verif Require Import Base Base64_Model Base64_Spec Base64_Proofs.

(** Encode produces the RFC 4648 text of every byte sequence (and never indexes outside the alphabet). *)
Theorem C04_encode_is_rfc4648 : forall x, bytes x -> encode x = Some (rfc4648 x).
Proof. exact encode_rfc. Qed.
Print Assumptions C04_encode_is_rfc4648.

Theorem C04_encoded_length : forall x, Z.of_nat (length (rfc4648 x)) = 4 * ((Z.of_nat (length x) + 2) / 3).
Proof. exact encode_length. Qed.
Print Assumptions C04_encoded_length.

(** Decoding the encoding gives the input back, except for lengths 1 mod 3 (see the refutation). *)
Theorem C04_round_trip_partial : forall x, bytes x -> Z.of_nat (length x) mod 3 <> 1 ->
  exists s, encode x = Some s /\ decode s = (true, x).
Proof. exact decode_encode_exact. Qed.
Print Assumptions C04_round_trip_partial.

(** For every input the result is the input, followed by one zero byte when the length is 1 mod 3. *)
Theorem C04_round_trip_characterised : forall x, bytes x ->
  exists s, encode x = Some s /\
    decode s = (true, x ++ if Z.of_nat (length x) mod 3 =? 1 then [0] else []).
Proof. exact decode_encode. Qed.
Print Assumptions C04_round_trip_characterised.

(** Finding: the full round trip is false of the code. *)
Theorem C04_round_trip_refuted : exists x s, bytes x /\ encode x = Some s /\ decode s <> (true, x).
Proof. exact decode_encode_refuted. Qed.
Print Assumptions C04_round_trip_refuted.

(** Text made of whole groups of alphabet characters decodes, and encoding the result restores it. *)
Theorem C04_decode_then_encode : forall s, Z.of_nat (length s) mod 4 = 0 -> Forall b64_char s ->
  exists x, decode s = (true, x) /\ encode x = Some s.
Proof. exact encode_decode. Qed.
Print Assumptions C04_decode_then_encode.

(** A character that is neither in the alphabet nor '=' is rejected. *)
Theorem C04_decode_rejects : forall pre c s,
  0 <= c < 256 -> (~ b64_char c /\ c <> 61) -> Forall b64_char pre -> (length (pre ++ c :: s) mod 4 = 0)%nat ->
  fst (decode (pre ++ c :: s)) = false.
Proof. exact decode_rejects. Qed.
Print Assumptions C04_decode_rejects.

(** Finding: characters after the last whole group are silently ignored. *)
Theorem C04_trailing_ignored_refuted : exists s, Forall b64_char s /\ s <> [] /\ decode s = (true, []).
Proof. exact decode_trailing_ignored_refuted. Qed.
Print Assumptions C04_trailing_ignored_refuted.

Example C04_nonvacuous :
  bytes [77; 97; 110; 255; 0] /\ encode [77; 97; 110; 255; 0] = Some [84; 87; 70; 117; 47; 119; 65; 61] /\
  decode [84; 87; 70; 117; 47; 119; 65; 61] = (true, [77; 97; 110; 255; 0]) /\
  fst (decode [84; 42; 70; 117]) = false.
Proof. split; [repeat constructor; lia|]. repeat split; vm_compute; reflexivity. Qed.
