(** C13: the table-driven CRC. *)
From Verif Require Import Base CRC_Model CRC_Spec CRC_Proofs.

(** The result is the remainder, modulo x^w + pol over GF(2), of init*x^(8*size) + message*x^w; all table
    reads are inside the table. *)
Theorem C13_crc_is_polynomial_remainder : forall w pol data size init inverted,
  crc_width w -> 0 <= pol < 2 ^ w -> (forall i, 0 <= data i < 256) -> 0 <= size -> 0 <= init < 2 ^ w ->
  exists r, compute w (compute_table w pol) data size init inverted = Some r /\
    is_remainder w pol
      (Z.lxor (init * 2 ^ (8 * size)) (message (read_bytes data (if inverted then -1 else 1) (Z.to_nat size)) * 2 ^ w)) r.
Proof. exact compute_remainder. Qed.
Print Assumptions C13_crc_is_polynomial_remainder.

(** The remainder is unique, so the previous theorem determines the result. *)
Theorem C13_remainder_unique : forall w pol m r1 r2, 0 <= w -> 0 <= pol < 2 ^ w ->
  is_remainder w pol m r1 -> is_remainder w pol m r2 -> r1 = r2.
Proof. exact remainder_unique. Qed.
Print Assumptions C13_remainder_unique.

(** Computing in pieces, chaining the previous result, equals computing at once. *)
Theorem C13_chaining : forall w table data n m init, 0 <= n -> 0 <= m ->
  compute w table data (n + m) init false =
  match compute w table data n init false with
  | None => None
  | Some c => compute w table (fun i => data (n + i)) m c false
  end.
Proof. exact compute_chain. Qed.
Print Assumptions C13_chaining.

(** inputInverted, with the pointer at the last byte, is the CRC of the reversed buffer. *)
Theorem C13_inverted_is_reversed : forall w table l init, l <> [] ->
  compute w table (fun i => buffer l (Z.of_nat (length l) - 1 + i)) (Z.of_nat (length l)) init true
  = compute w table (buffer (rev l)) (Z.of_nat (length l)) init false.
Proof. exact compute_inverted_buffer. Qed.
Print Assumptions C13_inverted_is_reversed.

(** Any corruption confined to w consecutive bits is detected when the polynomial has its constant term. *)
Theorem C13_burst_error_detected : forall w pol l1 l2 init e k,
  crc_width w -> 0 <= pol < 2 ^ w -> Z.odd pol = true -> bytes l1 -> bytes l2 -> length l1 = length l2 ->
  0 <= init < 2 ^ w -> 0 < e < 2 ^ w -> 0 <= k -> Z.lxor (message l1) (message l2) = e * 2 ^ k ->
  compute w (compute_table w pol) (buffer l1) (Z.of_nat (length l1)) init false <>
  compute w (compute_table w pol) (buffer l2) (Z.of_nat (length l2)) init false.
Proof. exact burst_detected_compute. Qed.
Print Assumptions C13_burst_error_detected.

(** CRC-16/CCITT of "123456789" with initial value 0xFFFF is 0x29B1. *)
Example C13_nonvacuous :
  compute 16 (compute_table 16 4129) (buffer [49;50;51;52;53;54;55;56;57]) 9 65535 false = Some 10673 /\
  Z.lxor (message [1; 7]) (message [1; 5]) = 1 * 2 ^ 1.
Proof. split; vm_compute; reflexivity. Qed.
