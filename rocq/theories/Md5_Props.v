(** C42: Md5Encrypt::Md5 computes the digest of RFC 1321 and Md5Hmac the code of RFC 2104. *)
From Verif Require Import Base Md5_Model Md5_Spec Md5_Proofs Md5_Proofs2.

(** On every platform whose unsigned long has 32 bits or more, and for every message whose size fits the parameter,
    the call ends, writes inside its buffers, and gives the digest. *)
Theorem C42_md5_is_rfc1321 : forall w message, 32 <= w -> Forall byte message -> Z.of_nat (length message) < 2 ^ 32 ->
  md5 w message = Some (MD5 message).
Proof. intros w m Hw B L. apply md5_ok; assumption. Qed.
Print Assumptions C42_md5_is_rfc1321.

(** The digest does not depend on the platform. *)
Theorem C42_same_on_every_platform : forall w w' message, 32 <= w -> 32 <= w' -> Forall byte message -> Z.of_nat (length message) < 2 ^ 32 ->
  md5 w message = md5 w' message.
Proof. intros w w' m H1 H2 B L. rewrite !md5_ok by assumption. reflexivity. Qed.
Print Assumptions C42_same_on_every_platform.

(** RFC 2104 for keys of up to a block (64 bytes). *)
Theorem C42_hmac_is_rfc2104_partial : forall w key message, 32 <= w -> Forall byte key -> (length key <= 64)%nat -> Forall byte message ->
  Z.of_nat (length message) < 2 ^ 32 -> md5_hmac w key message = Some (HMAC key message).
Proof. intros w key m Hw BK LK B L. rewrite hmac_ok by assumption. rewrite firstn_all2 by assumption. reflexivity. Qed.
Print Assumptions C42_hmac_is_rfc2104_partial.
(** For every key: the bytes of the key after the 64th are ignored. *)
Theorem C42_hmac_of_the_first_block_of_the_key : forall w key message, 32 <= w -> Forall byte key -> Forall byte message ->
  Z.of_nat (length message) < 2 ^ 32 -> md5_hmac w key message = Some (HMAC (firstn 64 key) message).
Proof. intros w key m Hw BK B L. apply hmac_ok; assumption. Qed.
Print Assumptions C42_hmac_of_the_first_block_of_the_key.

(** A longer key has to be hashed first; the code cuts it, so that two keys that share 64 bytes are the same key. *)
Theorem C42_hmac_long_key_refuted : exists key key' message, Forall byte key /\ Forall byte key' /\ Forall byte message /\ key <> key' /\
  md5_hmac 64 key message = md5_hmac 64 key' message /\ md5_hmac 64 key message <> Some (HMAC key message).
Proof.
  exists (repeat 170 80), (repeat 170 79), [84; 101; 115; 116].
  assert (R : forall n, Forall byte (repeat 170 n)) by (intros n; apply Forall_forall; intros x Hx; apply repeat_spec in Hx; subst x; split; lia).
  split; [apply R|]. split; [apply R|]. split; [repeat constructor; lia|]. split; [discriminate|].
  split; [vm_compute; reflexivity|vm_compute; discriminate].
Qed.
Print Assumptions C42_hmac_long_key_refuted.

(** The test vectors of RFC 1321 and RFC 2104, on the code. *)
Example C42_case_empty : md5 64 [] = Some [212; 29; 140; 217; 143; 0; 178; 4; 233; 128; 9; 152; 236; 248; 66; 126].
Proof. vm_compute. reflexivity. Qed.
Example C42_case_abc : md5 32 [97; 98; 99] = Some [144; 1; 80; 152; 60; 210; 79; 176; 214; 150; 63; 125; 40; 225; 127; 114].
Proof. vm_compute. reflexivity. Qed.
(** 80 digits: two blocks. *)
Example C42_case_long : md5 64 (concat (repeat [49; 50; 51; 52; 53; 54; 55; 56; 57; 48] 8)) = Some [87; 237; 244; 162; 43; 227; 201; 85; 172; 73; 218; 46; 33; 7; 182; 122].
Proof. vm_compute. reflexivity. Qed.
(** The key is 16 times 0x0b, the data "Hi There". *)
Example C42_case_hmac : md5_hmac 64 (repeat 11 16) [72; 105; 32; 84; 104; 101; 114; 101] = Some [146; 148; 114; 122; 54; 56; 187; 28; 19; 244; 142; 248; 21; 139; 252; 157].
Proof. vm_compute. reflexivity. Qed.
Example C42_meets_hypotheses : Forall byte [72; 105; 32; 84; 104; 101; 114; 101] /\ Forall byte (repeat 11 16) /\ (length (repeat 11 16) <= 64)%nat.
Proof. split; [repeat constructor; lia|]. split; [repeat constructor; lia|cbn; lia]. Qed.
