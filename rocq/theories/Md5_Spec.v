(** MD5 as in RFC 1321 and HMAC as in RFC 2104, without reference to the code. *)
From Verif Require Import Base.

Definition byte (z : Z) : Prop := 0 <= z < 256.
Definition m32 (z : Z) : Z := z mod 2 ^ 32.
Definition not32 (z : Z) : Z := 2 ^ 32 - 1 - z.
(** 3.4: the auxiliary functions *)
Definition F (x y z : Z) : Z := Z.lor (Z.land x y) (Z.land (not32 x) z).
Definition G (x y z : Z) : Z := Z.lor (Z.land x z) (Z.land y (not32 z)).
Definition H (x y z : Z) : Z := Z.lxor x (Z.lxor y z).
Definition I (x y z : Z) : Z := Z.lxor y (Z.lor x (not32 z)).
Definition rotl (x n : Z) : Z := m32 (x * 2 ^ n) + x / 2 ^ (32 - n).
(** The integer part of 4294967296 times abs(sin(i)), i = 1..64. *)
Definition T : list Z :=
  [3614090360; 3905402710; 606105819; 3250441966; 4118548399; 1200080426; 2821735955; 4249261313;
   1770035416; 2336552879; 4294925233; 2304563134; 1804603682; 4254626195; 2792965006; 1236535329;
   4129170786; 3225465664; 643717713; 3921069994; 3593408605; 38016083; 3634488961; 3889429448;
   568446438; 3275163606; 4107603335; 1163531501; 2850285829; 4243563512; 1735328473; 2368359562;
   4294588738; 2272392833; 1839030562; 4259657740; 2763975236; 1272893353; 4139469664; 3200236656;
   681279174; 3936430074; 3572445317; 76029189; 3654602809; 3873151461; 530742520; 3299628645;
   4096336452; 1126891415; 2878612391; 4237533241; 1700485571; 2399980690; 4293915773; 2240044497;
   1873313359; 4264355552; 2734768916; 1309151649; 4149444226; 3174756917; 718787259; 3951481745].
Definition aux (i : nat) : Z -> Z -> Z -> Z := if (i <? 16)%nat then F else if (i <? 32)%nat then G else if (i <? 48)%nat then H else I.
(** Which word, and by how much the sum is rotated. *)
Definition word_of (i : nat) : nat :=
  (if i <? 16 then i else if i <? 32 then (5 * i + 1) mod 16 else if i <? 48 then (3 * i + 5) mod 16 else (7 * i) mod 16)%nat.
Definition shift_of (i : nat) : Z :=
  nth (i mod 4)%nat (if (i <? 16)%nat then [7; 12; 17; 22] else if (i <? 32)%nat then [5; 9; 14; 20] else if (i <? 48)%nat then [4; 11; 16; 23] else [6; 10; 15; 21]) 0.
(** Operation i: the registers are renamed after each one, so that it is always the same. *)
Definition state4 := (Z * Z * Z * Z)%type.
Definition op (X : list Z) (s : state4) (i : nat) : state4 :=
  let '(a, b, c, d) := s in
  (d, m32 (b + rotl (m32 (a + aux i b c d + nth (word_of i) X 0 + nth i T 0)) (shift_of i)), b, c).
Definition le32 (b : list Z) : Z := nth 0 b 0 + 2 ^ 8 * nth 1 b 0 + 2 ^ 16 * nth 2 b 0 + 2 ^ 24 * nth 3 b 0.
Definition compress (s : state4) (block : list Z) : state4 :=
  let X := map (fun i => le32 (skipn (4 * i) block)) (seq 0 16) in
  let '(a, b, c, d) := s in
  let '(a', b', c', d') := fold_left (op X) (seq 0 64) s in
  (m32 (a + a'), m32 (b + b'), m32 (c + c'), m32 (d + d')).
(** 3.1, 3.2: a one bit, zeros until the length is 56 modulo 64, the length in bits in 64 bits. *)
Fixpoint le_bytes (n : nat) (z : Z) : list Z := match n with O => [] | S k => z mod 256 :: le_bytes k (z / 256) end.
Definition zeros (len : Z) : nat := Z.to_nat ((55 - len) mod 64).
Definition pad (msg : list Z) : list Z :=
  msg ++ [128] ++ repeat 0 (zeros (Z.of_nat (length msg))) ++ le_bytes 8 (8 * Z.of_nat (length msg)).
Fixpoint compress_all (fuel : nat) (s : state4) (m : list Z) : state4 :=
  match fuel with
  | O => s
  | S k => match m with [] => s | _ => compress_all k (compress s (firstn 64 m)) (skipn 64 m) end
  end.
Definition MD5 (msg : list Z) : list Z :=
  let m := pad msg in
  let '(a, b, c, d) := compress_all (length m) (1732584193, 4023233417, 2562383102, 271733878) m in
  le_bytes 4 a ++ le_bytes 4 b ++ le_bytes 4 c ++ le_bytes 4 d.
(** RFC 2104: keys longer than a block are hashed first. *)
Definition HMAC (key msg : list Z) : list Z :=
  let k0 := if (length key <=? 64)%nat then key else MD5 key in
  let k := k0 ++ repeat 0 (64 - length k0) in
  MD5 (map (Z.lxor 92) k ++ MD5 (map (Z.lxor 54) k ++ msg)).

(** The sines: Taylor's series in fixed point with 200 fractional bits. *)
Fixpoint taylor (n : nat) (x2 term k : Z) : Z :=
  match n with O => 0 | S m => term + taylor m x2 (- (term * x2 / (k * (k + 1)))) (k + 2) end.
Definition sine_digits (i : nat) : Z := let x := Z.of_nat i in Z.abs (taylor 130 (x * x) (x * 2 ^ 200) 2) / 2 ^ 168.
Example sines : T = map sine_digits (seq 1 64).
Proof. vm_compute. reflexivity. Qed.
