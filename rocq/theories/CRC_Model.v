(** Source/Core/BareMetal/L0Types/CRC.h, for T an unsigned type of [w] bits (8, 16 or 32: the class keeps
    its masks in uint32). *)
From Verif Require Import Base.

(** CRC.h:108-119 constructor: mask, maskInv, shift. *)
Definition crc_mask (w : Z) : Z := 2 ^ (w - 1).
Definition crc_maskInv (w : Z) : Z := if w / 8 <? 4 then uwrap 32 (2 ^ w - 1) else 4294967295.
Definition crc_shift (w : Z) : Z := (w / 8 - 1) * 8.

(** CRC.h:141-152 one iteration of the bit loop on curByte (of type T). *)
Definition table_step (w pol : Z) (cur : Z) : Z :=
  if negb (Z.land cur (crc_mask w) =? 0)
  then Z.lxor (uwrap w (Z.shiftl cur 1)) pol
  else uwrap w (Z.shiftl cur 1).

(** CRC.h:136-154: crcTable[d]. *)
Definition table_entry (w pol d : Z) : Z :=
  let cur := uwrap w (uwrap 32 (Z.shiftl d (crc_shift w))) in
  Nat.iter 8 (table_step w pol) cur.

(** CRC.h:130-155 ComputeTable. *)
Definition compute_table (w pol : Z) : list Z := map (fun d => table_entry w pol (Z.of_nat d)) (seq 0 256).

(** CRC.h:163-169 one iteration: [byte] is data[inputInverted ? -b : b].  None = read outside the table. *)
Definition crc_step (w : Z) (table : list Z) (crc byte : Z) : option Z :=
  let pos := uwrap 8 (Z.land (Z.lxor (Z.shiftr crc (crc_shift w)) byte) 255) in
  match nth_error table (Z.to_nat pos) with
  | None => None
  | Some e => Some (Z.land (uwrap w (Z.lxor e (Z.shiftl crc 8))) (crc_maskInv w))
  end.

(** CRC.h:158-172 Compute.  [data] gives the byte at each offset from the data pointer; the offsets read
    are 0, 1, .. (or 0, -1, .. when inputInverted). [n] iterations remain, the next one is number [b]. *)
Fixpoint compute_loop (w : Z) (table : list Z) (data : Z -> Z) (inverted : bool) (n : nat) (b crc : Z) : option Z :=
  match n with
  | O => Some crc
  | S n' =>
    match crc_step w table crc (data (if inverted then - b else b)) with
    | None => None
    | Some crc' => compute_loop w table data inverted n' (b + 1) crc'
    end
  end.
Definition compute (w : Z) (table : list Z) (data : Z -> Z) (size init : Z) (inverted : bool) : option Z :=
  compute_loop w table data inverted (Z.to_nat size) 0 init.
