(** Model of the conversion of bit ranges: BSToBS and BitSetToBitSet of
    Source/Core/BareMetal/L3Streams/BitSetToInteger.h, with T = uint8, the instance that
    TypeConversion.cpp and IOBufferIntegerPrint.cpp use. Memory is a list of bytes and a pointer is
    an index in it. The machine is little-endian. An access outside the memory, or outside
    the local variable, is undefined behaviour and gives None. *)
From Verif Require Import Base.
Local Open Scope Z_scope.

(** The value of a little-endian integer variable of the bytes [l] (Copy into &sourceCopy,
    BitSetToInteger.h 207 and 283; the rest of the variable is zero, 202 and 277). *)
Fixpoint word_of (l : list Z) : Z :=
  match l with
  | [] => 0
  | b :: r => b + 256 * word_of r
  end.

(** The first [n] bytes of a variable of value [v] (Copy from &sourceCopy, 291). *)
Fixpoint bytes_of (n : nat) (v : Z) : list Z :=
  match n with
  | O => []
  | S k => v mod 256 :: bytes_of k (v / 256)
  end.

(** MemoryOperationsHelper::Copy of [n] bytes from address [p] into a variable of [w] bits (207, 283). *)
Definition load (w : Z) (m : list Z) (p n : nat) : option Z :=
  if (p + n <=? length m)%nat && (8 * Z.of_nat n <=? w) then Some (word_of (firstn n (skipn p m))) else None.

(** MemoryOperationsHelper::Copy of [n] bytes of a variable to address [p] (291). *)
Definition store (w : Z) (m : list Z) (p n : nat) (v : Z) : option (list Z) :=
  if (p + n <=? length m)%nat && (8 * Z.of_nat n <=? w)
  then Some (firstn p m ++ bytes_of n v ++ skipn (p + n) m) else None.

(** Shift::LogicalRightSafeShift and LogicalLeftSafeShift (Shift.h 188-212): the shift is a
    uint8. The words of 128 bits are DoubleInteger<uint64>, whose operations are those of 128 bits
    integers (property C08). *)
Definition lsr (w x k : Z) : Z := if uwrap 8 k <? w then Z.shiftr x (uwrap 8 k) else 0.
Definition lsl (w x k : Z) : Z := if uwrap 8 k <? w then uwrap w (Z.shiftl x (uwrap 8 k)) else 0.

(** Complement of a variable of [w] bits (operator ~, 184, 190, 274). *)
Definition inv (w x : Z) : Z := uwrap w (Z.lnot x).

(** BSToBS 181-199 and 212-267: the number that is extracted from the source word [s] and
    saturated, starting from bit 0. [ss], [sz], [sg] are sourceBitShift, sourceBitSize,
    sourceIsSigned; [dz], [dg] are destinationBitSize and destinationIsSigned. *)
Definition converted (w s ss sz : Z) (sg : bool) (dz : Z) (dg : bool) : Z :=
  let source_mask := lsr w (inv w 0) (w - sz) in                             (* 182-186 *)
  let destination_mask := lsr w (inv w 0) (w - dz) in                        (* 189-191 *)
  let source_sign := lsl w 1 (sz - 1) in                                     (* 194-195 *)
  let destination_sign := lsl w 1 (dz - 1) in                                (* 198-199 *)
  let c := Z.land (lsr w s ss) source_mask in                                (* 214-216 *)
  if sg && negb (Z.land c source_sign =? 0) then                             (* 219-226 *)
    if negb dg then 0                                                        (* 228-231 *)
    else if dz <? sz then                                                    (* 234 *)
      let mask := uwrap w (source_mask - lsr w destination_mask 1) in        (* 239 *)
      if negb (Z.land c mask =? mask) then destination_sign else c           (* 242-245 *)
    else Z.lor c (uwrap w (destination_mask - source_mask))                  (* 249-251 *)
  else
    let max := if dg then lsr w destination_mask 1 else destination_mask in  (* 258-262 *)
    if max <? c then max else c.                                             (* 264-266 *)

(** BSToBS 269-289: the number [c] merged into the destination word [d]. *)
Definition merged (w d ds dz c : Z) : Z :=
  let destination_mask := lsr w (inv w 0) (w - dz) in
  Z.lor (lsl w c ds) (Z.land (inv w (lsl w destination_mask ds)) d).

(** The number of bytes that a range of bits spans (203, 279). *)
Definition span (sz ss : Z) : nat := Z.to_nat ((sz + ss + 7) / 8).

(** BSToBS (169-295) with a T of [w] bits: [dm], [dp] and [sm], [sp] are the memories of the
    destination and of the source with the addresses in them. *)
Definition bs_to_bs (w : Z) (dm : list Z) (dp : nat) (ds dz : Z) (dg : bool)
                    (sm : list Z) (sp : nat) (ss sz : Z) (sg : bool) : option (list Z) :=
  match load w sm sp (span sz ss) with                                       (* 203-210 *)
  | None => None
  | Some s =>
    let c := converted w s ss sz sg dz dg in
    match load w dm dp (span dz ds) with                                     (* 277-285 *)
    | None => None
    | Some d => store w dm dp (span dz ds) (merged w d ds dz c)              (* 286-293 *)
    end
  end.

(** The outcome of BitSetToBitSet: the value returned, the destination memory and the in/out
    parameters (pointers and shifts). *)
Record outcome := Outcome {
  o_ret : bool;
  o_mem : list Z;
  o_dp : nat;
  o_ds : Z;
  o_sp : nat;
  o_ss : Z }.

(** The width of the words used (347-390): None when no width is large enough. *)
Definition width (send dend : Z) : option Z :=
  if (send <=? 8) && (dend <=? 8) then Some 8
  else if (send <=? 16) && (dend <=? 16) then Some 16
  else if (send <=? 32) && (dend <=? 32) then Some 32
  else if (send <=? 64) && (dend <=? 64) then Some 64
  else if (send <=? 128) && (dend <=? 128) then Some 128
  else None.

(** BitSetToBitSet (297-396), T = uint8 (granularity 8, granularityMask 7, granularityShift 3). *)
Definition bitset_to_bitset (dm : list Z) (dp : nat) (ds dz : Z) (dg : bool)
                            (sm : list Z) (sp : nat) (ss sz : Z) (sg : bool) : option outcome :=
  let (sp, ss) := if 8 <=? ss then ((sp + Z.to_nat (Z.shiftr ss 3))%nat, Z.land ss 7) else (sp, ss) in  (* 324-330 *)
  let (dp, ds) := if 8 <=? ds then ((dp + Z.to_nat (Z.shiftr ds 3))%nat, Z.land ds 7) else (dp, ds) in  (* 333-337 *)
  let send := uwrap 8 (ss + sz) in                                           (* 341 *)
  let dend := uwrap 8 (ds + dz) in                                           (* 343 *)
  match width send dend with
  | None => Some (Outcome false dm dp (uwrap 8 (ds + dz)) sp (uwrap 8 (ss + sz)))
  | Some w =>
    match bs_to_bs w dm dp ds dz dg sm sp ss sz sg with
    | None => None
    | Some m => Some (Outcome true m dp (uwrap 8 (ds + dz)) sp (uwrap 8 (ss + sz)))
    end
  end.

(** BitSetToInteger (398-413): the destination is a variable of [n] bytes that holds [old];
    the result is the value returned and the unsigned value of the bits of the variable. *)
Definition bitset_to_integer (n : nat) (dg : bool) (old : Z) (sm : list Z) (sp : nat) (ss sz : Z) (sg : bool)
  : option (bool * list Z * nat * Z) :=
  match bitset_to_bitset (bytes_of n old) 0 0 (8 * Z.of_nat n) dg sm sp ss sz sg with
  | None => None
  | Some o => Some (o_ret o, o_mem o, o_sp o, o_ss o)
  end.

(** IntegerToBitSet (415-430): the source is a variable of [n] bytes of value [v]. *)
Definition integer_to_bitset (dm : list Z) (dp : nat) (ds dz : Z) (dg : bool) (n : nat) (sg : bool) (v : Z)
  : option (bool * list Z * nat * Z) :=
  match bitset_to_bitset dm dp ds dz dg (bytes_of n v) 0 0 (8 * Z.of_nat n) sg with
  | None => None
  | Some o => Some (o_ret o, o_mem o, o_dp o, o_ds o)
  end.
