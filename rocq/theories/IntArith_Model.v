(** Fixed-width integer helpers: saturating conversion, bit fields, safe arithmetic, double-width
    integers, integer square root.  Paths relative to Source/Core/BareMetal. *)
From Verif Require Import Base.

(** L0Types/TypeCharacteristics.h:165-170 UsableBitSize (integer types). *)
Definition usable_bits (t : ity) : Z := if isgn t then ibits t - 1 else ibits t.
(** L0Types/TypeCharacteristics.h:192-197 UsableNegativeBitSize (integer types). *)
Definition usable_neg_bits (t : ity) : Z := if isgn t then ibits t - 1 else 0.

(** L0Types/TypeCharacteristics.h:233-256 SafeNumber2Number for integer types: (ret, dest). *)
Definition safe_number2number (ti to_ : ity) (src : Z) : bool * Z :=
  let st := (true, None) in
  let st := if usable_bits ti >? usable_bits to_ then
              let maxSource := cast ti (imax to_) in
              if src >? maxSource then (false, Some (imax to_)) else st
            else st in
  let st := if usable_neg_bits ti >? usable_neg_bits to_ then
              let minSource := cast ti (imin to_) in
              if src <? minSource then (false, Some (imin to_)) else st
            else st in
  match st with
  | (true, _) => (true, cast to_ src)
  | (false, Some d) => (false, d)
  | (false, None) => (false, 0) (* not reached: dest is set whenever ret is false *)
  end.

(** L0Types/TypeCharacteristics.h:268-321 SaturateInteger<outputType, inputType, bitSize>.
    >> on negative values is the arithmetic shift (gcc). *)
Definition saturate_integer (to_ ti : ity) (bitSize : Z) (input : Z) : Z :=
  let minValue := if isgn to_ then cast to_ (Z.shiftr (imin to_) (ibits to_ - bitSize)) else 0 in
  let maxValue := cast to_ (Z.shiftr (imax to_) (ibits to_ - bitSize)) in
  let value := cast to_ input in
  if input >=? 0 then
    if usable_bits ti >? usable_bits to_ then
      if input >? cast ti maxValue then maxValue else value
    else if cast to_ input >? maxValue then maxValue else value
  else
    if negb (isgn to_) then 0
    else if usable_bits ti >? usable_bits to_ then
      if input <? cast ti minValue then minValue else value
    else if cast to_ input <? minValue then minValue else value.

(** ** L0Types/BitRange.h *)

(** BitRange.h:110 mask: ~0 converted to the base type, shifted right (arithmetically when the base type
    is signed), converted to uint64, shifted left, converted to the base type. *)
Definition br_mask (t : ity) (n off : Z) : Z :=
  cast t (uwrap 64 (Z.shiftl (uwrap 64 (Z.shiftr (cast t (-1)) (ibits t - n))) off)).
(** BitRange.h:115 notMask. *)
Definition br_notmask (t : ity) (n off : Z) : Z := cast t (Z.lnot (br_mask t n off)).

(** BitRange.h:123-140 operator=: new contents of the base word. *)
Definition br_assign (t ti : ity) (n off : Z) (word input : Z) : Z :=
  let tmp := saturate_integer t ti n input in
  let tmp := cast t (Z.shiftl tmp off) in
  let tmp := cast t (Z.land tmp (br_mask t n off)) in
  let word := cast t (Z.land word (br_notmask t n off)) in
  cast t (Z.lor word tmp).

(** BitRange.h:142-156 operator baseType. *)
Definition br_read (t : ity) (n off : Z) (word : Z) : Z :=
  let tmp := cast t (Z.land word (br_mask t n off)) in
  let tmp := cast t (Z.shiftl tmp (ibits t - off - n)) in
  cast t (Z.shiftr tmp (ibits t - n)).

(** ** L0Types/BitBoolean.h:99-126 *)
Definition bb_mask (t : ity) (off : Z) : Z := cast t (Z.shiftl 1 off).
Definition bb_assign (t : ity) (off : Z) (word : Z) (flag : bool) : Z :=
  if flag then cast t (Z.lor word (bb_mask t off))
  else cast t (Z.land word (cast t (Z.lnot (bb_mask t off)))).
Definition bb_read (t : ity) (off : Z) (word : Z) : bool := negb (Z.land word (bb_mask t off) =? 0).

(** ** L1Portability/SafeMath.h *)
Inductive sm_err := SmOk | SmOverflow | SmUnderflow.

(** SafeMath.h:161-184 SignBit<T>: 0 for unsigned types. *)
Definition sign_bit (t : ity) : Z := if isgn t then cast t (2 ^ (ibits t - 1)) else 0.
(** SafeMath.h:186-209 AllOnes<T>: 0 for unsigned types. *)
Definition all_ones (t : ity) : Z := if isgn t then cast t (2 ^ ibits t - 1) else 0.

(** SafeMath.h:232-258 Addition.  The sum of int32/int64 operands is computed with two's complement
    wrap-around; see [sm_add_strict] for the C++ rule. *)
Definition sm_add (t : ity) (a1 a2 : Z) : sm_err * Z :=
  let sum := cast t (a1 + a2) in
  (if isgn t then
     if (Z.land (Z.lxor a1 a2) (sign_bit t) =? 0) && negb (Z.land (Z.lxor a1 sum) (sign_bit t) =? 0) then
       if Z.land a1 (sign_bit t) =? 0 then SmOverflow else SmUnderflow
     else SmOk
   else if (sum <? a1) && (sum <? a2) then SmOverflow else SmOk, sum).

(** SafeMath.h:261-287 Subtraction. *)
Definition sm_sub (t : ity) (a1 a2 : Z) : sm_err * Z :=
  let sum := cast t (a1 - a2) in
  (if isgn t then
     if negb (Z.land (Z.lxor a1 a2) (sign_bit t) =? 0) && negb (Z.land (Z.lxor a1 sum) (sign_bit t) =? 0) then
       if Z.land a1 (sign_bit t) =? 0 then SmOverflow else SmUnderflow
     else SmOk
   else if a2 >? a1 then SmUnderflow else SmOk, sum).

(** The C++ rule for signed arithmetic of at least int width: overflow is undefined behaviour (None).
    Narrower types are computed in int and then converted. *)
Definition signed_ub (t : ity) (exact : Z) : bool :=
  isgn t && (32 <=? ibits t) && negb ((imin t <=? exact) && (exact <=? imax t)).
Definition sm_add_strict (t : ity) (a1 a2 : Z) : option (sm_err * Z) :=
  if signed_ub t (a1 + a2) then None else Some (sm_add t a1 a2).
Definition sm_sub_strict (t : ity) (a1 a2 : Z) : option (sm_err * Z) :=
  if signed_ub t (a1 - a2) then None else Some (sm_sub t a1 a2).

(** L1Portability/Architecture/x86_gcc/FastMathA.h:87-126 CompleteMultiply (UMulT): (low, high).
    T2 is the type of twice the width and the same signedness. *)
Definition complete_multiply (t : ity) (x1 x2 : Z) : Z * Z :=
  let t2 := ITy (2 * ibits t) (isgn t) in
  let mask := cast t2 (if isgn t || (ibits t <? 32) then -1 else 2 ^ ibits t - 1) in
  let ret := cast t2 (x1 * x2) in
  (cast t (Z.land ret mask), cast t (Z.shiftr ret (ibits t))).

(** SafeMath.h:289-312 Multiplication: (overflow bit, underflow bit, product). *)
Definition sm_mul (t : ity) (a1 a2 : Z) : bool * bool * Z :=
  let '(product, overflow) := complete_multiply t a1 a2 in
  if isgn t then
    ((overflow >? 0) || ((overflow =? 0) && (product <? 0)),
     (overflow <? all_ones t) || ((overflow =? all_ones t) && (product >=? 0)), product)
  else (negb (overflow =? 0), false, product).

(** ** L1Portability/FastMath.h:299-469 SquareRoot<uintN>, SquareRoot<intN>; intermediate values cannot
    exceed the type (proved), additions are written without wrap. *)
Fixpoint sqrt_skip (fuel : nat) (bit tmp : Z) : Z :=      (* while (bit > tmp) bit >>= 2 *)
  match fuel with
  | O => 0
  | S f => if bit >? tmp then sqrt_skip f (bit / 4) tmp else bit
  end.
Fixpoint sqrt_loop (t : ity) (fuel : nat) (tmp res bit : Z) : Z :=
  match fuel with
  | O => res
  | S f =>
    if bit =? 0 then res
    else if tmp >=? cast t (res + bit) then
      sqrt_loop t f (cast t (tmp - cast t (res + bit))) (cast t (res / 2 + bit)) (bit / 4)
    else sqrt_loop t f tmp (res / 2) (bit / 4)
  end.
Definition square_root_u (t : ity) (x : Z) : Z :=
  let bit := sqrt_skip 40 (2 ^ (ibits t - 2)) x in sqrt_loop t 40 x 0 bit.
(** FastMath.h:415-469: the absolute value (two's complement negation) is used. *)
Definition square_root_s (t : ity) (x : Z) : Z :=
  let tmp2 := if x <? 0 then cast t (x * -1) else x in
  let tu := ITy (ibits t) false in
  cast t (square_root_u tu (cast tu tmp2)).

(** ** L0Types/DoubleInteger.h *)
Record dint := DI { d_up : Z; d_lo : Z }.

(** DoubleInteger.h:281-312 constructor from an integer of type t2. *)
Definition di_of (t t2 : ity) (n : Z) : dint :=
  if n =? 0 then DI 0 0
  else if n >? 0 then
    DI (if ibits t2 >? ibits t then cast t (Z.shiftr n (ibits t)) else 0) (cast t n)
  else
    DI (if ibits t2 >? ibits t then cast t (Z.shiftr n (ibits t)) else cast t (-1)) (cast t n).

(** DoubleInteger.h:314-341 operator<<=.  Halves are shifted in (promoted) T and truncated. *)
Definition di_shl (t : ity) (d : dint) (shift : Z) : dint :=
  if shift >? 0 then
    if shift <? ibits t then
      let up := cast t (Z.shiftl (d_up d) shift) in
      let up := cast t (Z.lor up (Z.shiftr (d_lo d) (ibits t - shift))) in
      DI up (cast t (Z.shiftl (d_lo d) shift))
    else
      let shift := shift - ibits t in
      DI (cast t (Z.shiftl (d_lo d) shift)) 0
  else d.

(** DoubleInteger.h:343-375 operator>>=. *)
Definition di_shr (t : ity) (d : dint) (shift : Z) : dint :=
  if shift >? 0 then
    if shift <? ibits t then
      let lo := cast t (Z.shiftr (d_lo d) shift) in
      let lo := cast t (Z.lor lo (Z.shiftl (d_up d) (ibits t - shift))) in
      DI (cast t (Z.shiftr (d_up d) shift)) lo
    else
      let shift := shift - ibits t in
      DI (if d_up d <? 0 then cast t (-1) else 0) (cast t (Z.shiftr (d_up d) shift))
  else d.

(** DoubleInteger.h:393-437. *)
Definition di_and (t : ity) (a b : dint) : dint := DI (Z.land (d_up a) (d_up b)) (Z.land (d_lo a) (d_lo b)).
Definition di_or (t : ity) (a b : dint) : dint := DI (Z.lor (d_up a) (d_up b)) (Z.lor (d_lo a) (d_lo b)).
Definition di_not (t : ity) (a : dint) : dint := DI (cast t (Z.lnot (d_up a))) (cast t (Z.lnot (d_lo a))).
(** DoubleInteger.h:405-413. *)
Definition di_ne (a b : dint) : bool := negb (d_up a =? d_up b) || negb (d_lo a =? d_lo b).
Definition di_eq (a b : dint) : bool := negb (di_ne a b).

(** DoubleInteger.h:439-471 operator-. *)
Definition di_sub (t : ity) (a b : dint) : dint :=
  let up := cast t (d_up a - d_up b) in
  let lo := cast t (d_lo a - d_lo b) in
  let borrow1 := isgn t && (d_lo a >=? 0) && (d_lo b <? 0) in
  let canReturn := borrow1 || (isgn t && (d_lo a <? 0) && (d_lo b >=? 0)) in
  let up := if borrow1 then cast t (up - 1) else up in
  let up := if negb canReturn && (d_lo b >? d_lo a) then cast t (up - 1) else up in
  DI up lo.

(** DoubleInteger.h:473-501 operator+. *)
Definition di_add (t : ity) (a b : dint) : dint :=
  let up := cast t (d_up a + d_up b) in
  let lo := cast t (d_lo a + d_lo b) in
  let canReturn := isgn t && (d_lo a <? 0) && (d_lo b <? 0) in
  let up := if canReturn then cast t (up + 1) else up in
  let up := if negb canReturn && ((lo <? d_lo a) || (lo <? d_lo b)) && (lo >=? 0) then cast t (up + 1) else up in
  DI up lo.

(** DoubleInteger.h:503-550. *)
Definition di_gt (t : ity) (a b : dint) : bool :=
  if d_up a =? d_up b then
    if isgn t && (d_lo a <? 0) && (d_lo b >=? 0) then true
    else if isgn t && (d_lo a >=? 0) && (d_lo b <? 0) then false
    else d_lo a >? d_lo b
  else d_up a >? d_up b.
Definition di_lt (t : ity) (a b : dint) : bool := negb (di_gt t a b) && di_ne a b.
Definition di_ge (t : ity) (a b : dint) : bool := negb (di_lt t a b).
Definition di_le (t : ity) (a b : dint) : bool := negb (di_gt t a b).
