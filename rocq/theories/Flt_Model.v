(** Numbers of type float32 and float64, and Source/Core/BareMetal/L4Configuration/FloatToInteger.cpp and IntegerToFloat.cpp.
    The operations of the processor are those of IEEE 754 with rounding to the nearest, ties to even. Simplifications: there is one zero. *)
From Verif Require Import Base.
Open Scope Z_scope.

(** A format: the digits of the mantissa and the exponent of the first power of two that is too large. *)
Record fmt := Fmt { prec : Z; emax : Z }.
Definition binary32 := Fmt 24 128.
Definition binary64 := Fmt 53 1024.
Definition emin (f : fmt) : Z := 3 - emax f - prec f.
(** m * 2^e, an infinity (true: the negative one), or not a number *)
Inductive fl := Fin (m e : Z) | Inf (negative : bool) | NaN.
(** the number of binary digits *)
Definition bits (m : Z) : Z := if m =? 0 then 0 else Z.log2 (Z.abs m) + 1.
(** m / 2^k to the nearest integer, ties to even *)
Definition rne (m k : Z) : Z :=
  let d := 2 ^ k in let q := m / d in let r := m mod d in
  if 2 * r <? d then q else if d <? 2 * r then q + 1 else if Z.even q then q else q + 1.
(** the number of the format for the exact value m * 2^e *)
Definition rnd (f : fmt) (m e : Z) : fl :=
  let k := Z.max (bits m - prec f) (Z.max (emin f - e) 0) in
  let m' := rne m k in
  if negb (m' =? 0) && (emax f <? bits m' + (e + k)) then Inf (m' <? 0) else Fin m' (e + k).
(** exact comparison and subtraction *)
Definition cmp (m1 e1 m2 e2 : Z) : comparison := let c := Z.min e1 e2 in (m1 * 2 ^ (e1 - c)) ?= (m2 * 2 ^ (e2 - c)).
Definition fge (x y : fl) : bool :=
  match x, y with
  | NaN, _ | _, NaN => false
  | Inf false, _ | _, Inf true => true
  | Inf true, _ | _, Inf false => false
  | Fin m1 e1, Fin m2 e2 => match cmp m1 e1 m2 e2 with Lt => false | _ => true end
  end.
Definition fgt (x y : fl) : bool := fge x y && negb (fge y x).
Definition fsub (f : fmt) (x y : fl) : fl :=
  match x, y with
  | Fin m1 e1, Fin m2 e2 => let c := Z.min e1 e2 in rnd f (m1 * 2 ^ (e1 - c) - m2 * 2 ^ (e2 - c)) c
  | NaN, _ | _, NaN => NaN
  | Inf a, Inf b => if Bool.eqb a b then NaN else Inf a
  | Inf a, Fin _ _ => Inf a
  | Fin _ _, Inf b => Inf (negb b)
  end.
Definition zero : fl := Fin 0 0.
Definition half : fl := Fin 1 (-1).
Definition minus_half : fl := Fin (-1) (-1).

(** Integer types *)
Record ity := Ity { sgn : bool; wid : Z }.
(** FloatToInteger.cpp 66-72: IntegerType(-1), shifted right by one when signed, and 1 shifted left *)
Definition imax (t : ity) : Z := if sgn t then 2 ^ (wid t - 1) - 1 else 2 ^ wid t - 1.
Definition imin (t : ity) : Z := if sgn t then - 2 ^ (wid t - 1) else 0.
(** static_cast<FloatType>(integer) *)
Definition of_int (f : fmt) (n : Z) : fl := rnd f n 0.
(** static_cast<IntegerType>(float): the part before the point; None: undefined (NaN, infinity or out of the range) *)
Definition trunc (m e : Z) : Z := if 0 <=? e then m * 2 ^ e else Z.quot m (2 ^ (- e)).
Definition to_int (t : ity) (x : fl) : option Z :=
  match x with Fin m e => let n := trunc m e in if (imin t <=? n) && (n <=? imax t) then Some n else None | _ => None end.

(** FloatToInteger 57-108 *)
Definition float_to_integer (f : fmt) (t : ity) (x : fl) : option Z :=
  let positive := fgt x zero in
  if sgn t || positive then
    let max := imax t in let min := imin t in
    if fge x (of_int f max) then Some max
    else if fge (of_int f min) x then Some min
    else match to_int t x with
         | None => None
         | Some n =>
           if fge (fsub f x (of_int f n)) half then Some (if n <? max then n + 1 else n)
           else if fge minus_half (fsub f x (of_int f n)) then Some (if min <? n then n - 1 else n)
           else Some n
         end
  else Some 0.
(** IntegerToFloat.cpp 51-72: what is stored and what is returned *)
Definition integer_to_float (f : fmt) (n : Z) : fl * bool :=
  match of_int f n with NaN | Inf _ => (zero, false) | x => (x, true) end.
(** FloatToIntegerGeneric 124-222 and IntegerToFloatGeneric: the type that is used for a number of bits *)
Definition type_for (signed : bool) (size : Z) : option ity :=
  if size <=? 8 then Some (Ity signed 8) else if size <=? 16 then Some (Ity signed 16)
  else if size <=? 32 then Some (Ity signed 32) else if size <=? 64 then Some (Ity signed 64) else None.

(** TypeConversion.cpp 61-90 (MinMaxFloat) and 100-127 (FloatToFloat); narrow: sizeof(FloatType2) < sizeof(FloatType1), and then
    FloatType2 is float32: the patterns 0x7f7fffff and 0xff7fffff are the largest numbers of that type *)
Definition largest : fl := Fin (2 ^ 24 - 1) 104.
Definition smallest : fl := Fin (- (2 ^ 24 - 1)) 104.
Definition float_to_float (narrow : bool) (f : fmt) (x : fl) : fl * bool :=
  match x with
  | Fin m e =>
    match rnd f m e with
    | NaN | Inf _ => if narrow then (if fgt x zero then largest else smallest, true) else (zero, false)
    | y => (y, true)
    end
  | _ => (zero, false)
  end.
(** The two conversions of TypeConvert between float32 and float64 (336-346) *)
Definition to_float32 := float_to_float true binary32.
Definition to_float64 := float_to_float false binary64.

(** A destination or a source of nb bits at bit addr of the word at its address; the number of bits that is given to the functions is
    AnyType::GetBitSize (AnyType.h 1444), nb + addr. TypeConversion.cpp 328-335: the word after the conversion. None: not defined *)
Definition float_to_bits (f : fmt) (signed : bool) (nb addr : Z) (x : fl) (word : Z) : option Z :=
  match type_for signed (nb + addr) with Some t => float_to_integer f t x | None => Some word end.
(** TypeConversion.cpp 253-267: the integer that is read, IntegerToFloat.cpp 87-178 *)
Definition as_type (t : ity) (word : Z) : Z :=
  let u := word mod 2 ^ wid t in if sgn t && (2 ^ (wid t - 1) <=? u) then u - 2 ^ wid t else u.
Definition bits_to_float (f : fmt) (signed : bool) (nb addr : Z) (word : Z) : fl * bool :=
  match type_for signed (nb + addr) with Some t => integer_to_float f (as_type t word) | None => (zero, false) end.
