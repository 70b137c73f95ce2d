(** Source/Core/BareMetal/L3Streams/IOBufferFloatPrint.cpp: the printing of a float32 or of a float64. The numbers and the operations of
    the processor are those of Flt_Model and Ftx_Model, the format is that of Fmt_Model.
    Simplifications: PutC never fails, so that a text is the list of the characters that are put; the quantities of type int16 are integers
    (the sizes are at most 1000, the precisions at most 255 and the exponents at most 512 in size). *)
From Verif Require Import Base Flt_Model Ftx_Model.
From Verif Require Fmt_Model.
Open Scope Z_scope.

(** The notations, FormatDescriptor.h 55-86 *)
Definition FixedPoint := 0. Definition FixedPointR := 1. Definition Exponent := 2. Definition Engineering := 3. Definition Smart := 6. Definition Compact := 7.

(** CHECK_AND_REDUCE 46-57 and CHECK_AND_INCREASE 63-74 *)
Definition reduce (f : fmt) (st : fl * Z) (s : Z) : fl * Z :=
  let (x, e) := st in if fge x (big_step f s) then (fmul f x (small_step f s), e + s) else st.
Definition increase (f : fmt) (st : fl * Z) (s : Z) : fl * Z :=
  let (x, e) := st in if fge (small_step f s) x then (fmul f x (big_step f (s + 1)), e - (s + 1)) else st.
Definition one : fl := Fin 1 0.
Definition all_steps (f : fmt) : list Z := steps f ++ [1].
(** NormalizeFloatNumberPrivate 228-274 *)
Definition normalize (f : fmt) (x : fl) : fl * Z :=
  if fgt x zero then
    if fge x one then fold_left (reduce f) (all_steps f) (x, 0)
    else fold_left (increase f) (all_steps f ++ [0]) (x, 0)
  else (x, 0).
(** FastPowerOf10Private 284-312: the bits of the exponent from the first that is one *)
Fixpoint power_bits (f : fmt) (radix : fl) (p : positive) : fl :=
  match p with
  | xH => fmul f (fmul f one one) radix
  | xO q => let o := power_bits f radix q in fmul f o o
  | xI q => let o := power_bits f radix q in fmul f (fmul f o o) radix
  end.
Definition fast_power (f : fmt) (exponent : Z) : fl :=
  let radix := if exponent <? 0 then small_step f 1 else ten f in
  match Z.abs exponent with Zpos p => power_bits f radix p | _ => one end.
(** NumberOfDigitsOfExponent 319-354 *)
Definition digits_of_exponent (e : Z) : Z :=
  if e =? 0 then 0 else
  let e := Z.abs e in
  if e <? 100 then (if 10 <=? e then 4 else 3) else 5 + (if 1000 <=? e then 1 else 0) + (if 10000 <=? e then 1 else 0).
(** ExponentToEngineeringPrivate 362-379: the multiple of three and the remainder *)
Definition to_engineering (e : Z) : Z * Z :=
  let g := (if e <? 0 then Z.quot (e - 2) 3 else Z.quot e 3) * 3 in (g, e - g).
(** NumberOfDigitsFixedNotation 396-517: the size and the precision *)
Definition size_fixed (e : Z) (hasSign : bool) (precision maximumSize : Z) : Z * Z :=
  let size := (if 0 <=? e then e + 1 else 1) + (if hasSign then 1 else 0) in
  let space := maximumSize - size in
  if space <? 0 then (1, if 0 <=? e then -1 else 0) else
  let relative precision size := let precision := precision + e + 1 in if precision <? 0 then (1, 0) else (size, precision) in
  if 0 <? precision then
    if space <? 2 then (size, if 0 <=? e then e + 1 else 0)
    else
      let space := space - 1 in
      let size := size + 1 in
      let excess := precision - space in
      if 0 <? excess then relative (precision - excess) (size + space) else relative precision (size + precision)
  else relative precision size.
(** NumberOfDigitsFixedRelativeNotation 534-657 *)
Definition size_relative (e : Z) (hasSign : bool) (precision maximumSize : Z) : Z * Z :=
  let desired := if 0 <=? e then precision - (e + 1) else precision - 1 in
  let size := (if 0 <=? e then e + 1 else 2 - e) + (if hasSign then 1 else 0) in
  let space := maximumSize - size in
  if space <? 0 then (1, if 0 <=? e then -1 else 0) else
  if 0 <? desired then
    if space =? 0 then (size, precision - desired)
    else if (0 <=? e) && (space =? 1) then (size, precision - desired)
    else
      let size := if 0 <=? e then size + 1 else size in
      let space := if 0 <=? e then space - 1 else space in
      let excess := desired - space in
      if 0 <? excess then (size + space, precision - excess) else (size + desired, precision)
  else (size, precision).
(** NumberOfDigits{Exponential,Engineering,Smart,Compact}Notation 672-835 *)
Definition size_exponential (e : Z) (hasSign : bool) (precision maximumSize : Z) : Z * Z :=
  if 0 <? precision then
    let k := digits_of_exponent e in let (m, p) := size_relative 0 hasSign precision (maximumSize - k) in (k + m, p)
  else (1, precision).
Definition size_engineering (e : Z) (hasSign : bool) (precision maximumSize : Z) : Z * Z :=
  if 0 <? precision then
    let (g, r) := to_engineering e in
    let k := digits_of_exponent g in let (m, p) := size_relative r hasSign precision (maximumSize - k) in (k + m, p)
  else (1, precision).
Definition size_smart (e : Z) (hasSign : bool) (precision maximumSize : Z) : Z * Z :=
  if 0 <? precision then
    let (g, r) := to_engineering e in
    let k := if negb (g =? 0) && (g <=? 24) && (-24 <=? g) then 1 else digits_of_exponent g in
    let (m, p) := size_relative r hasSign precision (maximumSize - k) in (k + m, p)
  else (1, precision).
Definition size_compact (e : Z) (hasSign : bool) (precision maximumSize : Z) : Z * Z :=
  if 0 <? precision then
    let (g, r) := to_engineering e in
    if (g <=? 24) && (-24 <=? g) then
      let k := if negb (g =? 0) then 1 else 0 in let (m, p) := size_relative r hasSign precision (maximumSize - k) in (k + m, p)
    else let k := digits_of_exponent (g + r) in let (m, p) := size_relative 0 hasSign precision (maximumSize - k) in (k + m, p)
  else (1, precision).
(** NumberOfDigitsNotation 848-889 *)
Definition size_notation (notation e : Z) (hasSign : bool) (precision maximumSize : Z) : Z * Z :=
  if notation =? FixedPoint then size_fixed e hasSign precision maximumSize
  else if notation =? FixedPointR then size_relative e hasSign precision maximumSize
  else if notation =? Exponent then size_exponential e hasSign precision maximumSize
  else if notation =? Engineering then size_engineering e hasSign precision maximumSize
  else if notation =? Smart then size_smart e hasSign precision maximumSize
  else if notation =? Compact then size_compact e hasSign precision maximumSize
  else (0, precision).

(** Number2StreamDecimalNotationPrivate 94-216 for an int16: the buffer has five characters *)
Fixpoint decimal_loop (k : nat) (n : Z) (acc : list Z) : list Z :=
  match k with
  | O => acc
  | S k => let acc := 48 + n mod 10 :: acc in if 0 <? n / 10 then decimal_loop k (n / 10) acc else acc
  end.
(** ExponentToStreamPrivate 897-926 *)
Definition exponent_text (e : Z) : list Z :=
  if e =? 0 then [] else 69 :: (if 0 <? e then 43 else 45) :: decimal_loop 5 (Z.abs e) [].

(** The loop 991-1031 of FloatToFixedPrivate; static_cast<int8>(positiveNumber) may be undefined (None) *)
Definition int8 : ity := Ity true 8.
Fixpoint digit_loop (f : fmt) (n : nat) (x : fl) (e p : Z) : option (list Z) :=
  if (0 <=? e) || (0 <? p) then
    match n with
    | O => None
    | S n =>
      let dot := if e =? -1 then [46] else [] in
      let p' := if 0 <? p then p - 1 else p in
      if p =? 0 then
        match digit_loop f n x (e - 1) p' with Some r => Some (dot ++ 48 :: r) | None => None end
      else
        match to_int int8 x with
        | None => None
        | Some d =>
          match digit_loop f n (fmul f (fsub f x (of_int f d)) (ten f)) (e - 1) p' with Some r => Some (dot ++ 48 + d :: r) | None => None end
        end
    end
  else Some [].
(** FloatToFixedPrivate 946-1034: the characters and what is returned *)
Definition to_fixed (f : fmt) (x : fl) (e p : Z) : option (list Z * bool) :=
  if fgt zero x || fge x (ten f) then Some ([33], false) else
  let prefix := if e <? 0 then [48; 46] ++ repeat 48 (Z.to_nat (- (e + 1))) else [] in
  let e := if e <? 0 then e - 1 else e in
  match digit_loop f (Z.to_nat (Z.max (e + 1) p)) x e p with Some r => Some (prefix ++ r, true) | None => None end.
(** yzafpnum KMGTPEZY 1094 and 1119 *)
Definition symbols : list Z := [121; 122; 97; 102; 112; 110; 117; 109; 32; 75; 77; 71; 84; 80; 69; 90; 89].
Definition symbol (g : Z) : list Z := [nth (Z.to_nat (Z.quot g 3 + 8)) symbols 0].
Definition followed (a : option (list Z * bool)) (suffix : list Z) : option (list Z * bool) :=
  match a with Some (t, ok) => Some (t ++ suffix, ok) | None => None end.
(** FloatToStreamPrivate 1047-1136 *)
Definition to_notation (f : fmt) (notation : Z) (x : fl) (e p : Z) : option (list Z * bool) :=
  if (notation =? FixedPoint) || (notation =? FixedPointR) then to_fixed f x e p
  else if notation =? Exponent then followed (to_fixed f x 0 p) (exponent_text e)
  else if notation =? Engineering then let (g, r) := to_engineering e in followed (to_fixed f x r p) (exponent_text g)
  else if notation =? Smart then
    let (g, r) := to_engineering e in
    followed (to_fixed f x r p) (if negb (g =? 0) && (g <=? 24) && (-24 <=? g) then symbol g else exponent_text g)
  else if notation =? Compact then
    let (g, r) := to_engineering e in
    if (g <=? 24) && (-24 <=? g) then followed (to_fixed f x r p) (if negb (g =? 0) then symbol g else [])
    else followed (to_fixed f x 0 p) (exponent_text (g + r))
  else Some ([], false).

(** FloatDisplayModes 1139-1149 *)
Inductive mode := Normal (x : fl) (e p : Z) | ZeroFloat | NanFloat | InfPFloat | InfNFloat | InsufficientSpace.
(** RoundUpNumber 1216-1230 *)
Definition round_up (f : fmt) (x : fl) (precision : Z) : fl := fadd f x (fmul f (fast_power f (- precision)) (cast f (Fin 5 0))).
(** 1262-1284: the precision *)
Definition format_precision (f : fmt) (d : Fmt_Model.fd) : Z :=
  if Fmt_Model.precision d =? 255 then
    if Fmt_Model.floatNotation d =? FixedPoint then 6 else if is_double f then 15 else 7
  else Fmt_Model.precision d.
(** 1310-1393: the mode and the size of a finite number that is not zero *)
Definition choose (f : fmt) (notation : Z) (x : fl) (hasSign : bool) (formatPrecision maximumSize : Z) : mode * Z :=
  let (x, e) := normalize f x in
  let (size, p) := size_notation notation e hasSign formatPrecision maximumSize in
  let '(x, most) :=
    if (notation =? FixedPoint) || (notation =? FixedPointR) then
      if 0 <=? p then (round_up f x p, formatPrecision) else (x, formatPrecision)
    else if 0 <=? p then (round_up f x p, p + 1) else (round_up f x 1, 2) in
  let '(x, e, size, p) :=
    if fge x (ten f) then
      let most := if formatPrecision <? most then formatPrecision else most in
      let x := fdiv f x (ten f) in
      let (size, p) := size_notation notation (e + 1) hasSign most maximumSize in (x, e + 1, size, p)
    else (x, e, size, p) in
  if p =? 0 then (ZeroFloat, 1) else if p <? 0 then (InsufficientSpace, 1) else (Normal x e p, size).
(** CheckNumber 1159-1206 and what follows *)
Definition choose_mode (f : fmt) (notation : Z) (x : fl) (formatPrecision maximumSize : Z) : mode * Z :=
  match x with
  | NaN => if maximumSize <? 3 then (InsufficientSpace, 1) else (NanFloat, 3)
  | Inf s => if maximumSize <? 4 then (InsufficientSpace, 1) else (if s then InfNFloat else InfPFloat, 4)
  | Fin m _ =>
    if m =? 0 then (ZeroFloat, 1)
    else let hasSign := fgt zero x in choose f notation (if hasSign then fneg x else x) hasSign formatPrecision maximumSize
  end.
(** FloatToStreamPrivate 1245-1505, FloatToStream 1520-1543: the text that is put in the buffer and what is returned *)
Definition float_to_stream (f : fmt) (x : fl) (d : Fmt_Model.fd) : option (list Z * bool) :=
  let maximumSize := if Fmt_Model.size d =? 0 then 1000 else Fmt_Model.size d in
  let isPadded := if Fmt_Model.size d =? 0 then false else Fmt_Model.padded d in
  let (md, size) := choose_mode f (Fmt_Model.floatNotation d) x (format_precision f d) maximumSize in
  let spaces := repeat 32 (Z.to_nat (maximumSize - size)) in
  let before := if isPadded && negb (Fmt_Model.leftAligned d) then spaces else [] in
  let after := if isPadded && Fmt_Model.leftAligned d then spaces else [] in
  let text := match md with
    | Normal y e p =>
      match to_notation f (Fmt_Model.floatNotation d) y e p with
      | Some (t, ok) => Some ((if fgt zero x then [45] else []) ++ t, ok)
      | None => None
      end
    | ZeroFloat => Some ([48], true)
    | InsufficientSpace => Some ([63], true)
    | NanFloat => Some ([78; 97; 78], true)
    | InfPFloat => Some ([43; 73; 110; 102], true)
    | InfNFloat => Some ([45; 73; 110; 102], true)
    end in
  match text with Some (t, ok) => Some (before ++ t ++ after, ok) | None => None end.
