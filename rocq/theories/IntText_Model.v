(** Model of integer printing (IOBufferIntegerPrint.cpp) and integer parsing (StringToInteger.cpp).

    Characters are their codes (Z).  An IOBuffer with room for the text is modelled by the list of
    characters put so far; IOBuffer::PutC therefore never fails here (simplification: the "no more
    space" branches, which only stop the output early and return false, are not modelled). *)
From Verif Require Import Base.

(** Character codes used by the code. *)
Definition ch_0 := 48.
Definition ch_A := 65.
Definition ch_a := 97.
Definition ch_minus := 45.
Definition ch_plus := 43.
Definition ch_space := 32.
Definition ch_qmark := 63.
Definition ch_x := 120.
Definition ch_o := 111.
Definition ch_b := 98.

Definition sizeofT (t : ity) : Z := ibits t / 8.

(** One "temp = tenToExponent * 10^k; if (positiveNumber >= temp) {...}" step.
    IOBufferIntegerPrint.cpp:59-94.  The product is converted back to T (it can wrap). *)
Definition gom_step (t : ity) (mult add : Z) (n : Z) (st : Z * Z) : Z * Z :=
  let '(tte, nd) := st in
  let temp := cast t (tte * mult) in
  if n >=? temp then (temp, nd + add) else (tte, nd).

(** IOBufferIntegerPrint.cpp:54-106 GetOrderOfMagnitude<T>. *)
Definition get_order_of_magnitude (t : ity) (n : Z) : Z :=
  let st := (1, 0) in
  let st := if sizeofT t >=? 8 then gom_step t 10000000000 10 n st else st in
  let st := if sizeofT t >=? 4 then gom_step t 100000 5 n st else st in
  let st := if sizeofT t >=? 2 then gom_step t 100 2 n st else st in
  let st := gom_step t 10 1 n st in
  let '(tte, nd) := st in
  let temp := cast t (tte * 10) in
  if temp >? tte then (if n >=? temp then nd + 1 else nd) else nd.

(** "if (number >= 2^k) { nDigits += d; number >>= k }" step; IOBufferIntegerPrint.cpp:126-155, 181-216, 244-287. *)
Definition nd_step (k d : Z) (st : Z * Z) : Z * Z :=
  let '(n, nd) := st in
  if n >=? 2 ^ k then (n / 2 ^ k, nd + d) else (n, nd).

(** IOBufferIntegerPrint.cpp:117-162 GetNumberOfDigitsHexNotation<T>. *)
Definition nd_hex (t : ity) (n : Z) : Z :=
  if n >=? 0 then
    let st := (n, 1) in
    let st := if sizeofT t =? 8 then nd_step 32 8 st else st in
    let st := if sizeofT t >=? 4 then nd_step 16 4 st else st in
    let st := if sizeofT t >=? 2 then nd_step 8 2 st else st in
    let '(n, nd) := st in
    if n >=? 16 then nd + 1 else nd
  else sizeofT t * 2.

(** IOBufferIntegerPrint.cpp:173-223 GetNumberOfDigitsOctalNotation<T>. *)
Definition nd_oct (t : ity) (n : Z) : Z :=
  if n >=? 0 then
    let st := (n, 1) in
    let st := if sizeofT t =? 8 then nd_step 48 16 st else st in
    let st := if sizeofT t >=? 4 then nd_step 24 8 st else st in
    let st := if sizeofT t >=? 2 then nd_step 12 4 st else st in
    let st := nd_step 6 2 st in
    let '(n, nd) := st in
    if n >=? 8 then nd + 1 else nd
  else (sizeofT t * 8 + 2) / 3.

(** IOBufferIntegerPrint.cpp:234-294 GetNumberOfDigitsBinaryNotation<T>. *)
Definition nd_bin (t : ity) (n : Z) : Z :=
  if n >=? 0 then
    let st := (n, 1) in
    let st := if sizeofT t =? 8 then nd_step 32 32 st else st in
    let st := if sizeofT t >=? 4 then nd_step 16 16 st else st in
    let st := if sizeofT t >=? 2 then nd_step 8 8 st else st in
    let st := nd_step 4 4 st in
    let st := nd_step 2 2 st in
    let '(n, nd) := st in
    if n >=? 2 then nd + 1 else nd
  else sizeofT t * 8.

(** do { digit = n % 10; n /= 10; buffer[index--] = '0' + digit } while (n > 0);
    IOBufferIntegerPrint.cpp:394-408.  [room] is the number of free cells of the 5 byte buffer;
    writing with no room would be a write before the buffer: None. *)
Fixpoint n2s_digits (room : nat) (n : Z) (acc : list Z) : option (list Z) :=
  match room with
  | O => None
  | S r =>
    let acc' := (ch_0 + Z.rem n 10) :: acc in
    let n' := Z.quot n 10 in
    if n' >? 0 then n2s_digits r n' acc' else Some acc'
  end.

(** IOBufferIntegerPrint.cpp:392-432, the branch for types of at most two bytes.
    [numberFillLength] has been made non-negative at 317-319; zeros are put for i = 5-fill .. index,
    where index = 4 - length of the digits. *)
Definition n2s_small (n fill : Z) : option (list Z) :=
  let fill := if fill <? 0 then 0 else fill in
  match n2s_digits 5 n [] with
  | None => None
  | Some ds =>
    let index := 4 - Z.of_nat (length ds) in
    let zeros :=
      if fill >? 0 then
        let fill := if fill >? 5 then 5 else fill in
        repeat ch_0 (Z.to_nat (index - (5 - fill) + 1))
      else [] in
    Some (zeros ++ ds)
  end.

(** The loop over the powers of 10^4 (IOBufferIntegerPrint.cpp:325-355 and 361-388): [tests] lists the
    pairs (tests[i], figures).  x is converted to uint16. *)
Fixpoint n2s_big (tests : list (Z * Z)) (n fill : Z) : option (list Z) :=
  match tests with
  | [] => n2s_small (uwrap 16 n) fill
  | (test, figures) :: r =>
    if (n >? test) || (fill >? figures) then
      match n2s_small (uwrap 16 (Z.quot n test)) (fill - figures) with
      | None => None
      | Some s =>
        match n2s_big r (Z.rem n test) figures with
        | None => None
        | Some s' => Some (s ++ s')
        end
      end
    else n2s_big r n fill
  end.

(** IOBufferIntegerPrint.cpp:311-433 Number2StreamDecimalNotationPrivate<T>, with numberFillLength = 0
    as called at line 759. *)
Definition number2stream_decimal (t : ity) (n : Z) : option (list Z) :=
  if sizeofT t =? 8 then
    n2s_big [(10000000000000000, 16); (1000000000000, 12); (100000000, 8); (10000, 4)] n 0
  else if sizeofT t =? 4 then
    n2s_big [(100000000, 8); (10000, 4)] n 0
  else n2s_small n 0.

(** Literals put for the most negative values, IOBufferIntegerPrint.cpp:676, 683, 690, 697. *)
Definition min_text (t : ity) : list Z :=
  if sizeofT t =? 8 then [45;57;50;50;51;51;55;50;48;51;54;56;53;52;55;55;53;56;48;56]
  else if sizeofT t =? 4 then [45;50;49;52;55;52;56;51;54;52;56]
  else if sizeofT t =? 2 then [45;51;50;55;54;56]
  else [45;49;50;56].

(** Sizes required at IOBufferIntegerPrint.cpp:675, 682, 689, 696. *)
Definition min_text_room (t : ity) : Z :=
  if sizeofT t =? 8 then 20 else if sizeofT t =? 4 then 11 else if sizeofT t =? 2 then 6 else 4.

Definition zrepeat (c : Z) (n : Z) : list Z := repeat c (Z.to_nat n).

(** IOBufferIntegerPrint.cpp:632-774 IntegerToStreamDecimalNotation<T>; result: the characters put. *)
Definition int_to_stream_decimal (t : ity) (number : Z) (maximumSize : Z)
           (padded leftAligned binaryPadded : bool) : option (list Z) :=
  let padding := if binaryPadded then ch_0 else ch_space in
  let padded := if binaryPadded then true else padded in
  let '(maximumSize, padded) := if maximumSize =? 0 then (20, false) else (maximumSize, padded) in
  let positiveNumber := if number <? 0 then cast t (- number) else number in
  let numberSize := if number <? 0 then 2 else 1 in
  (* 674: number == (1 << (bits-1)) as T, and negative *)
  let ismin := (number =? cast t (2 ^ (ibits t - 1))) && (number <? 0) in
  if ismin && (maximumSize >=? min_text_room t) then Some (min_text t)
  else
    let numberSize := if ismin then maximumSize + 1 else numberSize + get_order_of_magnitude t positiveNumber in
    if maximumSize <? numberSize then
      Some ((if padded && negb leftAligned then zrepeat padding (maximumSize - 1) else [])
              ++ [ch_qmark]
              ++ (if padded && leftAligned then zrepeat ch_space (maximumSize - 1) else []))
    else
      match number2stream_decimal t positiveNumber with
      | None => None
      | Some ds =>
        Some ((if padded && negb leftAligned then zrepeat padding (maximumSize - numberSize) else [])
                ++ (if number <? 0 then [ch_minus] else [])
                ++ ds
                ++ (if padded && leftAligned then zrepeat ch_space (maximumSize - numberSize) else []))
      end.

(** Digit characters: '0'..'9' then 'A'..; IOBufferIntegerPrint.cpp:907-928, 1079-1082, 1231-1237. *)
Definition digit_char (d : Z) : Z := if d <? 10 then ch_0 + d else ch_A + d - 10.

(** Shift::LogicalRightSafeShift(number, i) & (2^k - 1), for number of type t: the bits are those of
    the unsigned representation. IOBufferIntegerPrint.cpp:907, 1079, 1231. *)
Definition digit_at (t : ity) (k : Z) (number i : Z) : Z :=
  (uwrap (ibits t) number / 2 ^ i) mod 2 ^ k.

(** for (i = (numberOfDigits-1)*k; i >= 0; i -= k) put digit; IOBufferIntegerPrint.cpp:902-930,
    1073-1086, 1226-1242.  [nd] digits remain. *)
Fixpoint put_digits (t : ity) (k : Z) (number : Z) (nd : nat) : list Z :=
  match nd with
  | O => []
  | S m => digit_char (digit_at t k number (Z.of_nat m * k)) :: put_digits t k number m
  end.

(** IntegerToStreamExadecimalNotation (803-944), IntegerToStreamOctalNotation (972-1099) and
    IntegerToStreamBinaryNotation (1127-1255) are the same text up to the number of bits per digit [k],
    the header letter [hc] and the digit counting function [ndf]. *)
Definition int_to_stream_pow2 (k hc : Z) (ndf : ity -> Z -> Z) (t : ity) (number : Z) (maximumSize : Z)
           (padded leftAligned : bool) (zeroPaddedBitSize : Z) (addHeader : bool) : list Z :=
  let headerSize := if addHeader then 2 else 0 in
  let numberOfDigits := ndf t number in
  let numberSize := headerSize + numberOfDigits in
  let '(maximumSize, padded) := if maximumSize =? 0 then (1000, false) else (maximumSize, padded) in
  if maximumSize <? numberSize then
    (if padded && negb leftAligned then zrepeat ch_space (maximumSize - 1) else [])
      ++ [ch_qmark]
      ++ (if padded && leftAligned then zrepeat ch_space (maximumSize - 1) else [])
  else
    let zeroPaddedDigits := (zeroPaddedBitSize + (k - 1)) / k in
    let '(numberSize, numberOfDigits) :=
      if zeroPaddedDigits >? numberOfDigits then
        let fullNumberSize := headerSize + zeroPaddedDigits in
        if fullNumberSize >? maximumSize then
          (maximumSize, zeroPaddedDigits - (fullNumberSize - maximumSize))
        else (fullNumberSize, zeroPaddedDigits)
      else (numberSize, numberOfDigits) in
    (if padded && negb leftAligned then zrepeat ch_space (maximumSize - numberSize) else [])
      ++ (if addHeader then [ch_0; hc] else [])
      ++ put_digits t k number (Z.to_nat numberOfDigits)
      ++ (if padded && leftAligned then zrepeat ch_space (maximumSize - numberSize) else []).

Definition int_to_stream_hex := int_to_stream_pow2 4 ch_x nd_hex.
Definition int_to_stream_oct := int_to_stream_pow2 3 ch_o nd_oct.
Definition int_to_stream_bin := int_to_stream_pow2 1 ch_b nd_bin.

(** FormatDescriptor fields used by IntegerToStreamPrivate. *)
Inductive notation := DecN | HexN | OctN | BinN.
Record fmt := Fmt { f_size : Z; f_padded : bool; f_left : bool; f_binpad : bool; f_full : bool; f_not : notation }.

(** IOBufferIntegerPrint.cpp:468-497 IntegerToStreamPrivate with actualBitSize = sizeof(T)*8. *)
Definition integer_to_stream (t : ity) (number : Z) (f : fmt) : option (list Z) :=
  let abs := if f_binpad f then ibits t else 0 in
  match f_not f with
  | DecN => int_to_stream_decimal t number (f_size f) (f_padded f) (f_left f) (f_binpad f)
  | HexN => Some (int_to_stream_hex t number (f_size f) (f_padded f) (f_left f) abs (f_full f))
  | OctN => Some (int_to_stream_oct t number (f_size f) (f_padded f) (f_left f) abs (f_full f))
  | BinN => Some (int_to_stream_bin t number (f_size f) (f_padded f) (f_left f) abs (f_full f))
  end.

(** ** Parsing *)

(** A C string: the list of its characters; reading at or after its end gives the terminating 0
    (the code never reads past the terminator). char8 is a signed char: int8(c) - '0' is computed in int
    and narrowed to int8. *)
Definition new_digit (c : Z) : Z := swrap 8 (swrap 8 c - ch_0).

(** One iteration of StringToInteger.cpp:115-161 on a digit.
    State: (number, isMin); result: new state and whether to stop with an error. *)
Definition dec_digit (t : ity) (neg : bool) (max maxLast : Z) (nd : Z) (st : Z * bool) : (Z * bool) * bool :=
  let '(number, isMin) := st in
  let err1 := number >? max in
  let '(number, isMin, err2) :=
    if number =? max then
      if nd <=? maxLast then
        let '(nd, isMin) := if (nd =? maxLast) && neg then (nd - 1, true) else (nd, isMin) in
        (cast t (cast t (number * 10) + nd), isMin, false)
      else (number, isMin, true)
    else (number, isMin, false) in
  let number := if number <? max then cast t (cast t (number * 10) + nd) else number in
  ((number, isMin), err1 || err2).

(** StringToInteger.cpp:115-161; [fuel] = 1000 - i.  Result: (ret, number, isMin).
    The iterations stop at the first error, non-digit, or after 1000 characters (ret stays true). *)
Fixpoint dec_loop (t : ity) (neg : bool) (max maxLast : Z) (fuel : nat) (s : list Z) (st : Z * bool)
  : bool * Z * bool :=
  match fuel with
  | O => (true, fst st, snd st)
  | S f =>
    match s with
    | [] => (true, fst st, snd st)                       (* digit == '\0' *)
    | c :: r =>
      let nd := new_digit c in
      if (nd >=? 0) && (nd <=? 9) then
        let '(st', err) := dec_digit t neg max maxLast nd st in
        if err then (false, fst st', snd st') else dec_loop t neg max maxLast f r st'
      else (false, fst st, snd st)
    end
  end.

(** StringToInteger.cpp:67-181 StringToIntegerDecimalNotation<T>: (ret, number). *)
Definition parse_dec (t : ity) (s : list Z) : bool * Z :=
  let '(neg, s', fuel) :=
    match s with
    | c :: r => if c =? ch_minus then (true, r, 999%nat)
                else if c =? ch_plus then (false, r, 999%nat) else (false, s, 1000%nat)
    | [] => (false, s, 1000%nat)
    end in
  let maxmax := cast t (-1) in
  let maxLast := Z.rem maxmax 10 in
  let '(maxmax, maxLast) :=
    if isgn t then
      let mm := uwrap (ibits t) maxmax / 2 in             (* LogicalRightSafeShift by 1 *)
      (mm, if neg then Z.rem mm 10 + 1 else Z.rem mm 10)
    else (maxmax, maxLast) in
  let max := Z.quot maxmax 10 in
  let '(ret, number, isMin) := dec_loop t neg max maxLast fuel s' (0, false) in
  if neg then
    if isgn t then
      let number := cast t (- number) in
      (ret, if isMin then cast t (number - 1) else number)
    else (false, 0)
  else (ret, number).

(** Hexadecimal digit recognition, StringToInteger.cpp:214-233. *)
Definition hex_digit (c : Z) : option Z :=
  let nd := new_digit c in
  if (nd <? 0) || (nd >? 9) then
    let nd := swrap 8 (10 + (swrap 8 c - ch_A)) in
    if (nd <? 10) || (nd >? 15) then
      let nd := swrap 8 (10 + (swrap 8 c - ch_a)) in
      if (nd <? 10) || (nd >? 15) then None else Some nd
    else Some nd
  else Some nd.

Definition small_digit (top : Z) (c : Z) : option Z :=
  let nd := new_digit c in
  if (nd <? 0) || (nd >? top) then None else Some nd.

(** number = LogicalLeftSafeShift(number, k); number += digit. *)
Definition shift_add (t : ity) (k number nd : Z) : Z := cast t (cast t (number * 2 ^ k) + nd).

(** StringToInteger.cpp:212-247 (k = 4) and 364-391 (k = 1): (ret, number). totalShift is a uint8. *)
Fixpoint pow2_loop (t : ity) (k : Z) (dig : Z -> option Z) (fuel : nat) (s : list Z) (totalShift number : Z)
  : bool * Z :=
  match fuel with
  | O => (true, number)
  | S f =>
    match s with
    | [] => (true, number)
    | c :: r =>
      match dig c with
      | None => (false, number)
      | Some nd =>
        let totalShift := uwrap 8 (totalShift + k) in
        if totalShift >? ibits t then (false, number)
        else pow2_loop t k dig f r totalShift (shift_add t k number nd)
      end
    end
  end.

Definition parse_hex (t : ity) (s : list Z) : bool * Z := pow2_loop t 4 hex_digit 1000 s 0 0.
Definition parse_bin (t : ity) (s : list Z) : bool * Z := pow2_loop t 1 (small_digit 1) 1000 s 0 0.

(** StringToInteger.cpp:269-333: octal; firstDigit is the first character's digit. *)
Fixpoint oct_loop (t : ity) (fuel : nat) (s : list Z) (firstDigit totalShift number : Z) : bool * Z :=
  match fuel with
  | O => (true, number)
  | S f =>
    match s with
    | [] => (true, number)
    | c :: r =>
      match small_digit 7 c with
      | None => (false, number)
      | Some nd =>
        let totalShift := uwrap 8 (totalShift + 3) in
        let bad :=
          (totalShift >? ibits t) &&
          (((totalShift =? ibits t + 1) && (firstDigit >? 3))
           || ((totalShift =? ibits t + 2) && (firstDigit >? 1))
           || (totalShift >? ibits t + 2)) in
        if bad then (false, number)
        else oct_loop t f r firstDigit totalShift (shift_add t 3 number nd)
      end
    end
  end.

Definition parse_oct (t : ity) (s : list Z) : bool * Z :=
  oct_loop t 1000 s (match s with c :: _ => new_digit c | [] => new_digit 0 end) 0 0.

(** StringToInteger.cpp:411-448 StringToInteger<T>. *)
Definition string_to_integer (t : ity) (s : list Z) : bool * Z :=
  match s with
  | c0 :: r =>
    if c0 =? ch_0 then
      match r with
      | [] => (true, 0)
      | c1 :: r' =>
        if c1 =? ch_x then parse_hex t r'
        else if c1 =? ch_o then parse_oct t r'
        else if c1 =? ch_b then parse_bin t r'
        else (false, 0)
      end
    else parse_dec t s
  | [] => parse_dec t s
  end.

(** StringToInteger.cpp:461-517 StringToIntegerGeneric: the type is chosen from the destination bit
    size and signedness; sizes above 64 leave the destination untouched and return false. *)
Definition string_to_integer_generic (s : list Z) (destBitSize : Z) (sgn : bool) : option (bool * Z) :=
  if destBitSize <=? 8 then Some (string_to_integer (ITy 8 sgn) s)
  else if destBitSize <=? 16 then Some (string_to_integer (ITy 16 sgn) s)
  else if destBitSize <=? 32 then Some (string_to_integer (ITy 32 sgn) s)
  else if destBitSize <=? 64 then Some (string_to_integer (ITy 64 sgn) s)
  else None.
