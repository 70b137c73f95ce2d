(** Source/Core/BareMetal: L1Portability/FormatDescriptor.{h,cpp} and the formatted print of L3Streams/IOBuffer.cpp: PrintCCString 439-530, PrintStream 539-652,
    PrintToStreamScalar 1065-1378, PrintToStreamVector 1387-1444, PrintToStreamMatrix 1453-1514, PrintToStream 1522-1548, IOBuffer::PrintFormatted 1702-1760; with the
    grammars of IOBufferStandardPrint.cpp, IOBufferJsonPrint.cpp and IOBufferXMLPrint.cpp. Integers are printed by the model of C01.
    Simplifications: the buffer always has room (PutC and WriteAll succeed); the warnings are not modelled; floats, bit ranges, objects with an introspection and
    StructuredDataI arguments are not modelled; streams that are arguments can be seeked, and are given by what is between their position and their end (where the print leaves
    them is not modelled); the vectors and matrices are not empty pointers. Characters are bytes; a text without its final NUL. *)
From Verif Require Import Base IntText_Model.
Open Scope Z_scope. Open Scope list_scope.

(** FormatDescriptor.h 310-388: the bits, as fields *)
Record fd := Fd { size : Z; precision : Z; padded : bool; leftAligned : bool; floatNotation : Z; binaryNotation : Z; binaryPadded : bool; fullNotation : bool; desiredAction : Z; desiredGrammar : Z }.
(** The default constructor 407-419 *)
Definition fd_default : fd := Fd 0 255 false false 0 0 false false 0 0.
(** format_as_uint32 |= ...: each field of one or of the other *)
Definition fd_or (a b : fd) : fd :=
  Fd (Z.lor (size a) (size b)) (Z.lor (precision a) (precision b)) (padded a || padded b) (leftAligned a || leftAligned b) (Z.lor (floatNotation a) (floatNotation b)) (Z.lor (binaryNotation a) (binaryNotation b))
     (binaryPadded a || binaryPadded b) (fullNotation a || fullNotation b) (Z.lor (desiredAction a) (desiredAction b)) (Z.lor (desiredGrammar a) (desiredGrammar b)).
(** Action, padded, left aligned, float and binary notation, binary padded, full notation *)
Definition entry (action : Z) (pad left_ : bool) (fl bn : Z) (bp full : bool) : fd := Fd 0 0 pad left_ fl bn bp full action 0.
(** FormatDescriptor.cpp 61-68 *)
Definition flagsLookup : list (Z * fd) :=
  [(32, entry 0 true false 0 0 false false); (45, entry 0 true true 0 0 false false); (48, entry 0 false false 0 0 true false); (35, entry 0 false false 0 0 false true);
   (83, Fd 0 0 false false 0 0 false false 0 0); (74, Fd 0 0 false false 0 0 false false 0 1); (88, Fd 0 0 false false 0 0 false false 0 2)].
(** 73-91 *)
Definition typesLookup : list (Z * fd) :=
  [(33, entry 0 false false 0 0 false false); (63, entry 5 false false 0 0 false false); (64, entry 6 false false 0 0 false false); (100, entry 1 false false 0 0 false false);
   (105, entry 1 false false 0 0 false false); (117, entry 1 false false 0 0 false false); (115, entry 4 false false 0 0 false false); (99, entry 4 false false 0 0 false false);
   (102, entry 2 false false 0 0 false false); (70, entry 2 false false 1 0 false false); (101, entry 2 false false 2 0 false false); (69, entry 2 false false 3 0 false false);
   (103, entry 2 false false 6 0 false false); (71, entry 2 false false 7 0 false false); (120, entry 1 false false 0 1 false false); (112, entry 3 false false 0 1 true true);
   (111, entry 1 false false 0 3 false false); (98, entry 1 false false 0 2 false false)].
(** LookupCharacter 96-110 *)
Fixpoint lookup (c : Z) (l : list (Z * fd)) : option fd := match l with [] => None | (k, f) :: r => if k =? c then Some f else lookup c r end.
(** ParseCharacter 115-129: None if the character is not found *)
Definition parse_character (c : Z) (f : fd) (l : list (Z * fd)) : option fd := match lookup c l with Some g => Some (fd_or f g) | None => None end.
(** The loop 181-183 *)
Fixpoint parse_flags (l : list Z) (f : fd) : fd * list Z :=
  match l with
  | [] => (f, [])
  | c :: r => match parse_character c f flagsLookup with Some g => parse_flags r g | None => (f, l) end
  end.
(** GetDigit 135-140 *)
Definition get_digit (c : Z) : Z := let d := c - 48 in if (d <=? 9) && (0 <=? d) then d else -1.
(** GetIntegerNumber 145-162 *)
Fixpoint get_integer (l : list Z) (number : Z) : Z * list Z :=
  match l with
  | [] => (number, [])
  | c :: r => if 0 <=? get_digit c then get_integer r (uwrap 32 (uwrap 32 (number * 10) + get_digit c)) else (number, l)
  end.
(** Assignment to a field of 8 bits (BitRange.h 125-140 saturates) *)
Definition to_8_bits (n : Z) : Z := Z.min n 255.
Definition with_size (f : fd) (n : Z) : fd :=
  Fd (to_8_bits n) (precision f) (padded f) (leftAligned f) (floatNotation f) (binaryNotation f) (binaryPadded f) (fullNotation f) (desiredAction f) (desiredGrammar f).
Definition with_precision (f : fd) (n : Z) : fd :=
  Fd (size f) (to_8_bits n) (padded f) (leftAligned f) (floatNotation f) (binaryNotation f) (binaryPadded f) (fullNotation f) (desiredAction f) (desiredGrammar f).
(** 188-203 *)
Definition parse_precision (f : fd) (l : list Z) : fd * list Z :=
  match l with
  | [] => (f, l)
  | c :: r =>
    if c =? 46 then
      match r with
      | d :: _ => if get_digit d <? 0 then (with_precision f 255, r) else let '(p, r) := get_integer r 0 in (with_precision f p, r)
      | [] => (with_precision f 255, r)
      end
    else (f, l)
  end.
(** InitialiseFromString 171-218: None if it returns false *)
Definition initialise_from_string (l : list Z) : option (fd * list Z) :=
  match l with
  | [] => None
  | _ =>
    let '(f, l) := parse_flags l fd_default in
    let '(n, l) := get_integer l 0 in
    let f := with_size f n in
    let '(f, l) := parse_precision f l in
    match l with
    | [] => None
    | c :: r => match parse_character c f typesLookup with Some f => Some (f, r) | None => None end
    end
  end.

(** What is printed: a scalar (NULL: an argument whose pointer is NULL). A C string has an address. *)
Inductive scalar := SInt (t : ity) (z : Z) | SBool (b : bool) | SPointer (p : Z) | SString (p : Z) (s : list Z) | SArray (s : list Z) | SStream (rest : list Z) | SNull.
Inductive arg := AScalar (s : scalar) | AVector (l : list scalar) | AMatrix (l : list (list scalar)).
(** What is written, and what is returned; None: undefined behaviour *)
Definition outcome := option (list Z * bool).
Definition put (l : list Z) : outcome := Some (l, true).
Definition fails : outcome := Some ([], false).
(** One after the other, if it returned true *)
Definition andthen (a b : outcome) : outcome :=
  match a with
  | Some (x, true) => match b with Some (y, r) => Some (x ++ y, r) | None => None end
  | _ => a
  end.

Definition quote_ : list Z := [34].
Definition spaces (n : Z) : list Z := repeat 32 (Z.to_nat n).
(** The sizes: 446-476 and 552-577: the size of the text clipped (or with the quotes added), the padding, the desired size *)
Definition sizes (len : Z) (f : fd) (gap : Z) : Z * Z * Z :=
  if 0 <? size f then
    let n := if size f <? len then size f else len in
    (n, if padded f && (n <? size f) then uwrap 32 (size f - n) else 0, size f)
  else let n := uwrap 32 (len + gap) in (n, 0, n).
(** 479-526 and 584-638: the [n] first characters of the text in its padding. Undefined if there are not that many: WriteAll 505 reads after the end of the string, and
    the loop 609-618 puts characters that were never read. *)
Definition lay_out (s : list Z) (f : fd) (addQuotes : bool) (n padding gap : Z) : outcome :=
  let isPadding := gap <? padding in
  let n := if isPadding then n else uwrap 32 (n - (gap - padding)) in
  let padding := if isPadding then padding - gap else padding in
  let q := if addQuotes then quote_ else [] in
  if Z.of_nat (length s) <? n then None else
  put ((if negb (leftAligned f) && isPadding then spaces padding else []) ++ q ++ firstn (Z.to_nat n) s ++ q ++ (if leftAligned f && isPadding then spaces padding else [])).
(** PrintCCString 439-530 *)
Definition print_ccstring (s : list Z) (f : fd) (addQuotes : bool) : outcome :=
  let gap := if addQuotes then 2 else 0 in
  let '(n, padding, desSize) := sizes (uwrap 32 (Z.of_nat (length s))) f gap in
  if gap <=? desSize then lay_out s f addQuotes n padding gap else fails.
Definition too_big : list Z := [33; 33; 32; 116; 111; 111; 32; 98; 105; 103; 32; 62; 32; 49; 48; 48; 48; 48; 32; 99; 104; 97; 114; 97; 99; 116; 101; 114; 115; 33; 33].
(** PrintStream 539-652 *)
Definition print_stream (s : list Z) (f : fd) (addQuotes : bool) : outcome :=
  let gap := if addQuotes then 2 else 0 in
  let '(n, padding, desSize) := sizes (uwrap 32 (Z.of_nat (length s))) f gap in
  if 10000 <? n then print_ccstring too_big f false
  else if gap <=? desSize then lay_out s f addQuotes n padding gap else fails.

Definition to_fmt (f : fd) : fmt :=
  Fmt (size f) (padded f) (leftAligned f) (binaryPadded f) (fullNotation f)
      (if binaryNotation f =? 1 then HexN else if binaryNotation f =? 2 then BinN else if binaryNotation f =? 3 then OctN else DecN).
(** IntegerToStream *)
Definition print_integer (t : ity) (z : Z) (f : fd) : outcome := match integer_to_stream t z (to_fmt f) with Some l => put l | None => None end.
Definition with_hex (f : fd) : fd := Fd (size f) (precision f) (padded f) (leftAligned f) (floatNotation f) 1 (binaryPadded f) (fullNotation f) 1 (desiredGrammar f).
Definition uint64 : ity := ITy 64 false.
Definition unsigned_info : list Z := [85; 110; 115; 105; 103; 110; 101; 100; 32; 73; 110; 116; 101; 103; 101; 114].
Definition signed_info : list Z := [83; 105; 103; 110; 101; 100; 32; 73; 110; 116; 101; 103; 101; 114].
Definition boolean_info : list Z := [66; 111; 111; 108; 101; 97; 110; 84; 121; 112; 101].
Definition pointer_info : list Z := [80; 111; 105; 110; 116; 101; 114].
Definition string_info : list Z := [67; 104; 97; 114; 32; 83; 116; 114; 105; 110; 103].
Definition array_info : list Z := [67; 104; 97; 114; 32; 65; 114; 114; 97; 121].
Definition stream_info : list Z := [83; 116; 114; 101; 97; 109].
Definition true_text : list Z := [116; 114; 117; 101].
Definition false_text : list Z := [102; 97; 108; 115; 101].

Section Print.
Context (literal : Z).        (* the address of a string literal in the program *)
(** 1264-1299: a C string; in hexadecimal its address *)
Definition print_string (p : Z) (s : list Z) (f : fd) : outcome :=
  if binaryNotation f =? 1 then print_integer uint64 p f else print_ccstring s f (fullNotation f).
(** PrintToStreamScalar 1065-1378 *)
Definition print_scalar (s : scalar) (f : fd) : outcome :=
  let info := desiredAction f =? 5 in
  match s with
  | SInt t z => if info then print_string literal (if isgn t then signed_info else unsigned_info) f else print_integer t z f
  | SBool b => print_string literal (if info then boolean_info else if b then true_text else false_text) f
  | SPointer p => if info then print_string literal pointer_info f else print_integer uint64 p (with_hex f)
  | SString p x => if info then print_string literal string_info f else print_string p x f
  | SArray x => if info then print_string literal array_info f else print_ccstring x f (fullNotation f)
  | SStream x => if info then print_string literal stream_info f else print_stream x f (fullNotation f)
  | SNull => fails
  end.
(** PrintOpenVector 323-338 and PrintOpenMatrix; PrintCloseVector and PrintCloseMatrix; PrintScalarSeparator and PrintVectorSeparator *)
Definition by_grammar (f : fd) (standard json xml : list Z) : outcome :=
  if desiredGrammar f =? 0 then put standard else if desiredGrammar f =? 1 then put json else if desiredGrammar f =? 2 then put xml else fails.
Definition open_ (f : fd) : outcome := by_grammar f [123] [91] [91].
Definition close_ (f : fd) : outcome := by_grammar f [125] [93] [93].
Definition separator (f : fd) : outcome := by_grammar f [] [44] [44].
(** PrintToStreamVector: the loop 1402-1435 *)
Fixpoint elements (l : list scalar) (f : fd) : outcome :=
  match l with
  | [] => put []
  | s :: r => andthen (print_scalar s f) (andthen (match r with [] => put [] | _ => separator f end) (andthen (put [32]) (elements r f)))
  end.
Definition print_vector (l : list scalar) (f : fd) : outcome := andthen (open_ f) (andthen (put [32]) (andthen (elements l f) (andthen (close_ f) (put [32])))).
(** PrintToStreamMatrix: the loop 1477-1507 *)
Fixpoint rows (l : list (list scalar)) (f : fd) : outcome :=
  match l with
  | [] => put []
  | v :: r => andthen (print_vector v f) (andthen (match r with [] => put [] | _ => separator f end) (rows r f))
  end.
Definition print_matrix (l : list (list scalar)) (f : fd) : outcome := andthen (open_ f) (andthen (put [32]) (andthen (rows l f) (andthen (close_ f) (put [32])))).
(** PrintToStream 1522-1548 *)
Definition print_to_stream (a : arg) (f : fd) : outcome := match a with AScalar s => print_scalar s f | AVector l => print_vector l f | AMatrix l => print_matrix l f end.
(** IOBuffer::PrintFormatted 1702-1760; the arguments end with a void AnyType. The characters of the format that are still to be read decrease: fuel. *)
Fixpoint print_formatted (fuel : nat) (format : list Z) (pars : list arg) : outcome :=
  match fuel with
  | O => None
  | S k =>
    match format with
    | [] => put []
    | c :: l =>
      if c =? 37 then
        match initialise_from_string l with
        | None => fails
        | Some (f, l) => match pars with [] => print_formatted k l [] | a :: r => andthen (print_to_stream a f) (print_formatted k l r) end
        end
      else andthen (put [c]) (print_formatted k l pars)
    end
  end.
Definition printf (format : list Z) (pars : list arg) : outcome := print_formatted (S (length format)) format pars.
End Print.
