(** Source/Core/BareMetal/L1Portability/TypeDescriptor.cpp: the 16 bit description of a type.  A descriptor is its 16
    bit word; its fields are read and assigned with the bit fields of IntArith_Model (BitRange.h, BitBoolean.h).
    Pointers have 64 bits, bool 8. *)
From Coq Require Export String.
From Verif Require Import Base IntArith_Model.
Local Open Scope Z_scope.

Definition u16 : ity := ITy 16 false.
(** TypeDescriptor.h 71-100: the fields of the union *)
Definition is_structured (w : Z) : bool := bb_read u16 0 w.
Definition is_constant (w : Z) : bool := bb_read u16 1 w.
Definition type_of (w : Z) : Z := br_read u16 4 2 w.
Definition number_of_bits (w : Z) : Z := br_read u16 10 6 w.
Definition id_code (w : Z) : Z := br_read u16 14 2 w.

(** TypeDescriptor.cpp 83-90: the word is not initialised before; [g] is what it holds *)
Definition make (g : Z) (isConstantIn : bool) (typeIn numberOfBitsIn : Z) : Z :=
  let w := bb_assign u16 0 g false in
  let w := bb_assign u16 1 w isConstantIn in
  let w := br_assign u16 u16 4 2 w typeIn in
  br_assign u16 u16 10 6 w numberOfBitsIn.
(** TypeDescriptor.cpp 92-97; a ClassUID is a 14 bit integer in 16 bits, FractionalInteger.h 731 *)
Definition make_class (g : Z) (isConstantIn : bool) (idIn : Z) : Z :=
  let w := bb_assign u16 0 g true in
  let w := bb_assign u16 1 w isConstantIn in
  br_assign u16 u16 14 2 w idIn.

(** TypeDescriptor.cpp 99-107 *)
Definition equal (a b : Z) : bool := Z.lor a 2 =? Z.lor b 2.
Definition differ (a b : Z) : bool := negb (Z.lor a 2 =? Z.lor b 2).

(** BasicType.h 48-106 *)
Definition SignedInteger := 0. Definition UnsignedInteger := 1. Definition Float := 2.
Definition BT_CCString := 4. Definition CArray := 6. Definition BT_Boolean := 10. Definition Invalid := 15.
(** TypeDescriptor.cpp 109-122 *)
Definition is_numeric (w : Z) : bool :=
  let isFloat := type_of w =? Float in
  let isSignedInteger := type_of w =? SignedInteger in
  let isUnsignedInteger := type_of w =? UnsignedInteger in
  let isBoolean := type_of w =? BT_Boolean in
  let isNumeric := isFloat || isSignedInteger || isUnsignedInteger in
  let hasNonZeroSize := number_of_bits w >? 0 in
  negb (is_structured w) && hasNonZeroSize && isNumeric && negb isBoolean.

(** TypeDescriptor.h 226-326 (the types of the table) and TypeDescriptor.cpp 55-71: the table up to its last entry *)
Definition table : list (Z * string) :=
  [ (make 0 false BT_CCString 64, "string"); (make 0 false SignedInteger 8, "int8");
    (make 0 false SignedInteger 16, "int16"); (make 0 false SignedInteger 32, "int32");
    (make 0 false SignedInteger 64, "int64"); (make 0 false UnsignedInteger 8, "uint8");
    (make 0 false UnsignedInteger 16, "uint16"); (make 0 false UnsignedInteger 32, "uint32");
    (make 0 false UnsignedInteger 64, "uint64"); (make 0 false BT_Boolean 8, "bool");
    (make 0 false Float 32, "float32"); (make 0 false Float 64, "float64");
    (make 0 false CArray 8, "char8"); (make 0 false SignedInteger 0, "void") ]%string.
(** the last entry: InvalidType with no name *)
Definition invalid_type : Z := make 0 false Invalid 0.

(** TypeDescriptor.cpp 124-136; None is the NULL name, for which StringHelper::Compare is -1 *)
Fixpoint search_name (t : list (Z * string)) (n : string) : Z :=
  match t with
  | [] => invalid_type
  | (w, s) :: t => if String.eqb n s then w else search_name t n
  end.
Definition from_name (n : option string) : Z := match n with None => invalid_type | Some n => search_name table n end.
(** TypeDescriptor.cpp 139-151: the search stops at the entry that equals InvalidType *)
Fixpoint search_type (t : list (Z * string)) (w : Z) : option string :=
  match t with
  | [] => None
  | (v, s) :: t => if differ v invalid_type then (if equal v w then Some s else search_type t w) else Some s
  end.
Definition to_name (w : Z) : option string := search_type table w.
