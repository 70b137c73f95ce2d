(** Model of TypeConvert (Source/Core/BareMetal/L4Configuration/TypeConversion.cpp) for scalars, vectors
    and matrices of integers, floating point numbers, booleans and char8 strings. The memory is one list of
    bytes, a pointer is an index in it; a pointer that is stored in memory (the rows of a matrix
    on the heap) takes 8 bytes, little-endian. An access outside the memory is undefined
    behaviour and gives None. The conversions from and to floating point numbers are the parameters
    [number] and [text] of the model. StreamString, char8 *, pointers and structures are not modelled. *)
From Verif Require Import Base IntText_Model Bsb_Model.
Local Open Scope nat_scope.

(** The types of the elements (TypeDescriptor.h): integers, floating point numbers, booleans and
    Character8Bit (the type CArray with 8 bits). *)
Inductive ty := TInt (bits : Z) (sgn : bool) | TFlt (bits : Z) | TBool | TChar.

Definition ty_eqb (a b : ty) : bool :=
  match a, b with
  | TInt x s, TInt y t => (x =? y)%Z && Bool.eqb s t
  | TFlt x, TFlt y => (x =? y)%Z
  | TBool, TBool => true
  | TChar, TChar => true
  | _, _ => false
  end.

Definition is_char (t : ty) : bool := match t with TChar => true | _ => false end.

(** AnyType::GetByteSize (AnyType.h 1440-1460): the bytes of the type descriptor. *)
Definition byte_size (t : ty) : nat :=
  match t with TInt b _ => Z.to_nat (b / 8) | TFlt b => Z.to_nat (b / 8) | TBool => 1 | TChar => 1 end.

(** AnyType (AnyType.h 832-870): type, constness, dimensions, elements of each dimension, static or heap
    memory, pointer. The bit address is zero. *)
Record any := Any {
  a_ty : ty;
  a_const : bool;
  a_dims : nat;
  a_n0 : nat;
  a_n1 : nat;
  a_n2 : nat;
  a_static : bool;
  a_ptr : nat }.

(** AnyType::GetNumberOfElements (AnyType.h 1420-1422). *)
Definition a_n (a : any) (i : nat) : nat := match i with 0 => a_n0 a | 1 => a_n1 a | _ => a_n2 a end.

(** Arithmetic of uint32. *)
Definition u32 (n : nat) : nat := Z.to_nat (uwrap 32 (Z.of_nat n)).

(** [n] bytes of memory from [p]. *)
Definition slice (m : list Z) (p n : nat) : list Z := firstn n (skipn p m).

Definition read (m : list Z) (p n : nat) : option (list Z) :=
  if p + n <=? length m then Some (slice m p n) else None.

Definition write (m : list Z) (p : nat) (bs : list Z) : option (list Z) :=
  if p + length bs <=? length m then Some (firstn p m ++ bs ++ skipn (p + length bs) m) else None.

(** A pointer in memory: reinterpret_cast<char8 **>(p)[i] (TypeConversion.cpp 1090, 1101, 1244, 1304, ...). *)
Definition pointer_at (m : list Z) (p : nat) : option nat :=
  match read m p 8 with
  | Some b => Some (Z.to_nat (word_of b))
  | None => None
  end.

(** The characters of a C string; None when the memory ends before its terminator. *)
Fixpoint c_chars (l : list Z) : option (list Z) :=
  match l with
  | [] => None
  | c :: r => if (c =? 0)%Z then Some [] else match c_chars r with Some s => Some (c :: s) | None => None end
  end.

(** StringHelper::CompareNoCaseSensN of texts of the same length. *)
Definition lower (c : Z) : Z := if ((65 <=? c) && (c <=? 90))%Z then (c + 32)%Z else c.
Fixpoint same_text (a b : list Z) : bool :=
  match a, b with
  | [], [] => true
  | x :: a', y :: b' => (lower x =? lower y)%Z && same_text a' b'
  | _, _ => false
  end.

Definition text_true : list Z := [116; 114; 117; 101]%Z.
Definition text_false : list Z := [102; 97; 108; 115; 101]%Z.
Definition text_1 : list Z := [49]%Z.
Definition text_yes : list Z := [121; 101; 115]%Z.

(** The number in an integer variable. *)
Definition int_value (bits : Z) (sgn : bool) (bs : list Z) : Z := cast (ITy bits sgn) (word_of bs).

Section Numbers.

(** The conversions to and from floating point numbers: [number d s b] is the value returned and the bytes
    written for the source bytes [b] (IntegerToFloatGeneric, FloatToIntegerGeneric, FloatToFloat,
    StringToFloatGeneric), [text s b] is the text of the floating point number ("%E"). *)
Variable number : ty -> ty -> list Z -> bool * list Z.
Variable text : ty -> list Z -> option (list Z).

(** A scalar: what ScalarBasicTypeConvert looks at in an AnyType. *)
Record scalar := Scalar { s_ty : ty; s_dims : nat; s_n0 : nat; s_at : nat }.

(** Writing a text in a char8 array (IntegerToType 168-180, FloatToType 306-318, BooleanToType 396-408,
    StringToType 480-492). *)
Definition put_text (m : list Z) (d : scalar) (t : list Z) : option (bool * list Z) :=
  let array_size := u32 (byte_size (s_ty d) * s_n0 d) in
  if array_size <=? length t then
    match write m (s_at d) (firstn array_size t) with                        (* CopyN *)
    | None => None
    | Some m1 =>
      if 1 <? array_size then
        match write m1 (s_at d + (array_size - 1)) [0%Z] with
        | None => None
        | Some m2 => Some (true, m2)
        end
      else Some (true, m1)
    end
  else
    match write m (s_at d) (t ++ [0%Z]) with                                 (* Copy *)
    | None => None
    | Some m1 => Some (true, m1)
    end.

(** Writing the outcome of a conversion parameter. *)
Definition put_number (m : list Z) (d : scalar) (st : ty) (b : list Z) : option (bool * list Z) :=
  let (ok, w) := number (s_ty d) st b in
  match write m (s_at d) w with
  | None => None
  | Some m1 => Some (ok, m1)
  end.

(** IntegerToType (139-272). *)
Definition integer_to_type (m : list Z) (d s : scalar) (bits : Z) (sgn : bool) : option (bool * list Z) :=
  match read m (s_at s) (byte_size (s_ty s)) with
  | None => None
  | Some b =>
    match s_ty d with
    | TChar =>                                                               (* 164-182 *)
      match integer_to_stream (ITy bits sgn) (int_value bits sgn b) (Fmt 0 false false false false DecN) with
      | Some t => put_text m d t
      | None => None
      end
    | TBool =>                                                               (* 191-213 *)
      match write m (s_at d) [if (word_of b =? 1)%Z then 1%Z else 0%Z] with
      | Some m1 => Some (true, m1)
      | None => None
      end
    | TInt dbits dsgn =>                                                     (* 214-253 *)
      match bitset_to_bitset m (s_at d) 0 dbits dsgn m (s_at s) 0 bits sgn with
      | Some o => Some (o_ret o, o_mem o)
      | None => None
      end
    | TFlt _ => put_number m d (s_ty s) b                                    (* 253-267 *)
    end
  end.

(** BooleanToType (367-440). *)
Definition boolean_to_type (m : list Z) (d s : scalar) : option (bool * list Z) :=
  match read m (s_at s) 1 with
  | None => None
  | Some b =>
    let v := negb (word_of b =? 0)%Z in
    match s_ty d with
    | TChar => put_text m d (if v then text_true else text_false)            (* 388-409 *)
    | TInt dbits _ =>                                                        (* 420-433 *)
      match write m (s_at d) (repeat 0%Z (Z.to_nat (dbits / 8))) with
      | None => None
      | Some m1 =>
        match write m1 (s_at d) [if v then 1%Z else 0%Z] with
        | None => None
        | Some m2 => Some (true, m2)
        end
      end
    | TFlt _ => Some (false, m)                                              (* 434-437 *)
    | TBool => Some (false, m)
    end
  end.

(** FloatToType (283-357). *)
Definition float_to_type (m : list Z) (d s : scalar) : option (bool * list Z) :=
  match read m (s_at s) (byte_size (s_ty s)) with
  | None => None
  | Some b =>
    match s_ty d with
    | TChar => match text (s_ty s) b with Some t => put_text m d t | None => Some (false, m) end   (* 302-320 *)
    | TBool => match write m (s_at d) [0%Z] with Some m1 => Some (false, m1) | None => None end    (* 348-351 *)
    | _ => put_number m d (s_ty s) b                                                               (* 328-347 *)
    end
  end.

(** StringToType (453-527), for a source of type CArray. *)
Definition string_to_type (m : list Z) (d s : scalar) : option (bool * list Z) :=
  match c_chars (skipn (s_at s) m) with                                      (* 466-474 *)
  | None => None
  | Some t =>
    match s_ty d with
    | TChar => put_text m d t                                                (* 479-493 *)
    | TInt dbits dsgn =>                                                     (* 497-502 *)
      match string_to_integer_generic t dbits dsgn with
      | None => Some (false, m)
      | Some (ok, v) =>
        match write m (s_at d) (bytes_of (Z.to_nat (dbits / 8)) v) with
        | None => None
        | Some m1 => Some (ok, m1)
        end
      end
    | TBool =>                                                               (* 503-519 *)
      let v := same_text t text_true || same_text t text_1 || same_text t text_yes in
      match write m (s_at d) [if v then 1%Z else 0%Z] with
      | None => None
      | Some m1 => Some (true, m1)
      end
    | TFlt _ => put_number m d TChar t                                       (* 520-522 *)
    end
  end.

(** ScalarBasicTypeConvert (963-1056), for types that are not structured. *)
Definition scalar_convert (m : list Z) (d s : scalar) : option (bool * list Z) :=
  if ty_eqb (s_ty s) (s_ty d) then                                           (* 1006 *)
    let copy_size :=
      match s_ty s with
      | TChar => if 0 <? s_dims s then u32 (byte_size TChar * s_n0 s) else byte_size TChar   (* 1016-1020 *)
      | t => byte_size t                                                                     (* 1027 *)
      end in
    match read m (s_at s) copy_size with                                     (* 1021, 1028 *)
    | None => None
    | Some b => match write m (s_at d) b with Some m1 => Some (true, m1) | None => None end
    end
  else
    match s_ty s with
    | TInt bits sgn => integer_to_type m d s bits sgn                        (* 1036-1038 *)
    | TBool => boolean_to_type m d s                                         (* 1039-1041 *)
    | TFlt _ => float_to_type m d s                                          (* 1042-1044 *)
    | TChar => string_to_type m d s                                          (* 1045-1047 *)
    end.

(** Element [idx] of a vector (1078-1123 for the source, 1080-1139 for the destination). *)
Definition element (m : list Z) (a : any) (idx : nat) : option scalar :=
  if is_char (a_ty a) then
    if a_static a then
      Some (Scalar TChar 1 (a_n0 a) (a_ptr a + u32 (u32 (idx * byte_size TChar) * a_n0 a)))
    else
      match pointer_at m (a_ptr a + 8 * idx) with
      | None => None
      | Some p => Some (Scalar TChar 1 (a_n0 a) p)
      end
  else Some (Scalar (a_ty a) 0 1 (a_ptr a + u32 (idx * byte_size (a_ty a)))).

(** A loop that continues after a failure and remembers it (1077, 1141-1145; 1171, 1214-1216). *)
Fixpoint loop {A : Type} (f : A -> list Z -> option (bool * list Z)) (l : list A) (m : list Z)
  : option (bool * list Z) :=
  match l with
  | [] => Some (true, m)
  | x :: r =>
    match f x m with
    | None => None
    | Some (ok, m1) =>
      match loop f r m1 with
      | None => None
      | Some (ok2, m2) => Some (ok && ok2, m2)
      end
    end
  end.

(** The conversion of one element of vectors. *)
Definition convert_element (d s : any) (idx : nat) (m : list Z) : option (bool * list Z) :=
  match element m s idx, element m d idx with
  | Some es, Some ed => scalar_convert m ed es
  | _, _ => None
  end.

(** VectorBasicTypeConvert (1069-1148). *)
Definition vector_convert (m : list Z) (d s : any) : option (bool * list Z) :=
  let n := if is_char (a_ty s) then a_n1 s else a_n0 s in                    (* 1071-1075 *)
  loop (convert_element d s) (seq 0 n) m.

(** The number of elements of a row (1192-1198, 1205-1211, 1255-1261, 1267-1273, 1310-1316, ...). *)
Definition row (a : any) (cols : nat) (static : bool) (p : nat) : any :=
  if is_char (a_ty a) then Any (a_ty a) false 1 (a_n2 a) cols 1 static p
  else Any (a_ty a) false 1 cols 1 1 static p.

(** Row [r] of a static matrix (1176-1199, 1182-1212, 1246-1262). *)
Definition static_row (a : any) (cols r : nat) : any :=
  let size := if is_char (a_ty a) then u32 (byte_size (a_ty a) * a_n2 a) else byte_size (a_ty a) in
  row a cols true (a_ptr a + u32 (u32 (r * cols) * size)).

(** Row [r] of a matrix on the heap (1244 and 1264-1274, 1304-1317, 1354-1367, 1355 and 1369-1379). *)
Definition heap_row (m : list Z) (a : any) (cols r : nat) : option any :=
  match pointer_at m (a_ptr a + 8 * r) with
  | None => None
  | Some p => Some (row a cols false p)
  end.

(** Row [r] of the destination of HeapToStaticMatrix (1319-1324): the length of the strings is not
    considered. *)
Definition plain_row (a : any) (cols r : nat) : any :=
  Any (a_ty a) false 1 cols 1 1 true (a_ptr a + u32 (u32 (r * cols) * byte_size (a_ty a))).

(** The rows that the four functions for matrices convert (1161-1386, 1399-1424). *)
Definition source_row (m : list Z) (s : any) (cols r : nat) : option any :=
  if a_static s then Some (static_row s cols r) else heap_row m s cols r.
Definition destination_row (m : list Z) (d s : any) (cols r : nat) : option any :=
  if a_static d then Some (if a_static s then static_row d cols r else plain_row d cols r)
  else heap_row m d cols r.

(** MatrixBasicTypeConvert (1399-1424) with StaticToStaticMatrix, StaticToHeapMatrix,
    HeapToStaticMatrix and HeapToHeapMatrix (1161-1386). *)
Definition matrix_convert (m : list Z) (d s : any) : option (bool * list Z) :=
  let rows := a_n1 d in
  let cols := a_n0 d in
  loop (fun r m' => match source_row m' s cols r, destination_row m' d s cols r with
                    | Some sr, Some dr => vector_convert m' dr sr
                    | _, _ => None
                    end) (seq 0 rows) m.

(** The dimensions without that of the characters (1442-1457). *)
Definition outer_dims (a : any) : nat := if is_char (a_ty a) && (0 <? a_dims a) then a_dims a - 1 else a_dims a.

(** The check of the number of elements (1465-1504). *)
Definition same_elements (d s : any) : bool :=
  let dd := outer_dims d in
  let sd := outer_dims s in
  let dn := fun i => if is_char (a_ty d) then (if dd =? 1 then a_n d (i + 1) else a_n d i) else a_n d i in
  let sn := fun i =>
    if is_char (a_ty d) then
      (if is_char (a_ty s) && (dd =? 1) then a_n s (i + 1) else a_n s i)
    else if is_char (a_ty s) then (if sd =? 1 then a_n s (i + 1) else a_n s i)
    else a_n s i in
  forallb (fun i => dn i =? sn i) (seq 0 dd).

(** TypeConvert (1433-1520). *)
Definition type_convert (m : list Z) (d s : any) : option (bool * list Z) :=
  if a_const d then Some (false, m)                                          (* 1436-1438 *)
  else if negb (outer_dims d =? outer_dims s) then Some (false, m)           (* 1458 *)
  else if negb (same_elements d s) then Some (false, m)
  else match outer_dims s with                                               (* 1506-1516 *)
       | 0 => scalar_convert m (Scalar (a_ty d) (a_dims d) (a_n0 d) (a_ptr d))
                               (Scalar (a_ty s) (a_dims s) (a_n0 s) (a_ptr s))
       | 1 => vector_convert m d s
       | 2 => matrix_convert m d s
       | _ => Some (true, m)
       end.

End Numbers.
