(** Model of the check of a value against the attributes of a member:
    Source/Core/BareMetal/L4Configuration/ValidateBasicType.cpp (V), with AnyType::operator[] (Source/Core/BareMetal/L2Objects/AnyType.cpp 77-133, T).

    The values are integers of the eight types, characters and C strings; the checks of floating point numbers (V 674-803) are not modelled.
    What the database gives for each attribute, read in the type of the value, is given: None if the attribute is missing or cannot be read.
    A C string is the list of its characters, from 1 to 255; StringHelper::Compare is strcmp (StringHelper_CLIB_Generic.cpp 97-116). *)
From Coq Require Import List Arith ZArith Lia Bool.
Import ListNotations.
Open Scope Z_scope.

Definition text := list Z.
(** What the attributes say (V 65-112, 125-180, 813-860) *)
Record limits := Limits {
  max_n : option Z; min_n : option Z; values_n : option (list Z);
  max_t : option text; min_t : option text; values_t : option (list text);
  min_size : option Z; max_size : option Z }.

(** StringHelper_CLIB_Generic.cpp 97-116: 0 equal, 1 the first is smaller, 2 the first is larger *)
Fixpoint compare (a b : text) : Z :=
  match a, b with
  | [], [] => 0
  | [], _ => 1
  | _, [] => 2
  | x :: a, y :: b => if x <? y then 1 else if y <? x then 2 else compare a b
  end.
(** The length of the text of an integer: TypeConvert to a buffer of 64 characters, which holds 20 digits and a sign *)
Fixpoint digits (fuel : nat) (n : Z) : Z :=
  match fuel with O => 1 | S f => if n <? 10 then 1 else 1 + digits f (n / 10) end.
Definition length_n (z : Z) : Z := (if z <? 0 then 1 else 0) + digits 20 (Z.abs z).
Definition length_t (t : text) : Z := Z.of_nat (length t).

Definition opt {A} (o : option A) (bad : A -> bool) : bool := match o with Some x => negb (bad x) | None => true end.
(** V 122-667: PrivateValidate of the integers, which differ in the type only *)
Definition check_n (a : limits) (v : Z) : bool :=
  opt (max_n a) (fun m => m <? v) && opt (min_n a) (fun m => v <? m)
  && opt (min_size a) (fun s => length_n v <? s) && opt (max_size a) (fun s => s <? length_n v)
  && match values_n a with Some l => existsb (Z.eqb v) l | None => true end.
(** V 60-115: PrivateValidate of a string *)
Definition check_t (a : limits) (v : text) : bool :=
  opt (max_t a) (fun m => compare m v =? 1) && opt (min_t a) (fun m => compare m v =? 2)
  && opt (min_size a) (fun s => length_t v <? s) && opt (max_size a) (fun s => s <? length_t v)
  && match values_t a with Some l => existsb (fun e => compare e v =? 0) l | None => true end.
(** V 810-864: PrivateValidate of a character; the list of the values is one text *)
Definition check_c (a : limits) (v : Z) : bool :=
  opt (max_n a) (fun m => m <? v) && opt (min_n a) (fun m => v <? m)
  && opt (min_size a) (fun s => 1 <? s) && opt (max_size a) (fun s => s =? 0)
  && match values_n a with Some l => existsb (Z.eqb v) l | None => true end.

Inductive kind := Int (signed : bool) (bits : Z) | Chr | Str | Other.
(** An element in memory; a pointer to a string may be NULL *)
Inductive elem := Num (z : Z) | Ptr (t : option text).
(** An AnyType: the numbers of elements of the three dimensions (the first is that of the columns); the memory is one block, or one block for each row *)
Record value := Value { kd : kind; dims : nat; n0 : nat; n1 : nat; n2 : nat; static : bool; block : list elem; rows : list (list elem) }.

(** A pointer to an element: NULL, or where it points; None if the memory does not belong to the value *)
Inductive place := Nowhere | At (e : elem).
Definition read (l : list elem) (i : nat) : option place :=
  match nth_error l i with Some (Ptr None) => Some Nowhere | Some e => Some (At e) | None => None end.
(** T 77-133 and V 890-902: the element i, j *)
Definition element (v : value) (i j : nat) : option place :=
  match dims v with
  | 0%nat => read (block v) 0
  | 1%nat => if (j <? n0 v)%nat then read (block v) j else Some Nowhere
  | 2%nat => if (i <? n1 v)%nat then
               if static v then if (j <? n1 v)%nat then read (block v) (i * n0 v + j) else Some Nowhere
               else match nth_error (rows v) i with
                    | Some r => if (j <? n1 v)%nat then read r j else Some Nowhere
                    | None => None end
             else Some Nowhere
  | _ => Some Nowhere
  end.
(** V 934-937: a uint32 is read where the whole value begins; the beginning of a matrix of rows is not a number *)
Definition first (v : value) : option place :=
  match dims v, static v with 2%nat, false => None | _, _ => read (block v) 0 end.
(** V 904-958: the check of one element: the verdict, and whether the type is known; NULL is not checked *)
Definition check (a : limits) (v : value) (i j : nat) : option (bool * bool) :=
  match element v i j with
  | None => None
  | Some Nowhere => Some (true, true)
  | Some (At e) =>
    match (match kd v with Int false 32 => first v | _ => Some (At e) end) with
    | Some (At e) =>
      match kd v, e with
      | Int _ _, Num z => Some (check_n a z, true)
      | Chr, Num z => Some (check_c a z, true)
      | Str, Ptr (Some t) => Some (check_t a t, true)
      | Other, _ => Some (true, false)
      | _, _ => None
      end
    | _ => None
    end
  end.
(** V 887-962: the inner loop and the outer loop, from j and from i; they stop at the first failure *)
Fixpoint columns (a : limits) (v : value) (i j n : nat) : option (bool * bool) :=
  match n with
  | O => Some (true, true)
  | S n => match check a v i j with
           | Some (true, true) => columns a v i (S j) n
           | r => r
           end
  end.
Fixpoint lines (a : limits) (v : value) (i m n : nat) : option (bool * bool) :=
  match m with
  | O => Some (true, true)
  | S m => match columns a v i 0 n with
           | Some (true, true) => lines a v (S i) m n
           | r => r
           end
  end.
(** V 881-885: the numbers of columns and of rows *)
Definition count (v : value) (k : nat) : option nat := nth_error [n0 v; n1 v; n2 v] k.
(** V 866-966: ValidateBasicType; [parsed]: what the attributes say, if they can be parsed *)
Definition validate (v : value) (parsed : option limits) : option bool :=
  match parsed with
  | None => Some true
  | Some a =>
    let indexCols := pred (dims v) in let indexRows := pred indexCols in
    match count v indexCols, count v indexRows with
    | Some nCols, Some nRows => match lines a v 0 nRows nCols with Some (ret, _) => Some ret | None => None end
    | _, _ => None
    end
  end.
