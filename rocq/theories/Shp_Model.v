(** The functions on C texts: Source/Core/BareMetal/L1Portability/Environment/Generic/StringHelper_Portable_Generic.cpp (P) and
    StringHelperExtras_Generic.cpp (E), same directory.
    A pointer is the memory from it on: a list of char8 (signed, -128..127); a pointer that is returned is its distance from the argument.
    Simplified: no argument is NULL (the functions then return false, -1 or NULL); a destination overlaps no source; memory is smaller than
    2^31 bytes, so that the int32 and uint32 indexes do not wrap (the arithmetic on the arguments of Substr wraps as in the code).
    A result None: the function accesses memory out of the bounds of an argument. *)
From Verif Require Import Base.

Definition mem := list Z.
Definition cons_to {A} (c : Z) (o : option (A * mem)) : option (A * mem) := match o with None => None | Some (a, m) => Some (a, c :: m) end.
Definition cons_mem (c : Z) (o : option mem) : option mem := match o with None => None | Some m => Some (c :: m) end.

(** P 45-59: Length *)
Fixpoint length_of (m : mem) : option Z :=
  match m with
  | [] => None
  | c :: m => if c =? 0 then Some 0 else match length_of m with None => None | Some k => Some (k + 1) end
  end.
(** P 61-92: Compare *)
Fixpoint compare (m1 m2 : mem) : option Z :=
  match m1, m2 with
  | c1 :: m1, c2 :: m2 =>
    if c1 >? c2 then Some 2
    else if c1 <? c2 then Some 1
    else if (c1 =? 0) && (c2 =? 0) then Some 0
    else compare m1 m2
  | _, _ => None
  end.
(** P 94-129: CompareN *)
Fixpoint compare_n (m1 m2 : mem) (size : Z) : option Z :=
  if 0 <? size then
    match m1, m2 with
    | c1 :: m1, c2 :: m2 =>
      if c1 >? c2 then Some 2
      else if c1 <? c2 then Some 1
      else if (c1 =? 0) && (c2 =? 0) then Some 0
      else compare_n m1 m2 (size - 1)
    | _, _ => None
    end
  else Some 0.
(** P 143-150 *)
Definition lower (c : Z) : Z := let c := c mod 256 in if (65 <=? c) && (c <=? 90) then (c + 32) mod 256 else c.
(** P 131-173: CompareNoCaseSensN *)
Fixpoint compare_nocase (m1 m2 : mem) (size : Z) : option Z :=
  if 0 <? size then
    match m1, m2 with
    | c1 :: m1, c2 :: m2 =>
      if lower c1 >? lower c2 then Some 2
      else if lower c1 <? lower c2 then Some 1
      else if (c1 =? 0) && (c2 =? 0) then Some 0
      else compare_nocase m1 m2 (size - 1)
    | _, _ => None
    end
  else Some 0.
(** P 182-186: the loop of Concatenate *)
Fixpoint copy_chars (d s : mem) {struct s} : option mem :=
  match s with
  | [] => None
  | c :: s => if c =? 0 then Some d
              else match d with [] => None | _ :: d => cons_mem c (copy_chars d s) end
  end.
(** P 203-207: the loop of ConcatenateN *)
Fixpoint copy_chars_n (d s : mem) (size : Z) {struct s} : option mem :=
  match s with
  | [] => None
  | c :: s => if negb (c =? 0) && (0 <? size)
              then match d with [] => None | _ :: d => cons_mem c (copy_chars_n d s (size - 1)) end
              else Some d
  end.
(** P 180, 200: what is done at the end of the text of the destination *)
Fixpoint at_end (f : mem -> option mem) (d : mem) : option mem :=
  match d with
  | [] => None
  | c :: d' => if c =? 0 then f d else cons_mem c (at_end f d')
  end.
(** P 175-193, 195-216: Concatenate, ConcatenateN *)
Definition append (d s : mem) : option mem := at_end (fun e => copy_chars e s) d.
Definition append_n (d s : mem) (size : Z) : option mem := at_end (fun e => copy_chars_n e s size) d.
(** P 248-259, 261-273: Copy, CopyN *)
Definition copy (d s : mem) : option mem := match d with [] => None | _ :: d => append (0 :: d) s end.
Definition copy_n (d s : mem) (size : Z) : option mem := match d with [] => None | _ :: d => append_n (0 :: d) s size end.
(** strcpy, as StringHelper_CLIB_Generic.cpp 163-174 uses it for Copy *)
Fixpoint strcpy (d s : mem) : option mem :=
  match s, d with
  | c :: s, _ :: d => if c =? 0 then Some (0 :: d) else cons_mem c (strcpy d s)
  | _, _ => None
  end.
(** P 218-246: SearchChar *)
Fixpoint search_char (m : mem) (c : Z) (i : Z) : option (option Z) :=
  match m with
  | [] => None
  | x :: m => if x =? c then Some (Some i) else if x =? 0 then Some None else search_char m c (i + 1)
  end.
(** P 287-301, 322-343, E 146-168: whether the character [c] is in the text at [d]; [c] is not 0 *)
Fixpoint one_of (c : Z) (d : mem) : option bool :=
  match d with
  | [] => None
  | x :: d => if c =? x then Some true else if x =? 0 then Some false else one_of c d
  end.
(** P 275-307: SearchIndex; the first test (291) succeeds at the end of the first text *)
Fixpoint search_index (m d : mem) (i : Z) : option Z :=
  match m with
  | [] => None
  | c :: m => if c =? 0 then match d with [] => None | _ => Some i end
              else match one_of c d with None => None | Some true => Some i | Some false => search_index m d (i + 1) end
  end.
(** P 309-351: SearchChars *)
Fixpoint search_chars (m d : mem) (i : Z) : option (option Z) :=
  match m with
  | [] => None
  | c :: m => if c =? 0 then match d with [] => None | _ => Some None end
              else match one_of c d with None => None | Some true => Some (Some i) | Some false => search_chars m d (i + 1) end
  end.
(** P 361-369: downwards from index [k] *)
Fixpoint last_loop (k : nat) (m : mem) (c : Z) : option (option Z) :=
  match k with
  | O => Some None
  | S k => match nth_error m k with
           | None => None
           | Some x => if x =? c then Some (Some (Z.of_nat k)) else last_loop k m c
           end
  end.
(** P 353-376: SearchLastChar *)
Definition search_last (m : mem) (c : Z) : option (option Z) :=
  match length_of m with None => None | Some k => last_loop (Z.to_nat k) m c end.
(** P 388-396: [todo] is size1 - i *)
Fixpoint string_loop (m sub : mem) (todo size2 i : Z) : option (option Z) :=
  if size2 <=? todo then
    match compare_n m sub size2 with
    | None => None
    | Some r => if r =? 0 then Some (Some i)
                else match m with [] => None | _ :: m => string_loop m sub (todo - 1) size2 (i + 1) end
    end
  else Some None.
(** P 378-403: SearchString *)
Definition search_string (m sub : mem) : option (option Z) :=
  match length_of m, length_of sub with
  | Some n1, Some n2 => string_loop m sub n1 n2 0
  | _, _ => None
  end.

(** E 70-79: the second loop of Concatenate *)
Fixpoint put_text (s r : mem) : option mem :=
  match s, r with
  | c :: s, _ :: r => if c =? 0 then Some (c :: r) else cons_mem c (put_text s r)
  | _, _ => None
  end.
(** E 111-125: the second loop of ConcatenateN and what follows *)
Fixpoint put_text_n (s r : mem) (size : Z) : option mem :=
  match r with
  | [] => None
  | _ :: r =>
    if 0 <? size then
      match s with
      | [] => None
      | c :: s => if c =? 0 then Some (c :: r) else cons_mem c (put_text_n s r (size - 1))
      end
    else Some (0 :: r)
  end.
(** E 56-65, 99-108: the first loop; the terminator is written, and then overwritten by [f] *)
Fixpoint put_then (f : mem -> option mem) (s r : mem) : option mem :=
  match s, r with
  | c :: s, _ :: r' => if c =? 0 then f (c :: r') else cons_mem c (put_then f s r')
  | _, _ => None
  end.
(** E 46-86, 88-131: Concatenate, ConcatenateN *)
Definition concatenate (s1 s2 r : mem) : option mem := put_then (put_text s2) s1 r.
Definition concatenate_n (s1 s2 r : mem) (size : Z) : option mem := put_then (fun r => put_text_n s2 r size) s1 r.
(** E 133-179: TokenizeByChars *)
Fixpoint tokenize_chars (m d r : mem) (i : Z) : option (Z * mem) :=
  match m, r with
  | c :: m, _ :: r =>
    if c =? 0 then match d with [] => None | _ => Some (i, 0 :: r) end
    else match one_of c d with
         | None => None
         | Some true => Some (i + 1, 0 :: r)
         | Some false => cons_to c (tokenize_chars m d r (i + 1))
         end
  | _, _ => None
  end.
(** E 192-211; [cp]: the Copy that is compiled in *)
Fixpoint tokens_loop (cp : mem -> mem -> option mem) (m t : mem) (todo size2 : Z) (r : mem) (i : Z) : option (option Z * mem) :=
  if size2 <=? todo then
    match compare_n m t size2 with
    | None => None
    | Some k => if k =? 0 then match r with [] => None | _ :: r => Some (Some (i + size2), 0 :: r) end
                else match m, r with
                     | c :: m, _ :: r => cons_to c (tokens_loop cp m t (todo - 1) size2 r (i + 1))
                     | _, _ => None
                     end
    end
  else match cp r m with None => None | Some r => Some (None, r) end.
(** E 181-218: TokenizeByString *)
Definition tokenize_string (cp : mem -> mem -> option mem) (m t r : mem) : option (option Z * mem) :=
  match length_of m, length_of t with
  | Some n1, Some n2 => tokens_loop cp m t n1 n2 r 0
  | _, _ => None
  end.
(** E 234-245 *)
Fixpoint sub_loop (m r : mem) (count : Z) : option (bool * mem) :=
  match r with
  | [] => None
  | _ :: r =>
    if 0 <? count then
      match m with
      | [] => None
      | c :: m => if c =? 0 then Some (false, 0 :: r) else cons_to c (sub_loop m r (count - 1))
      end
    else Some (true, 0 :: r)
  end.
(** E 220-250: Substr *)
Definition substr (b e : Z) (m r : mem) : option (bool * mem) :=
  if e <? b then Some (false, r)
  else sub_loop (skipn (Z.to_nat b) m) r (uwrap 32 (uwrap 32 (e - b) + 1)).
