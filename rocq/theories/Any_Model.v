(** Model of the object that stores a copy of a value: Source/Core/BareMetal/L4Configuration/AnyObject.cpp (A).

    The memory is a set of blocks; a block is a list of cells. One cell is one byte or one pointer: the sizes of pointers are not modelled, so
    a table of n pointers has n cells. The sizes are mathematical numbers (the uint32 products of the code do not wrap). An allocation of a size
    that is not zero succeeds and gives a block that was never given before, with contents that are not known; an allocation of zero bytes gives NULL
    (StandardHeap_Generic.cpp 60-90). A StreamString source is modelled by its buffer: the cell that points to its text. The type CArray
    on the heap is not modelled; a static CArray is a plain value. Reading or freeing what is not a live block, and reading
    an unknown cell as a pointer, is undefined: the operations give None. *)
From Coq Require Import List Arith ZArith Lia Bool.
Import ListNotations.
Open Scope nat_scope.

Inductive cell := Byte (z : Z) | Addr (i : nat) | Null | Junk.
Record heap := Heap { next : nat; blocks : list (nat * list cell) }.

(** The live block i *)
Fixpoint lookup (l : list (nat * list cell)) (i : nat) : option (list cell) :=
  match l with [] => None | (j, b) :: t => if j =? i then Some b else lookup t i end.
Definition get (h : heap) (i : nat) : option (list cell) := lookup (blocks h) i.
(** HeapManager::Malloc of a size that is not zero, and the writing of the block *)
Definition alloc (h : heap) (b : list cell) : nat * heap := (next h, Heap (S (next h)) ((next h, b) :: blocks h)).
Definition put (h : heap) (i : nat) (b : list cell) : heap := Heap (next h) ((i, b) :: blocks h).
(** HeapManager::Free: NULL is left alone *)
Definition free (h : heap) (i : nat) : option heap :=
  match get h i with Some _ => Some (Heap (next h) (filter (fun p => negb (fst p =? i)) (blocks h))) | None => None end.
Definition free_cell (h : heap) (c : cell) : option heap :=
  match c with Addr i => free h i | Null => Some h | _ => None end.
(** The first n cells behind a pointer *)
Definition load (h : heap) (c : cell) (n : nat) : option (list cell) :=
  match c with
  | Addr i => match get h i with Some b => if n <=? length b then Some (firstn n b) else None | None => None end
  | _ => None
  end.
(** StringHelper::Length: the bytes before the terminator *)
Fixpoint c_text (b : list cell) : option (list Z) :=
  match b with
  | Byte z :: t => if (z =? 0)%Z then Some [] else match c_text t with Some r => Some (z :: r) | None => None end
  | _ => None
  end.

(** TypeDescriptor: a value of s bytes, a StreamString, a C string, a pointer *)
Inductive kind := Plain (s : nat) | Str | CStr | Pointer.
(** AnyType: the type, the dimensions, staticDeclared and the data pointer *)
Record desc := Desc { kd : kind; nd : nat; n0 : nat; n1 : nat; n2 : nat; static : bool; ptr : cell }.
(** voidAnyType, AnyType.h 1429-1438 *)
Definition void : desc := Desc (Plain 0) 0 1 1 1 true Null.
Definition set_ptr (d : desc) (c : cell) : desc := Desc (kd d) (nd d) (n0 d) (n1 d) (n2 d) (static d) c.
Definition is_text (k : kind) : bool := match k with Str | CStr => true | _ => false end.
(** GetByteSize of one element *)
Definition size (k : kind) : nat := match k with Plain s => s | _ => 1 end.

(** A 270-286, 132-144, 321-333: one string. The length of NULL plus one is zero: nothing is allocated and the copy fails. *)
Definition copy_token (h : heap) (c : cell) : option (bool * heap * cell) :=
  match c with
  | Null => Some (false, h, Null)
  | Addr i => match get h i with
              | Some b => match c_text b with
                          | Some t => let (j, h) := alloc h (map Byte (t ++ [0%Z])) in Some (true, h, Addr j)
                          | None => None end
              | None => None end
  | _ => None
  end.
(** A 269-287, 130-146: the loop over the elements, which stops at the first one that fails *)
Fixpoint copy_tokens (h : heap) (cs : list cell) : option (bool * heap * list cell) :=
  match cs with
  | [] => Some (true, h, [])
  | c :: t => match copy_token h c with
              | Some (true, h, c') => match copy_tokens h t with Some (ok, h, t') => Some (ok, h, c' :: t') | None => None end
              | Some (false, h, c') => Some (false, h, c' :: repeat Junk (length t))
              | None => None
              end
  end.
(** A 258, 291, 122, 149, 339-341: Malloc and Copy of a block of n bytes; Copy refuses NULL *)
Definition copy_block (h : heap) (src : cell) (n : nat) : option (bool * heap * cell) :=
  if n =? 0 then Some (false, h, Null)
  else let (j, h1) := alloc h (repeat Junk n) in
       match src with
       | Null => Some (false, h1, Addr j)
       | _ => match load h1 src n with Some b => Some (true, put h1 j b, Addr j) | None => None end
       end.
(** A 246-288, 110-146: a table of n strings *)
Definition copy_table (h : heap) (src : cell) (n : nat) : option (bool * heap * cell) :=
  if n =? 0 then Some (true, h, Null)
  else let (j, h1) := alloc h (repeat Junk n) in
       match load h1 src n with
       | Some cs => match copy_tokens h1 cs with Some (ok, h2, cs') => Some (ok, put h2 j cs', Addr j) | None => None end
       | None => None
       end.
(** A 238-296, 102-152: SerializeVector and SerializeStaticMatrix, the elements, n of them, in one block *)
Definition copy_flat (h : heap) (k : kind) (src : cell) (n : nat) : option (bool * heap * cell) :=
  if is_text k then copy_table h src n else copy_block h src (size k * n).
(** A 183-205: SerializeHeapMatrix, the loop over the rows *)
Fixpoint copy_rows (h : heap) (k : kind) (n : nat) (cs : list cell) : option (bool * heap * list cell) :=
  match cs with
  | [] => Some (true, h, [])
  | c :: t => match copy_flat h k c n with
              | Some (true, h, c') => match copy_rows h k n t with Some (ok, h, t') => Some (ok, h, c' :: t') | None => None end
              | Some (false, h, c') => Some (false, h, c' :: repeat Junk (length t))
              | None => None
              end
  end.
(** A 155-207: SerializeHeapMatrix *)
Definition copy_matrix (h : heap) (k : kind) (src : cell) (cols rows : nat) : option (bool * heap * cell) :=
  if rows =? 0 then Some (true, h, Null)
  else let (j, h1) := alloc h (repeat Junk rows) in
       match load h1 src rows with
       | Some cs => match copy_rows h1 k cols cs with Some (ok, h2, cs') => Some (ok, put h2 j cs', Addr j) | None => None end
       | None => None
       end.
(** A 306-348: SerializeScalar *)
Definition copy_scalar (h : heap) (k : kind) (src : cell) : option (bool * heap * cell) :=
  match k with
  | Str | CStr => copy_token h src
  | Pointer => Some (true, h, src)
  | Plain s => copy_block h src s
  end.
(** A 48-86: SerializeStaticTensor *)
Definition copy_tensor (h : heap) (k : kind) (src : cell) (n : nat) : option (bool * heap * cell) :=
  if is_text k then
    if n =? 0 then Some (false, h, Null) else let (j, h) := alloc h (repeat Junk n) in Some (false, h, Addr j)
  else copy_block h src (size k * n).

(** A 388-399: a StreamString is stored as a C string *)
Definition stored_kind (k : kind) : kind := match k with Str => CStr | k => k end.

(** A 418-427, 437-446: the strings behind a table *)
Fixpoint free_cells (h : heap) (cs : list cell) : option heap :=
  match cs with [] => Some h | c :: t => match free_cell h c with Some h => free_cells h t | None => None end end.
Definition free_entries (h : heap) (c : cell) (n : nat) : option heap :=
  match load h c n with Some cs => free_cells h cs | None => None end.
(** A 433-466: the rows of a matrix that is not static; with no columns the pointer of the row is not read before it is freed *)
Fixpoint free_rows (h : heap) (k : kind) (n : nat) (cs : list cell) : option heap :=
  match cs with
  | [] => Some h
  | c :: t => match (if is_text k then match c with Null => Some h | _ => if n =? 0 then Some h else free_entries h c n end else Some h) with
              | Some h => match free_cell h c with Some h => free_rows h k n t | None => None end
              | None => None
              end
  end.
(** A 406-475: CleanUp *)
Definition clean_up (h : heap) (d : desc) : option (heap * desc) :=
  match ptr d with
  | Null => Some (h, d)
  | p =>
    match (match nd d with
           | 1 => if is_text (kd d) then free_entries h p (n0 d) else Some h
           | 2 => if static d then if is_text (kd d) then free_entries h p (n0 d * n1 d) else Some h
                  else match load h p (n1 d) with Some cs => free_rows h (kd d) (n0 d) cs | None => None end
           | _ => Some h
           end) with
    | Some h => match kd d with
                | Pointer => Some (h, void)
                | _ => match free_cell h p with Some h => Some (h, void) | None => None end
                end
    | None => None
    end
  end.

(** A 88-100, 384-387: forms for which the type of the object is not written *)
Definition untouched (src : desc) : bool := match nd src with 0 | 1 | 2 => false | 3 => negb (static src) | _ => true end.
(** A 388-400: the type of the object after the copy; [own] is what CleanUp left *)
Definition new_type (own src : desc) (c : cell) : desc :=
  if untouched src && negb (match kd src with Str => true | _ => false end) then Desc (kd own) (nd own) (n0 own) (n1 own) (n2 own) (static src) (ptr own)
  else Desc (stored_kind (kd src)) (nd src) (n0 src) (n1 src) (n2 src) (static src) c.
(** A 368-404: Serialise; the object is empty after CleanUp, so the test of A 371 always passes *)
Definition serialise (h : heap) (own src : desc) : option (bool * heap * desc) :=
  match clean_up h own with
  | None => None
  | Some (h, own) =>
    let k := kd src in let p := ptr src in
    match (match nd src with
           | 0 => copy_scalar h k p
           | 1 => copy_flat h k p (n0 src)
           | 2 => if static src then copy_flat h k p (n0 src * n1 src) else copy_matrix h k p (n0 src) (n1 src)
           | 3 => if static src then copy_tensor h k p (n0 src * n1 src * n2 src) else Some (false, h, Null)
           | _ => Some (false, h, Null)
           end) with
    | Some (ok, h, c) => Some (ok, h, new_type own src c)
    | None => None
    end
  end.

(** What a program does: values are stored in objects and dropped, and its own blocks are made, written and freed. *)
Inductive op :=
| Serialise (k : nat) (src : desc) | CleanUp (k : nat)
| Make (b : list cell) | Write (i : nat) (b : list cell) | Drop (i : nat).
(** The memory, the objects, and the blocks of the program *)
Record world := World { mem : heap; objs : nat -> desc; client : list nat }.
Definition start : world := World (Heap 0 []) (fun _ => void) [].
Definition upd {A} (f : nat -> A) (k : nat) (x : A) (j : nat) : A := if j =? k then x else f j.
(** The program writes and frees its own blocks only: the rest is ignored *)
Definition mine (w : world) (i : nat) : bool := existsb (Nat.eqb i) (client w).
Definition step (w : world) (o : op) : option (bool * world) :=
  match o with
  | Serialise k src => match serialise (mem w) (objs w k) src with
                       | Some (ok, h, d) => Some (ok, World h (upd (objs w) k d) (client w)) | None => None end
  | CleanUp k => match clean_up (mem w) (objs w k) with
                 | Some (h, d) => Some (true, World h (upd (objs w) k d) (client w)) | None => None end
  | Make b => let (i, h) := alloc (mem w) b in Some (true, World h (objs w) (i :: client w))
  | Write i b => if mine w i then Some (true, World (put (mem w) i b) (objs w) (client w)) else Some (false, w)
  | Drop i => if mine w i then match free (mem w) i with
                               | Some h => Some (true, World h (objs w) (filter (fun j => negb (j =? i)) (client w))) | None => None end
              else Some (false, w)
  end.
Fixpoint run (w : world) (l : list op) : option world :=
  match l with [] => Some w | o :: t => match step w o with Some (_, w) => run w t | None => None end end.
