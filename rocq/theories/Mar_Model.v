(** Model of the memory that grows: Source/Core/BareMetal/L1Portability/MemoryArea.cpp (M).

    The memory is a list of bytes, None for a byte that was never written. The heap is an input: for each request whether it grants it. HeapManager::Malloc
    gives NULL for zero bytes and HeapManager::Realloc keeps the bytes that fit, is a Malloc for NULL and a Free for zero bytes (Environment/Generic/StandardHeap_Generic.cpp 60-90 and 103-135, HeapManager.cpp 346-405).
    HeapManager::Free always works; the name of the heap is not modelled. None: memory is accessed that does not belong to the area. *)
From Verif Require Import Base.
From Coq Require Import List ZArith Lia Bool.
Import ListNotations.
Open Scope Z_scope.

(** A byte of the area (MemoryArea.h: memory): None if nothing was written there *)
Definition byte := option Z.
(** MemoryArea.h: memory and size *)
Record area := Area { memory : option (list byte); size : Z }.
(** M 47-51 *)
Definition empty : area := Area None 0.
(** StandardHeap_Generic.cpp 60-90 *)
Definition malloc (granted : bool) (n : Z) : option (list byte) :=
  if (n =? 0) || negb granted then None else Some (repeat None (Z.to_nat n)).
(** StandardHeap_Generic.cpp 103-135 *)
Definition realloc (granted : bool) (m : option (list byte)) (n : Z) : option (list byte) :=
  match m with
  | None => malloc granted n
  | Some l => if (n =? 0) || negb granted then None
              else Some (firstn (Z.to_nat n) l ++ repeat None (Z.to_nat n - length l))
  end.
(** M 91-113: Add of uninitialised bytes: the verdict, the offset (None if it is not written) *)
Definition add (granted : bool) (a : area) (n : Z) : bool * option Z * area :=
  if size a =? 0 then
    match malloc granted n with
    | Some m => (true, Some 0, Area (Some m) (uwrap 32 (size a + n)))
    | None => (false, None, Area None (size a))
    end
  else
    match realloc granted (memory a) (uwrap 32 (size a + n)) with
    | Some m => (true, Some (size a), Area (Some m) (uwrap 32 (size a + n)))
    | None => (false, None, Area None (size a))
    end.
(** M 121: The bytes l, from position i on, become b *)
Definition overwrite (l : list byte) (i : nat) (b : list byte) : list byte := firstn i l ++ b ++ skipn (i + length b) l.
(** M 121: The program or Copy writes at an offset; beyond the end it is undefined *)
Definition put (a : area) (offset : Z) (b : list byte) : option area :=
  match memory a with
  | Some m => if (Z.to_nat offset + length b <=? length m)%nat then Some (Area (Some (overwrite m (Z.to_nat offset) b)) (size a)) else None
  | None => None
  end.
(** M 116-124: Add of a copy of the n first bytes at the source, which may be NULL (MemoryOperationsHelper::Copy refuses it); reading beyond the source is undefined *)
Definition add_copy (granted : bool) (a : area) (src : option (list byte)) (n : Z) : option (bool * option Z * area) :=
  match add granted a n with
  | (true, Some offset, a) =>
      match src with
      | Some s => if (Z.to_nat n <=? length s)%nat
                  then match put a offset (firstn (Z.to_nat n) s) with Some a => Some (true, Some offset, a) | None => None end
                  else None
      | None => Some (false, Some offset, a)
      end
  | r => Some r
  end.
(** M 73-85: Free *)
Definition free (a : area) : area := Area None 0.
(** M 135-142: GetPointer: nowhere, or an address in the memory; None if it is computed from NULL *)
Inductive pointer := Null | Inside (offset : Z).
Definition get_pointer (a : area) (offset : Z) : option pointer :=
  if offset <? size a then match memory a with Some _ => Some (Inside offset) | None => None end else Some Null.
(** M 135-142: Reading n bytes behind a pointer *)
Definition get (a : area) (offset : Z) (n : nat) : option (list byte) :=
  match get_pointer a offset, memory a with
  | Some (Inside o), Some m => if (Z.to_nat o + n <=? length m)%nat then Some (firstn n (skipn (Z.to_nat o) m)) else None
  | _, _ => None
  end.

(** M 73-142: the calls *)
Inductive op := AddNew (n : Z) | AddCopy (src : option (list byte)) (n : Z) | Write (offset : Z) (b : list byte) | Free.
(** M 73-142: one call, with what the heap says; the program writes only through GetPointer *)
Definition step (granted : bool) (a : area) (o : op) : option (bool * option Z * area) :=
  match o with
  | AddNew n => Some (add granted a n)
  | AddCopy src n => add_copy granted a src n
  | Write offset b => match get_pointer a offset with
                      | Some (Inside p) => match put a p b with Some a => Some (true, None, a) | None => None end
                      | Some Null => Some (false, None, a)
                      | None => None end
  | Free => Some (true, None, free a)
  end.
