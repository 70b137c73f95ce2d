(** Source/Core/BareMetal/L1Portability/StaticListHolder.cpp (and the StaticList template, which only
    forwards to it, StaticList.h:165-237).

    The allocated block is the list of its bytes.  Reading or writing outside the block is undefined
    behaviour: the functions then return None.  Sizes, positions and offsets are uint32 (wrap-around).
    What the heap answers when memory is asked for is an argument: [None] (refused) or the bytes found
    in the new part of the block. *)
From Verif Require Import Base.

Definition alloc := option (Z -> Z).

Record slist := SList { sl_esz : Z; sl_gran : Z; sl_mem : list Z; sl_cap : Z; sl_size : Z }.

(** StaticListHolder.cpp:58-60 (MAX_STATICLISTHOLDER_BYTESIZE = UINT_MAX, GeneralDefinitions.h:74) *)
Definition sl_max (s : slist) : Z :=
  let b := uwrap 32 (sl_gran s * sl_esz s) in
  uwrap 32 ((2 ^ 32 - 1) / b * b) / sl_esz s.

(** 49-70: the constructor.  A zero (wrapped) granularity times element size divides by zero: None. *)
Definition sl_new (e g : Z) : option slist :=
  if (uwrap 32 (g * e) =? 0) || (e =? 0) then None else Some (SList e g [] 0 0).

(** Bytes [off, off+n) of the block. *)
Definition rd (m : list Z) (off n : Z) : option (list Z) :=
  if (0 <=? off) && (0 <=? n) && (off + n <=? Z.of_nat (length m))
  then Some (firstn (Z.to_nat n) (skipn (Z.to_nat off) m)) else None.
(** Overwrite the bytes from [off] with [v]. *)
Definition wr (m : list Z) (off : Z) (v : list Z) : option (list Z) :=
  if (0 <=? off) && (off + Z.of_nat (length v) <=? Z.of_nat (length m))
  then Some (firstn (Z.to_nat off) m ++ v ++ skipn (Z.to_nat off + length v) m) else None.
(** MemoryOperationsHelper::Move (memmove) inside the block. *)
Definition mv (m : list Z) (dst src n : Z) : option (list Z) :=
  match rd m src n with None => None | Some v => wr m dst v end.

Definition junk_bytes (f : Z -> Z) (n : Z) : list Z := map (fun k => f (Z.of_nat k)) (seq 0 (Z.to_nat n)).

(** HeapManager::Malloc / Realloc to [n] bytes: keeps the common prefix. *)
Definition resize (m : list Z) (n : Z) (f : Z -> Z) : list Z :=
  firstn (Z.to_nat n) m ++ junk_bytes f (n - Z.of_nat (length m)).

(** 270-308 IncreaseCapacity *)
Definition increase_capacity (s : slist) (a : alloc) : bool * slist :=
  let c := uwrap 32 (sl_cap s + sl_gran s) in
  if c >? sl_max s then (false, s)
  else match a with
       | None => (false, s)
       | Some f => (true, SList (sl_esz s) (sl_gran s) (resize (sl_mem s) (uwrap 32 (c * sl_esz s)) f) c (sl_size s))
       end.

(** 113-123 and 149-159: make room for one more element. *)
Definition room (s : slist) (a : alloc) : bool * slist :=
  if uwrap 32 (sl_size s + 1) >? sl_cap s then
    if uwrap 32 (sl_cap s + sl_gran s) <=? sl_max s then increase_capacity s a else (false, s)
  else (true, s).

Definition with_mem (s : slist) (m : list Z) (n : Z) : slist := SList (sl_esz s) (sl_gran s) m (sl_cap s) (uwrap 32 n).

(** 104-137 Add.  The value is the bytes at copyFrom (None = NULL pointer). *)
Definition sl_add (s : slist) (v : option (list Z)) (a : alloc) : option (bool * slist) :=
  match v with
  | None => Some (false, s)
  | Some v =>
    let '(ok, s) := room s a in
    if ok then
      match wr (sl_mem s) (uwrap 32 (sl_esz s * sl_size s)) v with
      | None => None
      | Some m => Some (true, with_mem s m (sl_size s + 1))
      end
    else Some (false, s)
  end.

(** 139-184 Insert *)
Definition sl_insert (s : slist) (pos : Z) (v : option (list Z)) (a : alloc) : option (bool * slist) :=
  match v with
  | None => Some (false, s)
  | Some v =>
    if pos >? sl_size s then Some (false, s) else
    let '(ok, s) := room s a in
    if ok then
      let p := uwrap 32 (sl_esz s * pos) in
      match (if pos <? sl_size s
             then mv (sl_mem s) (p + sl_esz s) p (uwrap 32 (sl_esz s * (sl_size s - pos)))
             else Some (sl_mem s)) with
      | None => None
      | Some m =>
        match wr m p v with
        | None => None
        | Some m' => Some (true, with_mem s m' (sl_size s + 1))
        end
      end
    else Some (false, s)
  end.

(** 186-206 Peek (copyTo not NULL) *)
Definition sl_peek (s : slist) (pos : Z) : option (bool * list Z) :=
  if pos >=? sl_size s then Some (false, [])
  else match rd (sl_mem s) (uwrap 32 (sl_esz s * pos)) (sl_esz s) with None => None | Some v => Some (true, v) end.

(** 217-232: shift the following elements down. *)
Definition close_gap (s : slist) (pos : Z) : option (bool * slist) :=
  let p := uwrap 32 (sl_esz s * pos) in
  match (if pos <? uwrap 32 (sl_size s - 1)
         then mv (sl_mem s) p (p + sl_esz s) (uwrap 32 (sl_esz s * (sl_size s - 1 - pos)))
         else Some (sl_mem s)) with
  | None => None
  | Some m => Some (true, with_mem s m (sl_size s - 1))
  end.

(** 208-235 Remove *)
Definition sl_remove (s : slist) (pos : Z) : option (bool * slist) :=
  if pos >=? sl_size s then Some (false, s) else close_gap s pos.

(** 237-268 Extract (copyTo not NULL) *)
Definition sl_extract (s : slist) (pos : Z) : option (bool * slist * list Z) :=
  if pos >=? sl_size s then Some (false, s, [])
  else
    match rd (sl_mem s) (uwrap 32 (sl_esz s * pos)) (sl_esz s) with
    | None => None
    | Some v => match close_gap s pos with None => None | Some (b, s') => Some (b, s', v) end
    end.

(** 318-327 Set (value not NULL) *)
Definition sl_set (s : slist) (pos : Z) (v : list Z) : option (bool * slist) :=
  if pos <? sl_size s then
    match wr (sl_mem s) (uwrap 32 (pos * sl_esz s)) v with
    | None => None
    | Some m => Some (true, SList (sl_esz s) (sl_gran s) m (sl_cap s) (sl_size s))
    end
  else Some (false, s).

(** StaticListHolder.h:329-332 Clean *)
Definition sl_clean (s : slist) : slist := SList (sl_esz s) (sl_gran s) (sl_mem s) (sl_cap s) 0.
