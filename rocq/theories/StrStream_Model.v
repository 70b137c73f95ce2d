(** Source/Core/BareMetal/L3Streams: IOBuffer, CharBuffer, StreamStringIOBuffer, StreamString.
    The heap block is a list of cells, None for a byte never written since it was allocated.  Reading such a
    byte, or touching a byte outside the block, is undefined behaviour (result None).  Heap exhaustion is not
    modelled: allocation fails only on the size check of CharBuffer::SetBufferSize. *)
From Verif Require Import Base.

Record iob := IOB {
  cells : list (option Z);  (* internalBuffer: buffer of GetBufferSize() bytes *)
  maxu : Z;                 (* maxUsableAmount *)
  left : Z;                 (* amountLeft *)
  fill : Z;                 (* fillLeft *)
  ptr : Z                   (* positionPtr - buffer *)
}.

(** IOBuffer.h 522-530 *)
Definition iob_new : iob := IOB [] 0 0 0 0.
(** IOBuffer.h 532-554 *)
Definition bufsize (b : iob) : Z := Z.of_nat (length (cells b)).
Definition used_left (b : iob) : Z := uwrap 32 (left b - fill b).
Definition position (b : iob) : Z := uwrap 32 (maxu b - left b).
Definition used_size (b : iob) : Z := uwrap 32 (maxu b - fill b).
(** IOBuffer.h 572-576 *)
Definition empty (b : iob) : iob := IOB (cells b) (maxu b) (maxu b) (maxu b) 0.

(** Reading and writing [n] bytes at offset [p] of the block *)
Fixpoint all_some (l : list (option Z)) : option (list Z) :=
  match l with
  | [] => Some []
  | None :: _ => None
  | Some x :: r => match all_some r with None => None | Some y => Some (x :: y) end
  end.
Definition peek (m : list (option Z)) (p n : Z) : option (list Z) :=
  if (0 <=? p) && (p + n <=? Z.of_nat (length m)) then all_some (firstn (Z.to_nat n) (skipn (Z.to_nat p) m)) else None.
Definition poke (m : list (option Z)) (p : Z) (d : list Z) : option (list (option Z)) :=
  if (0 <=? p) && (p + Z.of_nat (length d) <=? Z.of_nat (length m))
  then Some (firstn (Z.to_nat p) m ++ map Some d ++ skipn (Z.to_nat p + length d) m) else None.

(** CharBuffer.cpp 110-158 SetBufferSize, granularity 64 (StreamStringIOBuffer.cpp 45-48): mask 0xFFFFFFC0. *)
Definition set_buffer_size (m : list (option Z)) (desiredSize : Z) : bool * list (option Z) :=
  if desiredSize >? 4294967232 then (false, m)
  else
    let needed := Z.land (uwrap 32 (uwrap 32 (desiredSize + 64) - 1)) 4294967232 in
    (true, firstn (Z.to_nat needed) m ++ repeat None (Z.to_nat needed - length m)).

(** IOBuffer.cpp 1826-1872 SetBufferHeapMemory (the buffer is always heap memory here, so 1832-1835 does not apply) *)
Definition set_heap (b : iob) (desiredSize reserved : Z) : bool * iob :=
  let pos := position b in
  let used := used_size b in
  let used := if desiredSize <? reserved then 0 else used in
  let used := if uwrap 32 (desiredSize - reserved) <? used then uwrap 32 (desiredSize - reserved) else used in
  let pos := if pos >? used then used else pos in
  let (ok, m) := set_buffer_size (cells b) desiredSize in
  let size := Z.of_nat (length m) in
  let maxu := if size <=? reserved then 0 else uwrap 32 (size - reserved) in
  (ok, IOB m maxu (uwrap 32 (maxu - pos)) (uwrap 32 (maxu - used)) pos).

(** IOBuffer.cpp 1809-1820 SetUsedSize *)
Definition set_used (b : iob) (desiredSize : Z) : iob :=
  let size := if desiredSize >? maxu b then maxu b else desiredSize in
  IOB (cells b) (maxu b) (left b) (uwrap 32 (maxu b - size)) (ptr b).

(** StreamStringIOBuffer.cpp 117-121 Terminate *)
Definition terminate (b : iob) : option iob :=
  match poke (cells b) (used_size b) [0] with
  | None => None
  | Some m => Some (IOB m (maxu b) (left b) (fill b) (ptr b))
  end.
(** StreamStringIOBuffer.cpp 59-75 SetBufferAllocationSize *)
Definition set_alloc (b : iob) (desiredSize : Z) : option (bool * iob) :=
  let (ok, b) := set_heap b (uwrap 32 (desiredSize + 1)) 1 in
  if ok then
    let b := if desiredSize <? used_size b then set_used b desiredSize else b in
    match terminate b with None => None | Some b => Some (true, b) end
  else Some (false, b).

(** IOBuffer.cpp 1921-1951 Write: number of bytes written *)
Definition io_write (b : iob) (d : list Z) : option (Z * iob) :=
  let size := if Z.of_nat (length d) >? left b then left b else Z.of_nat (length d) in
  if size >? 0 then
    match poke (cells b) (ptr b) (firstn (Z.to_nat size) d) with
    | None => None
    | Some m => let l := left b - size in
                Some (size, IOB m (maxu b) l (if fill b >? l then l else fill b) (ptr b + size))
    end
  else Some (size, b).
(** StreamStringIOBuffer.cpp 77-91 Write *)
Definition ss_write (b : iob) (d : list Z) : option (bool * Z * iob) :=
  let size := Z.of_nat (length d) in
  match (if size >? left b then set_alloc b (uwrap 32 (position b + size)) else Some (true, b)) with
  | None => None
  | Some (false, b) => Some (false, size, b)
  | Some (true, b) => match io_write b d with None => None | Some (n, b) => Some (true, n, b) end
  end.
(** IOBuffer.cpp 1986-2008 Read *)
Definition io_read (b : iob) (size : Z) : option (list Z * iob) :=
  let size := if size >? used_left b then used_left b else size in
  if size >? 0 then
    match peek (cells b) (ptr b) size with
    | None => None
    | Some d => Some (d, IOB (cells b) (maxu b) (left b - size) (fill b) (ptr b + size))
    end
  else Some ([], b).
(** IOBuffer.h 580-617 PutC, undoLevel 0; Flush() is StreamStringIOBuffer.cpp 93-103 NoMoreSpaceToWrite *)
Definition ss_putc (b : iob) (c : Z) : option (bool * iob) :=
  match (if left b <=? 0 then set_alloc b (uwrap 32 (bufsize b + 1)) else Some (true, b)) with
  | None => None
  | Some (ok, b) =>
    if ok && negb (left b =? 0) then
      match poke (cells b) (ptr b) [c] with
      | None => None
      | Some m => let l := left b - 1 in Some (true, IOB m (maxu b) l (if fill b >? l then l else fill b) (ptr b + 1))
      end
    else Some (false, b)
  end.
(** IOBuffer.h 635-661 GetC, undoLevel 0; Refill() fails (IOBuffer.cpp 1913-1915) *)
Definition io_getc (b : iob) : option (option Z * iob) :=
  if used_left b <=? 0 then Some (None, b)
  else match peek (cells b) (ptr b) 1 with
       | Some [c] => Some (Some c, IOB (cells b) (maxu b) (left b - 1) (fill b) (ptr b + 1))
       | _ => None
       end.
(** IOBuffer.cpp 1762-1773 Seek *)
Definition io_seek (b : iob) (p : Z) : bool * iob :=
  if p <=? used_size b then (true, IOB (cells b) (maxu b) (uwrap 32 (maxu b - p)) (fill b) p) else (false, b).
(** IOBuffer.cpp 1777-1807 RelativeSeek.  In the backward branch Position() is evaluated after amountLeft has
    been increased. *)
Definition io_relseek (b : iob) (delta : Z) : bool * iob :=
  if delta >=? 0 then
    let gap := uwrap 32 delta in
    let actualLeft := uwrap 32 (left b - fill b) in
    let ok := negb (gap >? actualLeft) in
    let gap := if gap >? actualLeft then actualLeft else gap in
    (ok, IOB (cells b) (maxu b) (left b - gap) (fill b) (ptr b + gap))
  else
    let gap := uwrap 32 (- delta) in
    let ok := negb (gap >? position b) in
    let gap := if gap >? position b then position b else gap in
    let b1 := IOB (cells b) (maxu b) (left b + gap) (fill b) (ptr b) in
    (ok, IOB (cells b) (maxu b) (left b1) (fill b) (uwrap 32 (position b1 - gap))).

(** StreamString.cpp 163-200 *)
Definition s_seek (b : iob) (pos : Z) : bool * iob :=
  let usedSize := used_size b in
  if pos >? usedSize then (false, snd (io_seek b usedSize)) else io_seek b (uwrap 32 pos).
Definition s_relseek (b : iob) (d : Z) : bool * iob :=
  if (d >? 2147483647) || (d <? -2147483648) then (false, b) else io_relseek b d.
Definition s_setsize (b : iob) (size : Z) : option (bool * iob) := set_alloc b (uwrap 32 size).
(** 225-247, 206-223 (Append and Set of a string or a character) *)
Definition s_append (b : iob) (d : list Z) : option (bool * iob) :=
  let (ok, b) := io_seek b (used_size b) in
  if ok then match ss_write b d with None => None | Some (r, _, b) => Some (r, b) end else Some (false, b).
Definition s_append_c (b : iob) (c : Z) : option (bool * iob) :=
  let (ok, b) := io_seek b (used_size b) in if ok then ss_putc b c else Some (false, b).
Definition s_set (b : iob) (d : list Z) : option (bool * iob) :=
  match ss_write (empty b) d with None => None | Some (r, _, b) => Some (r, b) end.
Definition s_set_c (b : iob) (c : Z) : option (bool * iob) := ss_putc (empty b) c.
(** 249-259 with the string itself as the argument: the source pointer is taken before the write, and when the
    write reallocates the block the bytes are read from freed memory. *)
Definition s_append_self (b : iob) : option (bool * iob) :=
  let (ok, b) := io_seek b (used_size b) in
  if ok then
    if used_size b >? left b then None
    else match peek (cells b) 0 (used_size b) with
         | None => None
         | Some d => match ss_write b d with None => None | Some (r, _, b) => Some (r, b) end
         end
  else Some (false, b).
(** StreamString.h 421-424 Buffer: the terminated bytes *)
Definition s_buffer (b : iob) : option (list Z * iob) :=
  match terminate b with
  | None => None
  | Some b => match peek (cells b) 0 (used_size b + 1) with None => None | Some d => Some (d, b) end
  end.
(** StreamString.cpp 267-286 Locate(char) *)
Fixpoint locate_from (d : list Z) (i : Z) (c : Z) : Z :=
  match d with [] => 4294967295 | x :: r => if x =? c then i else locate_from r (i + 1) c end.
Definition s_locate (b : iob) (c : Z) : option Z :=
  if used_size b >? 0 then
    match peek (cells b) 0 (used_size b) with None => None | Some d => Some (swrap 32 (locate_from d 0 c)) end
  else Some (swrap 32 4294967295).

(** StreamString.cpp 45-54: the constructor *)
Definition s_new : option iob := match set_alloc iob_new 0 with Some (_, b) => Some b | None => None end.

(** Histories of calls *)
Inductive sop :=
| SRead (n : Z) | SWrite (d : list Z) | SSeek (p : Z) | SRel (d : Z) | SSetSize (n : Z)
| SAppend (d : list Z) | SAppendC (c : Z) | SSet (d : list Z) | SSetC (c : Z)
| SGetC | SPutC (c : Z) | SSize | SPos | SBuffer | SLocate (c : Z).
(** The answer of a call: its result, a number and bytes. *)
Record sans := SAns { a_ok : bool; a_num : Z; a_bytes : list Z }.

Definition sstep (b : iob) (o : sop) : option (sans * iob) :=
  match o with
  | SRead n => match io_read b n with None => None | Some (d, b) => Some (SAns true (Z.of_nat (length d)) d, b) end
  | SWrite d => match ss_write b d with None => None | Some (r, n, b) => Some (SAns r n [], b) end
  | SSeek p => let (r, b) := s_seek b p in Some (SAns r 0 [], b)
  | SRel d => let (r, b) := s_relseek b d in Some (SAns r 0 [], b)
  | SSetSize n => match s_setsize b n with None => None | Some (r, b) => Some (SAns r 0 [], b) end
  | SAppend d => match s_append b d with None => None | Some (r, b) => Some (SAns r 0 [], b) end
  | SAppendC c => match s_append_c b c with None => None | Some (r, b) => Some (SAns r 0 [], b) end
  | SSet d => match s_set b d with None => None | Some (r, b) => Some (SAns r 0 [], b) end
  | SSetC c => match s_set_c b c with None => None | Some (r, b) => Some (SAns r 0 [], b) end
  | SGetC => match io_getc b with
             | None => None
             | Some (None, b) => Some (SAns false 0 [], b)
             | Some (Some c, b) => Some (SAns true 0 [c], b)
             end
  | SPutC c => match ss_putc b c with None => None | Some (r, b) => Some (SAns r 0 [], b) end
  | SSize => Some (SAns true (used_size b) [], b)
  | SPos => Some (SAns true (position b) [], b)
  | SBuffer => match s_buffer b with None => None | Some (d, b) => Some (SAns true 0 d, b) end
  | SLocate c => match s_locate b c with None => None | Some i => Some (SAns true i [], b) end
  end.
Fixpoint srun (b : iob) (ops : list sop) : option (list sans * iob) :=
  match ops with
  | [] => Some ([], b)
  | o :: r => match sstep b o with
              | None => None
              | Some (a, b) => match srun b r with None => None | Some (l, b) => Some (a :: l, b) end
              end
  end.
