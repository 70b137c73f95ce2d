(** Source/Core/BareMetal/L3Streams/StreamMemoryReference.cpp over IOBuffer with referenced memory: a stream over a
    block of memory of the caller.  [cells] are the bytes of the caller's block, all readable; the block has less than
    2^32 bytes and is not NULL.  Result None: undefined behaviour (an access outside the block, a signed overflow).
    Not modelled: the default constructor, the conversion to AnyType, GetC, PutC and the printing functions. *)
From Verif Require Import Base.

Record smr := SMR {
  cells : list Z;  (* the block; its length is maxUsableAmount (no reserved space) *)
  canw : bool;     (* internalBuffer.CanWrite() *)
  left : Z;        (* amountLeft *)
  fill : Z;        (* fillLeft *)
  ptr : Z          (* positionPtr - buffer *)
}.
(** IOBuffer.h 536-554 MaxUsableAmount, UsedAmountLeft, Position, UsedSize *)
Definition maxu (b : smr) : Z := Z.of_nat (length (cells b)).
Definition used_left (b : smr) : Z := uwrap 32 (left b - fill b).
Definition position (b : smr) : Z := uwrap 32 (maxu b - left b).
Definition used_size (b : smr) : Z := uwrap 32 (maxu b - fill b).

(** IOBuffer.cpp 1809-1820 SetUsedSize *)
Definition set_used (b : smr) (desiredSize : Z) : smr :=
  let size := if desiredSize >? maxu b then maxu b else desiredSize in
  SMR (cells b) (canw b) (left b) (uwrap 32 (maxu b - size)) (ptr b).
(** StreamMemoryReference.cpp 50-54 with IOBuffer.cpp 1874-1879 and IOBuffer.h 572-576 (Empty): the writable block *)
Definition open_rw (m : list Z) : smr := SMR m true (Z.of_nat (length m)) (Z.of_nat (length m)) 0.
(** StreamMemoryReference.cpp 56-61 with IOBuffer.cpp 1881-1887: the read-only block *)
Definition open_ro (m : list Z) : smr :=
  set_used (SMR m false (Z.of_nat (length m)) (Z.of_nat (length m)) 0) (Z.of_nat (length m)).

(** [n] bytes of the block from offset [p] *)
Definition inside (m : list Z) (p n : Z) : bool := (0 <=? p) && (p + n <=? Z.of_nat (length m)).
(** StreamMemoryReference.cpp 82-85, IOBuffer.cpp 1986-2008 Read *)
Definition read (b : smr) (size : Z) : option (list Z * smr) :=
  let size := if size >? used_left b then used_left b else size in
  if size >? 0 then
    if inside (cells b) (ptr b) size then
      Some (firstn (Z.to_nat size) (skipn (Z.to_nat (ptr b)) (cells b)),
            SMR (cells b) (canw b) (uwrap 32 (left b - size)) (fill b) (ptr b + size))
    else None
  else Some ([], b).
(** StreamMemoryReference.cpp 87-91, IOBuffer.cpp 1921-1951 Write: (result, size, stream) *)
Definition write (b : smr) (d : list Z) : option (bool * Z * smr) :=
  let size := Z.of_nat (length d) in
  if canw b then
    let size := if size >? left b then left b else size in
    if size >? 0 then
      if inside (cells b) (ptr b) size then
        let l := uwrap 32 (left b - size) in
        Some (true, size,
              SMR (firstn (Z.to_nat (ptr b)) (cells b) ++ firstn (Z.to_nat size) d
                   ++ skipn (Z.to_nat (ptr b + size)) (cells b))
                  true l (if fill b >? l then l else fill b) (ptr b + size))
      else None
    else Some (true, size, b)
  else Some (false, size, b).
(** IOBuffer.cpp 1762-1773 Seek *)
Definition io_seek (b : smr) (p : Z) : bool * smr :=
  if p <=? used_size b then (true, SMR (cells b) (canw b) (uwrap 32 (maxu b - p)) (fill b) p) else (false, b).
(** StreamMemoryReference.cpp 111-123 Seek *)
Definition seek (b : smr) (pos : Z) : bool * smr :=
  let usedSize := used_size b in
  if pos >? usedSize then (false, snd (io_seek b usedSize)) else io_seek b (uwrap 32 pos).
(** StreamMemoryReference.cpp 125-135 RelativeSeek, IOBuffer.cpp 1777-1807.  In the backward branch Position() is
    evaluated after amountLeft has been increased; -delta overflows for the smallest int32. *)
Definition rel_seek (b : smr) (delta : Z) : option (bool * smr) :=
  if (delta >? 2147483647) || (delta <? -2147483648) then Some (false, b)
  else if delta >=? 0 then
    let actualLeft := uwrap 32 (left b - fill b) in
    let gap := if delta >? actualLeft then actualLeft else delta in
    Some (negb (delta >? actualLeft), SMR (cells b) (canw b) (uwrap 32 (left b - gap)) (fill b) (ptr b + gap))
  else if delta =? -2147483648 then None
  else
    let gap := if - delta >? position b then position b else - delta in
    let b1 := SMR (cells b) (canw b) (uwrap 32 (left b + gap)) (fill b) (ptr b) in
    Some (negb (- delta >? position b), SMR (cells b) (canw b) (left b1) (fill b) (uwrap 32 (position b1 - gap))).
(** StreamMemoryReference.cpp 105-109 SetSize *)
Definition set_size (b : smr) (size : Z) : bool * smr :=
  let b := set_used b (uwrap 32 size) in (used_size b =? uwrap 32 size, b).

(** The calls of a user, and what each returns *)
Inductive op := Read (n : Z) | Write (d : list Z) | Seek (p : Z) | RelSeek (d : Z) | SetSize (n : Z) | Size | Position.
Inductive res := RBytes (l : list Z) | RWritten (ok : bool) (n : Z) | RBool (ok : bool) | RNum (n : Z).
Definition step (b : smr) (o : op) : option (res * smr) :=
  match o with
  | Read n => match read b n with None => None | Some (l, b) => Some (RBytes l, b) end
  | Write d => match write b d with None => None | Some (ok, n, b) => Some (RWritten ok n, b) end
  | Seek p => let (ok, b) := seek b p in Some (RBool ok, b)
  | RelSeek d => match rel_seek b d with None => None | Some (ok, b) => Some (RBool ok, b) end
  | SetSize n => let (ok, b) := set_size b n in Some (RBool ok, b)
  | Size => Some (RNum (used_size b), b)
  | Position => Some (RNum (position b), b)
  end.
Fixpoint run (b : smr) (ops : list op) : option (list res * smr) :=
  match ops with
  | [] => Some ([], b)
  | o :: ops => match step b o with
                | None => None
                | Some (r, b) => match run b ops with None => None | Some (rs, b) => Some (r :: rs, b) end
                end
  end.
