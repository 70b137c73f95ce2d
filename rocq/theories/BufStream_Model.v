(** Source/Core/BareMetal/L3Streams: SingleBufferedStream and BufferedStreamIOBuffer over a seekable device.
    The buffer is the IOBuffer of StrStream_Model with no reserved space.  The device (OSRead, OSWrite, OSSeek,
    OSPosition, OSSize) is a file whose calls do not fail; OSRead returns the bytes available, at most as many as
    asked for. Result None: undefined behaviour (or the loops' fuel, the number of bytes plus two, is exhausted). *)
From Verif Require Import Base StrStream_Model.

Record dev := Dev { data : list Z; off : Z }.
Definition os_read (d : dev) (n : Z) : list Z * dev :=
  let r := firstn (Z.to_nat n) (skipn (Z.to_nat (off d)) (data d)) in (r, Dev (data d) (off d + Z.of_nat (length r))).
Definition os_write (d : dev) (b : list Z) : dev :=
  Dev (firstn (Z.to_nat (off d)) (data d) ++ b ++ skipn (Z.to_nat (off d) + length b) (data d)) (off d + Z.of_nat (length b)).
Definition os_seek (d : dev) (p : Z) : dev := Dev (data d) p.
Definition os_size (d : dev) : Z := Z.of_nat (length (data d)).

Record sbs := SBS { device : dev; buf : iob; wmode : bool (* mutexWriteMode; mutexReadMode is its negation *) }.

(** SingleBufferedStream.cpp 46-56, 74-86 and BufferedStreamIOBuffer.cpp 150-152: a buffer of [size] bytes.
    SetBufferHeapMemory is called on an empty buffer; the block is not initialised. *)
Definition new_buf (size : Z) : iob := IOB (repeat None (Z.to_nat size)) size size size 0.
Definition sbs_new (d : dev) : sbs := SBS d (new_buf 32) false.

(** BufferedStreamIOBuffer.cpp 60-88 Resync *)
Definition resync (s : sbs) : sbs :=
  if used_size (buf s) >? 0 then
    SBS (os_seek (device s) (uwrap 64 (off (device s) - used_left (buf s)))) (empty (buf s)) (wmode s)
  else s.
(** 91-118 NoMoreDataToRead *)
Definition no_more_data (s : sbs) : bool * sbs :=
  let b := empty (buf s) in
  let (d, dv) := os_read (device s) (maxu b) in
  let b := IOB (map Some d ++ skipn (length d) (cells b)) (maxu b) (left b) (fill b) (ptr b) in
  (Z.of_nat (length d) >? 0, SBS dv (set_used b (Z.of_nat (length d))) (wmode s)).
(** 120-148 NoMoreSpaceToWrite *)
Definition no_more_space (s : sbs) : option sbs :=
  let writeSize := used_size (buf s) in
  if writeSize =? 0 then Some s
  else match peek (cells (buf s)) 0 writeSize with
       | None => None
       | Some d => Some (SBS (os_write (device s) d) (empty (buf s)) (wmode s))
       end.
(** SingleBufferedStream.cpp 105-116 GetWriteBuffer with SingleBufferedStream.h 247-254 SwitchToWriteMode, and
    BufferedStreamI.cpp 205-212 Flush *)
Definition to_write (s : sbs) : sbs := if wmode s then s else let s := resync s in SBS (device s) (buf s) true.
Definition flush (s : sbs) : option sbs := no_more_space (to_write s).
(** SingleBufferedStream.cpp 93-102 GetReadBuffer with SingleBufferedStream.h 256-263 SwitchToReadMode (the buffer's
    Flush is the stream's, BufferedStreamIOBuffer.cpp 154-165), and BufferedStreamI.cpp 214-221 Refill *)
Definition to_read (s : sbs) : option sbs :=
  if wmode s then match flush s with None => None | Some s => Some (SBS (device s) (buf s) false) end else Some s.
Definition refill (s : sbs) : option (bool * sbs) := match to_read s with None => None | Some s => Some (no_more_data s) end.
(** SingleBufferedStream.h 233-245 FlushAndResync *)
Definition flush_resync (s : sbs) : option sbs := if wmode s then flush s else Some (resync s).

(** SingleBufferedStream.cpp 152-168: the loop; [out] the bytes stored in the output array, [n] readBytes *)
Fixpoint read_loop (fuel : nat) (s : sbs) (toRead n : Z) (out : list Z) : option (bool * Z * list Z * sbs) :=
  if toRead >? 0 then
    match fuel with
    | O => None
    | S fuel =>
      match io_read (buf s) toRead with
      | None => None
      | Some (d, b) =>
        let nReads := Z.of_nat (length d) in
        let s := SBS (device s) b (wmode s) in
        let out := out ++ d in
        if negb (nReads =? toRead) then
          match refill s with
          | None => None
          | Some (true, s) => read_loop fuel s (toRead - nReads) (n + nReads) out
          | Some (false, s) => Some (false, n, out, s)
          end
        else read_loop fuel s (toRead - nReads) (n + nReads) out
      end
    end
  else Some (true, n, out, s).
(** 118-186 Read: (result, size, bytes stored in the array, stream).  calibReadParam is 4 (BufferedStreamI.cpp 49). *)
Definition sbs_read (s : sbs) (size : Z) : option (bool * Z * list Z * sbs) :=
  match to_read s with
  | None => None
  | Some s =>
    match io_read (buf s) size with
    | None => None
    | Some (d, b) =>
      let s := SBS (device s) b (wmode s) in
      let n := Z.of_nat (length d) in
      if negb (n =? size) then
        let toRead := size - n in
        if uwrap 32 (toRead * 4) <? maxu (buf s) then
          match refill s with
          | None => None
          | Some (true, s) => read_loop (Z.to_nat size + 2) s toRead n d
          | Some (false, s) => Some (false, n, d, s)
          end
        else
          let (e, dv) := os_read (device s) toRead in
          Some (true, n + Z.of_nat (length e), d ++ e, SBS dv (buf s) (wmode s))
      else Some (true, n, d, s)
    end
  end.

(** 216-234: the loop of Write *)
Fixpoint write_loop (fuel : nat) (s : sbs) (input : list Z) (writed : Z) : option (bool * Z * sbs) :=
  if Z.of_nat (length input) >? 0 then
    match fuel with
    | O => None
    | S fuel =>
      match io_write (buf s) input with
      | None => None
      | Some (nWrites, b) =>
        let s := SBS (device s) b (wmode s) in
        match (if negb (nWrites =? Z.of_nat (length input)) then flush s else Some s) with
        | None => None
        | Some s => write_loop fuel s (skipn (Z.to_nat nWrites) input) (writed + nWrites)
        end
      end
    end
  else Some (true, writed, s).
(** 198-251 Write.  calibWriteParam is 4. *)
Definition sbs_write (s : sbs) (input : list Z) : option (bool * Z * sbs) :=
  let s := to_write s in
  let size := Z.of_nat (length input) in
  if maxu (buf s) >? uwrap 32 (4 * size) then write_loop (length input + 2) s input 0
  else match flush s with
       | None => None
       | Some s => Some (true, size, SBS (os_write (device s) input) (buf s) (wmode s))
       end.

(** 277-316 Seek *)
Definition sbs_seek (s : sbs) (pos : Z) : option sbs :=
  if wmode s then
    match (if used_size (buf s) >? 0 then flush s else Some s) with
    | None => None
    | Some s => Some (SBS (os_seek (device s) pos) (buf s) (wmode s))
    end
  else if used_size (buf s) >? 0 then
    let cursp := off (device s) in
    let start := uwrap 64 (cursp - used_size (buf s)) in
    if (pos >=? start) && (pos <? cursp) then
      Some (SBS (device s) (snd (io_seek (buf s) (uwrap 32 (pos - start)))) (wmode s))
    else Some (SBS (os_seek (device s) pos) (empty (buf s)) (wmode s))
  else Some (SBS (os_seek (device s) pos) (buf s) (wmode s)).

(** 318-387 RelativeSeek *)
Definition sbs_relseek (s : sbs) (d : Z) : option (bool * sbs) :=
  let moveBack := d <? 0 in
  if d =? 0 then Some (true, s)
  else
    match (if wmode s then (if used_size (buf s) >? 0 then flush s else Some s) else Some s) with
    | None => None
    | Some s =>
      let '(ub, absDelta, s) :=
        if wmode s then (true, Z.abs d, s)
        else if (d <=? 2147483647) && (d >=? -2147483648) then
          let currentPos := position (buf s) in
          let (ok, b) := io_relseek (buf s) d in
          if ok then (false, Z.abs d, SBS (device s) b (wmode s))
          else let gap := uwrap 32 (used_size b - currentPos) in
               (true, uwrap 64 (if moveBack then Z.abs d - gap else Z.abs d + gap), SBS (device s) (empty b) (wmode s))
        else (true, Z.abs d, resync s) in
      if ub then
        if (absDelta >? off (device s)) && moveBack then Some (false, s)
        else Some (true, SBS (os_seek (device s) (uwrap 64 (if moveBack then off (device s) - absDelta else off (device s) + absDelta))) (buf s) (wmode s))
      else Some (true, s)
    end.

(** 389-401 Position, 263-275 Size, 403-414 SetSize is not modelled *)
Definition sbs_position (s : sbs) : Z :=
  if wmode s then uwrap 64 (off (device s) + position (buf s)) else uwrap 64 (off (device s) - used_left (buf s)).
Definition sbs_size (s : sbs) : option (Z * sbs) :=
  match flush_resync s with None => None | Some s => Some (os_size (device s), s) end.
(** 74-86 SetBufferSize *)
Definition sbs_set_buffer (s : sbs) (size : Z) : option sbs :=
  let size := if size <? 8 then 8 else size in
  match flush_resync s with None => None | Some s => Some (SBS (device s) (new_buf size) (wmode s)) end.

(** IOBuffer.h 635-661 GetC on the stream's read buffer (GetToken, SkipTokens, GetLine) *)
Definition sbs_getc (s : sbs) : option (option Z * sbs) :=
  let fetch (s : sbs) :=
    match peek (cells (buf s)) (ptr (buf s)) 1 with
    | Some [c] => let b := buf s in Some (Some c, SBS (device s) (IOB (cells b) (maxu b) (left b - 1) (fill b) (ptr b + 1)) (wmode s))
    | _ => None
    end in
  if used_left (buf s) <=? 0 then
    match refill s with
    | None => None
    | Some (ok, s) => if ok && negb (used_left (buf s) =? 0) then fetch s else Some (None, s)
    end
  else fetch s.

(** IOBuffer.h 580-617 PutC on the stream's write buffer (GetToken's output, Printf) *)
Definition sbs_putc (s : sbs) (c : Z) : option (bool * sbs) :=
  match (if left (buf s) <=? 0 then flush s else Some s) with
  | None => None
  | Some s =>
    if left (buf s) =? 0 then Some (false, s)
    else match poke (cells (buf s)) (ptr (buf s)) [c] with
         | None => None
         | Some m => let b := buf s in let l := left b - 1 in
                     Some (true, SBS (device s) (IOB m (maxu b) l (if fill b >? l then l else fill b) (ptr b + 1)) (wmode s))
         end
  end.

Inductive bop := BRead (n : Z) | BWrite (d : list Z) | BSeek (p : Z) | BRel (d : Z) | BFlush | BSize | BPos | BSetBuf (n : Z).
Record bans := BAns { b_ok : bool; b_num : Z; b_bytes : list Z }.
Definition bstep (s : sbs) (o : bop) : option (bans * sbs) :=
  match o with
  | BRead n => match sbs_read s n with None => None | Some (r, k, d, s) => Some (BAns r k d, s) end
  | BWrite d => match sbs_write s d with None => None | Some (r, k, s) => Some (BAns r k [], s) end
  | BSeek p => match sbs_seek s p with None => None | Some s => Some (BAns true 0 [], s) end
  | BRel d => match sbs_relseek s d with None => None | Some (r, s) => Some (BAns r 0 [], s) end
  | BFlush => match flush s with None => None | Some s => Some (BAns true 0 [], s) end
  | BSize => match sbs_size s with None => None | Some (n, s) => Some (BAns true n [], s) end
  | BPos => Some (BAns true (sbs_position s) [], s)
  | BSetBuf n => match sbs_set_buffer s n with None => None | Some s => Some (BAns true 0 [], s) end
  end.
Fixpoint brun (s : sbs) (ops : list bop) : option (list bans * sbs) :=
  match ops with
  | [] => Some ([], s)
  | o :: r => match bstep s o with
              | None => None
              | Some (a, s) => match brun s r with None => None | Some (l, s) => Some (a :: l, s) end
              end
  end.
