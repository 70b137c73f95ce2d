(** C49: Source/Core/BareMetal/L3Streams: DoubleBufferedStream (two buffers, one for each direction) and
    Source/Core/FileSystem/L4HttpService: HttpChunkedStream, over a TCP socket.
    The two directions share nothing and are modelled apart: [ws] is what is written, [rs] what is read.
    The buffers are the IOBuffers of StrStream_Model, without reserved space and with undo level 0, as in BufStream_Model.
    CanRead, CanWrite and bufferSizeSet are true: the socket is valid and the allocations succeeded. Timeouts are not
    modelled: that they expire is one of the ways in which the socket's calls fail.
    Result None: undefined behaviour, or the loops' fuel is exhausted. *)
From Verif Require Import Base StrStream_Model Fmt_Model BufStream_Model.

(** ** What is written *)
(** The socket: how many bytes the next calls of send accept (0 or less: the call fails; after the last one of them
    all bytes are accepted), and all the bytes that have been accepted *)
Record net := Net { sends : list Z; wire : list Z }.
(** FileSystem/L1Portability/Environment/Linux/BasicTCPSocket.cpp 373-401 and 453-493 Write, called by
    BufferedStreamGenerator.h 332-336 OSWrite: true if something was accepted. Its callers look at the result only. *)
Definition os_send (n : net) (d : list Z) : bool * net :=
  let size := Z.of_nat (length d) in
  let k := Z.min (hd size (sends n)) size in
  if k >? 0 then (true, Net (tl (sends n)) (wire n ++ firstn (Z.to_nat k) d)) else (false, Net (tl (sends n)) (wire n)).

(** calib: calibWriteParam *)
Record ws := WS { wbuf : iob; chunk : bool; calib : Z; sock : net }.
(** HttpChunkedStream.cpp 46-65 and DoubleBufferedStream.cpp 46-57, 76-95: a stream with a buffer of [size] bytes *)
Definition ws_new (size : Z) (script : list Z) : ws := WS (new_buf (if size <? 8 then 8 else size)) false 0 (Net script []).

(** BufferedStreamI.cpp 205-212 Flush with BufferedStreamIOBuffer.cpp 120-148 NoMoreSpaceToWrite *)
Definition plain_flush (s : ws) : option (bool * ws) :=
  let writeSize := used_size (wbuf s) in
  if writeSize =? 0 then Some (true, s)
  else match peek (cells (wbuf s)) 0 writeSize with
       | None => None
       | Some d => let (ok, n) := os_send (sock s) d in
                   Some (ok, WS (if ok then empty (wbuf s) else wbuf s) (chunk s) (calib s) n)
       end.
(** HttpChunkedStream.cpp 70-101 Flush. totStr, a StreamString, holds what Printf writes. *)
Definition flush (s : ws) : option (bool * ws) :=
  let size := used_size (wbuf s) in
  let head := if chunk s then
                if size >? 0 then
                  match printf 0 [37; 120; 13; 10] [AScalar (SInt (ITy 32 false) size)] with
                  | None => None
                  | Some (t, ok) => if ok then let (ok, n) := os_send (sock s) t in Some (ok, WS (wbuf s) (chunk s) (calib s) n)
                                    else Some (false, s)
                  end
                else Some (true, s)
              else Some (true, s) in
  match head with
  | Some (true, s) =>
    match plain_flush s with
    | Some (true, s) => if chunk s && (size >? 0) then let (ok, n) := os_send (sock s) [13; 10] in Some (ok, WS (wbuf s) (chunk s) (calib s) n)
                        else Some (true, s)
    | x => x
    end
  | x => x
  end.
(** 103-109 FinalChunk *)
Definition final_chunk (s : ws) : bool * ws := let (ok, n) := os_send (sock s) [48; 13; 10; 13; 10] in (ok, WS (wbuf s) (chunk s) (calib s) n).
(** 111-113 SetChunkMode; BufferedStreamI.h 473-475 SetCalibWriteParam *)
Definition set_chunk (s : ws) (m : bool) : ws := WS (wbuf s) m (calib s) (sock s).
Definition set_calib (s : ws) (c : Z) : ws := WS (wbuf s) (chunk s) c (sock s).
(** DoubleBufferedStream.cpp 76-95 SetBufferSize, the write buffer: Flush is virtual, and leaves it empty *)
Definition set_buffer (s : ws) (size : Z) : option (bool * ws) :=
  match flush s with
  | Some (true, s) => Some (true, WS (new_buf (if size <? 8 then 8 else size)) (chunk s) (calib s) (sock s))
  | x => x
  end.

(** 200-220: the loop of Write: (result, size, stream) *)
Fixpoint write_loop (fuel : nat) (s : ws) (input : list Z) (writed : Z) : option (bool * Z * ws) :=
  if Z.of_nat (length input) >? 0 then
    match fuel with
    | O => None
    | S fuel =>
      match io_write (wbuf s) input with
      | None => None
      | Some (nWrites, b) =>
        let s := WS b (chunk s) (calib s) (sock s) in
        match (if negb (nWrites =? Z.of_nat (length input)) then flush s else Some (true, s)) with
        | None => None
        | Some (true, s) => write_loop fuel s (skipn (Z.to_nat nWrites) input) (writed + nWrites)
        | Some (false, s) => Some (false, writed, s)
        end
      end
    end
  else Some (true, writed, s).
(** 189-265 Write *)
Definition write (s : ws) (input : list Z) : option (bool * Z * ws) :=
  let size := Z.of_nat (length input) in
  if maxu (wbuf s) >? uwrap 32 (calib s * size) then write_loop (length input + 2) s input 0
  else match flush s with
       | None => None
       | Some (false, s) => Some (false, size, s)
       | Some (true, s) => let (ok, n) := os_send (sock s) input in
                           Some (ok, uwrap 32 (Z.of_nat (length (wire n)) - Z.of_nat (length (wire (sock s)))), WS (wbuf s) (chunk s) (calib s) n)
       end.
(** IOBuffer.h 580-617 PutC on the write buffer (Printf, GetToken's output); its Flush is BufferedStreamIOBuffer.cpp
    154-165, the Flush of the stream *)
Definition putc (s : ws) (c : Z) : option (bool * ws) :=
  match (if left (wbuf s) <=? 0 then match flush s with Some (ok, s) => Some (ok && negb (left (wbuf s) =? 0), s) | None => None end else Some (true, s)) with
  | None => None
  | Some (false, s) => Some (false, s)
  | Some (true, s) =>
    match poke (cells (wbuf s)) (ptr (wbuf s)) [c] with
    | None => None
    | Some m => let b := wbuf s in let l := left b - 1 in
                Some (true, WS (IOB m (maxu b) l (if fill b >? l then l else fill b) (ptr b + 1)) (chunk s) (calib s) (sock s))
    end
  end.
(** IOBuffer.cpp 1953-1984 WriteAll on the write buffer (Printf of texts) *)
Fixpoint write_all (fuel : nat) (s : ws) (d : list Z) : option (bool * ws) :=
  if Z.of_nat (length d) >? 0 then
    match fuel with
    | O => None
    | S fuel =>
      match (if left (wbuf s) =? 0 then match flush s with Some (ok, s) => Some (ok && negb (left (wbuf s) =? 0), s) | None => None end else Some (true, s)) with
      | None => None
      | Some (false, s) => Some (false, s)
      | Some (true, s) =>
        match io_write (wbuf s) d with
        | None => None
        | Some (k, b) => write_all fuel (WS b (chunk s) (calib s) (sock s)) (skipn (Z.to_nat k) d)
        end
      end
    end
  else Some (true, s).

Inductive wop := WPutC (c : Z) | WPutAll (d : list Z) | WWrite (d : list Z) | WFlush | WChunk (m : bool) | WFinal | WSetBuf (size : Z) | WCalib (c : Z).
Definition wstep (s : ws) (o : wop) : option (bool * ws) :=
  match o with
  | WPutC c => putc s c
  | WPutAll d => write_all (length d + 2) s d
  | WWrite d => match write s d with None => None | Some (ok, _, s) => Some (ok, s) end
  | WFlush => flush s
  | WChunk m => Some (true, set_chunk s m)
  | WFinal => Some (final_chunk s)
  | WSetBuf n => set_buffer s n
  | WCalib c => Some (true, set_calib s c)
  end.
Fixpoint wrun (s : ws) (ops : list wop) : option (list bool * ws) :=
  match ops with
  | [] => Some ([], s)
  | o :: r => match wstep s o with
              | None => None
              | Some (a, s) => match wrun s r with None => None | Some (l, s) => Some (a :: l, s) end
              end
  end.

(** ** What is read *)
(** The peer: how many bytes the next calls of recv give (0 or less: the call fails; so do all those after the last
    one of them), and the bytes that have not been received *)
Record peer := Peer { recvs : list Z; coming : list Z }.
(** BasicTCPSocket.cpp 342-371 and 403-451 Read, called by BufferedStreamGenerator.h 326-329 OSRead. None: it returns
    false. The end of the connection is a recv of 0 bytes: false too. *)
Definition os_recv (p : peer) (n : Z) : option (list Z) * peer :=
  let k := Z.min (hd 0 (recvs p)) (Z.min n (Z.of_nat (length (coming p)))) in
  if k >? 0 then (Some (firstn (Z.to_nat k) (coming p)), Peer (tl (recvs p)) (skipn (Z.to_nat k) (coming p)))
  else (None, Peer (tl (recvs p)) (coming p)).
(** rcalib: calibReadParam *)
Record rs := RS { rbuf : iob; rcalib : Z; remote : peer }.
Definition rs_new (size c : Z) (p : peer) : rs := RS (new_buf (if size <? 8 then 8 else size)) c p.
(** BufferedStreamI.cpp 214-221 Refill with BufferedStreamIOBuffer.cpp 91-118 NoMoreDataToRead *)
Definition refill (s : rs) : bool * rs :=
  let b := empty (rbuf s) in
  match os_recv (remote s) (maxu b) with
  | (Some d, p) =>
      let b := IOB (map Some d ++ skipn (length d) (cells b)) (maxu b) (left b) (fill b) (ptr b) in
      (Z.of_nat (length d) >? 0, RS (set_used b (Z.of_nat (length d))) (rcalib s) p)
  | (None, p) => (false, RS (empty b) (rcalib s) p)
  end.
(** DoubleBufferedStream.cpp 130-146: the loop; [out] the bytes stored in the output array, [n] readBytes *)
Fixpoint read_loop (fuel : nat) (s : rs) (toRead n : Z) (out : list Z) : option (bool * Z * list Z * rs) :=
  if toRead >? 0 then
    match fuel with
    | O => None
    | S fuel =>
      match io_read (rbuf s) toRead with
      | None => None
      | Some (d, b) =>
        let nRead := Z.of_nat (length d) in
        let s := RS b (rcalib s) (remote s) in
        let out := out ++ d in
        if negb (nRead =? toRead) then
          match refill s with
          | (true, s) => read_loop fuel s (toRead - nRead) (n + nRead) out
          | (false, s) => Some (false, n, out, s)
          end
        else read_loop fuel s (toRead - nRead) (n + nRead) out
      end
    end
  else Some (true, n, out, s).
(** 107-179 Read: (result, size, bytes stored in the array, stream) *)
Definition read (s : rs) (size : Z) : option (bool * Z * list Z * rs) :=
  match io_read (rbuf s) size with
  | None => None
  | Some (d, b) =>
    let s := RS b (rcalib s) (remote s) in
    let n := Z.of_nat (length d) in
    if negb (n =? size) then
      let toRead := size - n in
      if uwrap 32 (toRead * rcalib s) <? maxu (rbuf s) then
        match refill s with
        | (true, s) => read_loop (Z.to_nat size + 2) s toRead n d
        | (false, s) => Some (false, n, d, s)
        end
      else
        match os_recv (remote s) toRead with
        | (Some e, p) => Some (true, n + Z.of_nat (length e), d ++ e, RS (rbuf s) (rcalib s) p)
        | (None, p) => Some (false, n, d, RS (rbuf s) (rcalib s) p)
        end
    else Some (true, n, d, s)
  end.
(** IOBuffer.h 635-661 GetC on the read buffer (GetLine, GetToken) *)
Definition getc (s : rs) : option (option Z * rs) :=
  let fetch (s : rs) :=
    match peek (cells (rbuf s)) (ptr (rbuf s)) 1 with
    | Some [c] => let b := rbuf s in Some (Some c, RS (IOB (cells b) (maxu b) (left b - 1) (fill b) (ptr b + 1)) (rcalib s) (remote s))
    | _ => None
    end in
  if used_left (rbuf s) <=? 0 then
    match refill s with
    | (ok, s) => if ok && negb (used_left (rbuf s) =? 0) then fetch s else Some (None, s)
    end
  else fetch s.

Inductive rop := RRead (n : Z) | RGetC.
(** result, size (the number of bytes that the caller is told), bytes stored *)
Record rans := RAns { r_ok : bool; r_num : Z; r_bytes : list Z }.
Definition rstep (s : rs) (o : rop) : option (rans * rs) :=
  match o with
  | RRead n => match read s n with None => None | Some (ok, k, d, s) => Some (RAns ok k d, s) end
  | RGetC => match getc s with None => None | Some (Some c, s) => Some (RAns true 1 [c], s) | Some (None, s) => Some (RAns false 0 [], s) end
  end.
Fixpoint rrun (s : rs) (ops : list rop) : option (list rans * rs) :=
  match ops with
  | [] => Some ([], s)
  | o :: r => match rstep s o with
              | None => None
              | Some (a, s) => match rrun s r with None => None | Some (l, s) => Some (a :: l, s) end
              end
  end.
