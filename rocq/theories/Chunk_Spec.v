(** C49: the chunked transfer coding (RFC 9112, 7.1, without extensions and trailers), read by a client. *)
From Verif Require Import Base.

(** A hexadecimal digit, in upper or lower case *)
Definition hexdigit (c : Z) : option Z :=
  if (48 <=? c) && (c <=? 57) then Some (c - 48)
  else if (65 <=? c) && (c <=? 70) then Some (c - 55)
  else if (97 <=? c) && (c <=? 102) then Some (c - 87)
  else None.
(** The size of a chunk: digits up to the end of the line; what is after it *)
Fixpoint chunk_size (acc : Z) (l : list Z) : option (Z * list Z) :=
  match l with
  | [] => None
  | c :: r => match hexdigit c with
              | Some d => chunk_size (acc * 16 + d) r
              | None => if c =? 13 then match r with x :: r => if x =? 10 then Some (acc, r) else None | [] => None end else None
              end
  end.
Definition crlf (l : list Z) : option (list Z) :=
  match l with a :: b :: r => if (a =? 13) && (b =? 10) then Some r else None | _ => None end.
(** A size of one digit or more, a line end, as many bytes, a line end; then the next chunk. The chunk of size 0 is the
    last one. The result is the data and what is after the body. *)
Fixpoint decode (fuel : nat) (l : list Z) : option (list Z * list Z) :=
  match fuel with
  | O => None
  | S fuel =>
    match (match l with c :: _ => match hexdigit c with Some _ => chunk_size 0 l | None => None end | [] => None end) with
    | None => None
    | Some (n, l) =>
      if n =? 0 then match crlf l with Some r => Some ([], r) | None => None end
      else if n <=? Z.of_nat (length l) then
        match crlf (skipn (Z.to_nat n) l) with
        | None => None
        | Some r => match decode fuel r with Some (d, r) => Some (firstn (Z.to_nat n) l ++ d, r) | None => None end
        end
      else None
    end
  end.
(** [l] begins with a chunked body whose data are [d], and [rest] is after it. *)
Definition body (l d rest : list Z) : Prop := decode (length l) l = Some (d, rest).
Definition last_chunk : list Z := [48; 13; 10; 13; 10].

(** ** What the calls write *)
From Verif Require Import Chunk_Model.
Definition said (o : wop) : list Z := match o with WPutC c => [c] | WPutAll d | WWrite d => d | _ => [] end.
Definition text (l : list wop) : list Z := flat_map said l.
(** The calls that write a page: all but the change of mode, the final chunk, and the change of the size above which
    data are sent without going through the buffer. Sizes are of 32 bits. *)
Definition page_call (o : wop) : Prop :=
  match o with
  | WPutC _ | WFlush => True
  | WPutAll d | WWrite d => Z.of_nat (length d) < 2 ^ 32
  | WSetBuf n => 0 <= n < 2 ^ 32
  | WChunk _ | WFinal | WCalib _ => False
  end.
(** All calls but the last one of these *)
Definition any_call (o : wop) : Prop :=
  match o with WChunk _ | WFinal => True | WCalib _ => False | _ => page_call o end.
(** Every call of send takes all the bytes or fails. *)
Definition all_or_nothing (script : list Z) : Prop := Forall (fun k => k <= 0 \/ 2 ^ 32 <= k) script.
Definition good (l : list bool) : Prop := Forall (fun b => b = true) l.

(** ** What the calls read *)
(** The bytes stored by the calls, one after the other *)
Definition stored (l : list rans) : list Z := flat_map r_bytes l.
(** The bytes that the caller knows of: as many of those stored as the call says *)
Definition told (l : list rans) : list Z := flat_map (fun a => firstn (Z.to_nat (r_num a)) (r_bytes a)) l.
Definition read_call (o : rop) : Prop := match o with RRead n => 0 <= n < 2 ^ 32 | RGetC => True end.
Definition asked (o : rop) : Z := match o with RRead n => n | RGetC => 1 end.
