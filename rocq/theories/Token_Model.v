(** Source/Core/BareMetal/L3Streams/IOBuffer.cpp: GetToken (1621-1671), GetToken into a character array (1553-1619),
    SkipTokens (1673-1700); BufferedStreamI.cpp 74-107 calls them on the stream's buffers.
    The input is any stream given by its GetC (None: undefined behaviour; Some (None, s): no more data), the output any
    stream given by its PutC. *)
From Verif Require Import Base.

(** StringHelper::SearchChar(set, c) != NULL (StringHelper_CLIB_Generic.cpp 85-95, strchr): the terminator of the C
    string is found too, so '\0' belongs to every set. *)
Definition in_set (set : list Z) (c : Z) : bool := (c =? 0) || existsb (Z.eqb c) set.

Section Streams.
Context {S T : Type} (getc : S -> option (option Z * S)) (putc : T -> Z -> option (bool * T)).

(** 1630-1668; [size] is tokenSize, [skip] the skip set (the terminators when NULL, 1623-1625).
    [fuel] bounds the number of characters read; running out of it is reported as None. *)
Fixpoint gt_loop (fuel : nat) (term skip : list Z) (s : S) (t : T) (size : Z) : option (bool * Z * S * T) :=
  match fuel with
  | O => None
  | Datatypes.S fuel =>
    match getc s with
    | None => None
    | Some (None, s) => Some (negb (size =? 0), 0, s, t)
    | Some (Some c, s) =>
      let isTerminator := in_set term c in
      let isSkip := in_set skip c in
      if isTerminator || (c =? 0) then
        if negb (size =? 0) || negb isSkip then Some (true, c, s, t)
        else gt_loop fuel term skip s t size
      else if negb isSkip then
        match putc t c with
        | None => None
        | Some (true, t) => gt_loop fuel term skip s t (uwrap 32 (size + 1))
        | Some (false, t) => Some (false, 0, s, t)
        end
      else gt_loop fuel term skip s t size
    end
  end.
Definition get_token (fuel : nat) (term : list Z) (skip : option (list Z)) (s : S) (t : T) : option (bool * Z * S * T) :=
  gt_loop fuel term (match skip with None => term | Some k => k end) s t 0.

(** 1553-1619: [out] is the array of outputBufferSize bytes; storing outside it is undefined behaviour. *)
Definition store (out : list Z) (i : Z) (c : Z) : option (list Z) :=
  if (0 <=? i) && (i <? Z.of_nat (length out)) then Some (firstn (Z.to_nat i) out ++ c :: skipn (Z.to_nat i + 1) out) else None.
Fixpoint gtb_loop (fuel : nat) (term skip : list Z) (s : S) (out : list Z) (limit size : Z) : option (bool * Z * S * list Z) :=
  match fuel with
  | O => None
  | Datatypes.S fuel =>
    match getc s with
    | None => None
    | Some (None, s) => match store out size 0 with None => None | Some out => Some (negb (size =? 0), 0, s, out) end
    | Some (Some c, s) =>
      let isTerminator := in_set term c in
      let isSkip := in_set skip c in
      if isTerminator || (c =? 0) then
        if negb (size =? 0) || negb isSkip then
          match store out size 0 with None => None | Some out => Some (true, c, s, out) end
        else gtb_loop fuel term skip s out limit size
      else if negb isSkip then
        match store out size c with
        | None => None
        | Some out =>
          let size := uwrap 32 (size + 1) in
          if size >=? limit then
            match store out size 0 with None => None | Some out => Some (true, c, s, out) end
          else gtb_loop fuel term skip s out limit size
        end
      else gtb_loop fuel term skip s out limit size
    end
  end.
(** outputBufferSize is the length of the array given; it is decremented first (1558). *)
Definition get_token_buf (fuel : nat) (term : list Z) (skip : option (list Z)) (s : S) (out : list Z) : option (bool * Z * S * list Z) :=
  gtb_loop fuel term (match skip with None => term | Some k => k end) s out (uwrap 32 (Z.of_nat (length out) - 1)) 0.

(** 1673-1700 *)
Fixpoint skip_loop (fuel : nat) (term : list Z) (s : S) (count size : Z) : option (bool * S) :=
  if count >? 0 then
    match fuel with
    | O => None
    | Datatypes.S fuel =>
      match getc s with
      | None => None
      | Some (None, s) => Some (false, s)
      | Some (Some c, s) =>
        if in_set term c || (c =? 0) then
          if negb (size =? 0) then skip_loop fuel term s (count - 1) 0 else skip_loop fuel term s count size
        else skip_loop fuel term s count (uwrap 32 (size + 1))
      end
    end
  else Some (true, s).
Definition skip_tokens (fuel : nat) (count : Z) (term : list Z) (s : S) : option (bool * S) := skip_loop fuel term s count 0.

(** A caller that extracts tokens until GetToken fails, each into an empty output [t0]: outputs with terminators. *)
Fixpoint all_tokens (n fuel : nat) (term : list Z) (skip : option (list Z)) (s : S) (t0 : T) : option (list (T * Z)) :=
  match n with
  | O => None
  | Datatypes.S n =>
    match get_token fuel term skip s t0 with
    | None => None
    | Some (false, _, _, _) => Some []
    | Some (true, c, s, t) => match all_tokens n fuel term skip s t0 with None => None | Some l => Some ((t, c) :: l) end
    end
  end.
End Streams.
