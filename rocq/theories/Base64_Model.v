(** Source/Core/BareMetal/L3Streams/Base64Encoder.cpp.  A StreamString is the list of its bytes;
    operator+= appends (see StreamString model). *)
From Verif Require Import Base.

(** Base64Encoder.cpp:66 base64Alphabet. *)
Definition alphabet : list Z :=
  [65;66;67;68;69;70;71;72;73;74;75;76;77;78;79;80;81;82;83;84;85;86;87;88;89;90;
   97;98;99;100;101;102;103;104;105;106;107;108;109;110;111;112;113;114;115;116;117;118;119;120;121;122;
   48;49;50;51;52;53;54;55;56;57;43;47;61].

(** base64Alphabet[code]; an index outside the literal is a distinct outcome. *)
Definition alpha (code : Z) : option Z := if code <? 0 then None else nth_error alphabet (Z.to_nat code).

(** table[k] = v *)
Fixpoint upd (l : list Z) (k : nat) (v : Z) : list Z :=
  match l, k with
  | [], _ => []
  | _ :: r, O => v :: r
  | x :: r, S k' => x :: upd r k' v
  end.

(** Base64Encoder.cpp:68-77 Base64Codec(): the decoding table. *)
Definition decodingTable : list Z :=
  let t := repeat 255 256 in
  let t := fold_left (fun t i => upd t (Z.to_nat (nth i alphabet 0)) (Z.of_nat i)) (seq 0 64) t in
  upd t 61 254.

(** in[0] is a uint8. *)
Definition key_of (c : Z) : Z := nth (Z.to_nat c) decodingTable 255.

Definition app1 (out : option (list Z)) (c : option Z) : option (list Z) :=
  match out, c with Some o, Some x => Some (o ++ [x]) | _, _ => None end.

(** Base64Encoder.cpp:82-126 Encode: the characters appended to the (emptied) output.
    None = alphabet index out of range.  [size] is int32(input.Size()): inputs below 2^31 bytes. *)
Fixpoint encode_loop (fuel : nat) (inp : list Z) (out : option (list Z)) : option (list Z) :=
  match fuel with
  | O => match inp with [] => out | _ => None end
  | S f =>
    match inp with
    | [] => out                                             (* size > 0 fails *)
    | a :: r1 =>
      let word := a in
      let code := Z.shiftr word 2 in
      let word := Z.land word 3 in
      let out := app1 out (alpha code) in
      match r1 with
      | b :: r2 =>
        let word := uwrap 32 (Z.shiftl word 8) in
        let word := Z.lor word b in
        let code := Z.shiftr word 4 in
        let word := Z.land word 15 in
        let out := app1 out (alpha code) in
        match r2 with
        | c :: r3 =>
          let word := uwrap 32 (Z.shiftl word 8) in
          let word := Z.lor word c in
          let code := word in
          let word := Z.land word 63 in
          let code := Z.shiftr code 6 in
          let out := app1 out (alpha code) in
          let out := app1 out (alpha word) in
          encode_loop f r3 out
        | [] =>
          let word := uwrap 32 (Z.shiftl word 2) in
          let out := app1 out (alpha word) in
          app1 out (Some 61)                                (* size -= 3 ends the loop *)
        end
      | [] =>
        let word := uwrap 32 (Z.shiftl word 4) in
        let out := app1 out (alpha word) in
        app1 (app1 out (Some 61)) (Some 61)
      end
    end
  end.

Definition encode (inp : list Z) : option (list Z) := encode_loop (length inp) inp (Some []).

(** output += static_cast<char8>(x): the low 8 bits. *)
Definition put (out : list Z) (x : Z) : list Z := out ++ [uwrap 8 x].

(** Base64Encoder.cpp:128-219 Decode: (ret, output). *)
Fixpoint decode_loop (fuel : nat) (inp : list Z) (out : list Z) : bool * list Z :=
  match fuel with
  | O => (true, out)
  | S f =>
    match inp with
    | c0 :: c1 :: c2 :: c3 :: r =>
      if c0 =? 61 then (true, out) else
      let key := key_of c0 in
      if key =? 255 then (false, out) else
      let word := key in
      if c1 =? 61 then (true, put out (uwrap 32 (Z.shiftl word 2))) else
      let key := key_of c1 in
      if key =? 255 then (false, out) else
      let word := Z.lor (uwrap 32 (Z.shiftl word 6)) key in
      let code := Z.shiftr word 4 in
      let word := Z.land word 15 in
      let out := put out code in
      if c2 =? 61 then (true, put out (uwrap 32 (Z.shiftl word 4))) else
      let key := key_of c2 in
      if key =? 255 then (false, out) else
      let word := Z.lor (uwrap 32 (Z.shiftl word 6)) key in
      let code := Z.shiftr word 2 in
      let word := Z.land word 3 in
      let out := put out code in
      if c3 =? 61 then (true, out) else
      let key := key_of c3 in
      if key =? 255 then (false, out) else
      let word := Z.lor (uwrap 32 (Z.shiftl word 6)) key in
      decode_loop f r (put out word)
    | _ => (true, out)                                      (* size >= 4 fails *)
    end
  end.

(** Each iteration consumes four characters, so length/4 + 1 iterations reach the end. *)
Definition decode (inp : list Z) : bool * list Z := decode_loop (S (length inp)) inp [].
