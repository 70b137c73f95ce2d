(** Source/Core/BareMetal/L1Portability/Md5Encrypt.cpp: Md5 and Md5Hmac.
    Bytes are integers from 0 to 255.  osulong is an unsigned integer of [w] bits (64 on the 64 bit platforms, 32 on
    others): the code relies on it having at least 32 bits, not on its having exactly 32. *)
From Verif Require Import Base.

Section Width.
Variable w : Z.
Definition ul (z : Z) : Z := uwrap w z.

(** 51-57 MDS5_GET_UINT32_LE(n, b, i) *)
Definition get32 (b : list Z) (i : nat) : Z :=
  Z.lor (Z.lor (Z.lor (nth i b 0) (ul (Z.shiftl (nth (i + 1) b 0) 8))) (ul (Z.shiftl (nth (i + 2) b 0) 16)))
        (ul (Z.shiftl (nth (i + 3) b 0) 24)).
(** 64-70 MDS5_PUT_UINT32_LE(n, b, i): the four bytes stored *)
Definition put32 (n : Z) : list Z :=
  [uwrap 8 n; uwrap 8 (Z.shiftr n 8); uwrap 8 (Z.shiftr n 16); uwrap 8 (Z.shiftr n 24)].
(** 76 S(x,n) *)
Definition rot (x n : Z) : Z := Z.lor (ul (Z.shiftl x n)) (Z.shiftr (Z.land x 4294967295) (32 - n)).

(** 81-96 MDS5_F1 .. MDS5_F4 *)
Inductive fn := F1 | F2 | F3 | F4.
Definition apply (f : fn) (x y z : Z) : Z :=
  match f with
  | F1 => Z.lxor z (Z.land x (Z.lxor y z))
  | F2 => Z.lxor y (Z.land z (Z.lxor x y))
  | F3 => Z.lxor (Z.lxor x y) z
  | F4 => Z.lxor y (Z.lor x (ul (Z.lnot z)))
  end.

(** The variables A, B, C, D of Md5Process. *)
Record regs := Rg { rA : Z; rB : Z; rC : Z; rD : Z }.
Inductive reg := RA | RB | RC | RD.
Definition get (r : regs) (x : reg) : Z := match x with RA => rA r | RB => rB r | RC => rC r | RD => rD r end.
Definition set (r : regs) (x : reg) (v : Z) : regs :=
  match x with
  | RA => Rg v (rB r) (rC r) (rD r) | RB => Rg (rA r) v (rC r) (rD r)
  | RC => Rg (rA r) (rB r) v (rD r) | RD => Rg (rA r) (rB r) (rC r) v
  end.
(** 101-104 MDS5_P(F,a,b,c,d,k,s,t) *)
Inductive line := P (f : fn) (a b c d : reg) (k : nat) (s t : Z).
Definition exec (X : list Z) (r : regs) (l : line) : regs :=
  let 'P f a b c d k s t := l in
  let r1 := set r a (ul (get r a + ul (ul (apply f (get r b) (get r c) (get r d) + nth k X 0) + t))) in
  set r1 a (ul (rot (get r1 a) s + get r1 b)).
(** 308-374 *)
Definition lines : list line :=
  [ P F1 RA RB RC RD 0 7 3614090360; P F1 RD RA RB RC 1 12 3905402710;
    P F1 RC RD RA RB 2 17 606105819; P F1 RB RC RD RA 3 22 3250441966;
    P F1 RA RB RC RD 4 7 4118548399; P F1 RD RA RB RC 5 12 1200080426;
    P F1 RC RD RA RB 6 17 2821735955; P F1 RB RC RD RA 7 22 4249261313;
    P F1 RA RB RC RD 8 7 1770035416; P F1 RD RA RB RC 9 12 2336552879;
    P F1 RC RD RA RB 10 17 4294925233; P F1 RB RC RD RA 11 22 2304563134;
    P F1 RA RB RC RD 12 7 1804603682; P F1 RD RA RB RC 13 12 4254626195;
    P F1 RC RD RA RB 14 17 2792965006; P F1 RB RC RD RA 15 22 1236535329;
    P F2 RA RB RC RD 1 5 4129170786; P F2 RD RA RB RC 6 9 3225465664;
    P F2 RC RD RA RB 11 14 643717713; P F2 RB RC RD RA 0 20 3921069994;
    P F2 RA RB RC RD 5 5 3593408605; P F2 RD RA RB RC 10 9 38016083;
    P F2 RC RD RA RB 15 14 3634488961; P F2 RB RC RD RA 4 20 3889429448;
    P F2 RA RB RC RD 9 5 568446438; P F2 RD RA RB RC 14 9 3275163606;
    P F2 RC RD RA RB 3 14 4107603335; P F2 RB RC RD RA 8 20 1163531501;
    P F2 RA RB RC RD 13 5 2850285829; P F2 RD RA RB RC 2 9 4243563512;
    P F2 RC RD RA RB 7 14 1735328473; P F2 RB RC RD RA 12 20 2368359562;
    P F3 RA RB RC RD 5 4 4294588738; P F3 RD RA RB RC 8 11 2272392833;
    P F3 RC RD RA RB 11 16 1839030562; P F3 RB RC RD RA 14 23 4259657740;
    P F3 RA RB RC RD 1 4 2763975236; P F3 RD RA RB RC 4 11 1272893353;
    P F3 RC RD RA RB 7 16 4139469664; P F3 RB RC RD RA 10 23 3200236656;
    P F3 RA RB RC RD 13 4 681279174; P F3 RD RA RB RC 0 11 3936430074;
    P F3 RC RD RA RB 3 16 3572445317; P F3 RB RC RD RA 6 23 76029189;
    P F3 RA RB RC RD 9 4 3654602809; P F3 RD RA RB RC 12 11 3873151461;
    P F3 RC RD RA RB 15 16 530742520; P F3 RB RC RD RA 2 23 3299628645;
    P F4 RA RB RC RD 0 6 4096336452; P F4 RD RA RB RC 7 10 1126891415;
    P F4 RC RD RA RB 14 15 2878612391; P F4 RB RC RD RA 5 21 4237533241;
    P F4 RA RB RC RD 12 6 1700485571; P F4 RD RA RB RC 3 10 2399980690;
    P F4 RC RD RA RB 10 15 4293915773; P F4 RB RC RD RA 1 21 2240044497;
    P F4 RA RB RC RD 8 6 1873313359; P F4 RD RA RB RC 15 10 4264355552;
    P F4 RC RD RA RB 6 15 2734768916; P F4 RB RC RD RA 13 21 1309151649;
    P F4 RA RB RC RD 4 6 4149444226; P F4 RD RA RB RC 11 10 3174756917;
    P F4 RC RD RA RB 2 15 718787259; P F4 RB RC RD RA 9 21 3951481745 ].

(** 174-178 the context; the HMAC pads are 64 bytes. *)
Record ctx := Ctx { tot0 : Z; tot1 : Z; state : regs; buffer : list Z; ipad : list Z; opad : list Z }.
(** 278-380 Md5Process *)
Definition process (st : regs) (data : list Z) : regs :=
  let X := map (fun i => get32 data (4 * i)) (seq 0 16) in
  let r := fold_left (exec X) lines st in
  Rg (ul (rA st + rA r)) (ul (rB st + rB r)) (ul (rC st + rC r)) (ul (rD st + rD r)).
Definition start_state : regs := Rg 1732584193 4023233417 2562383102 271733878.
(** 182-195 Md5Context() *)
Definition context : ctx := Ctx 0 0 start_state (repeat 0 64) (repeat 0 64) (repeat 0 64).
(** 204-212 Starts *)
Definition starts (c : ctx) : ctx := Ctx 0 0 start_state (buffer c) (ipad c) (opad c).

(** MemoryOperationsHelper::Copy(&buffer[at], input, n); None: outside of the buffer. *)
Definition copy_buf (buf : list Z) (at_ : nat) (d : list Z) : option (list Z) :=
  if (at_ + length d <=? 64)%nat then Some (firstn at_ buf ++ d ++ skipn (at_ + length d) buf) else None.
(** 239-243: the whole blocks of the input; the rest of the input *)
Fixpoint blocks (fuel : nat) (st : regs) (input : list Z) : option (regs * list Z) :=
  if (64 <=? length input)%nat then
    match fuel with
    | O => None
    | S f => blocks f (process st (firstn 64 input)) (skipn 64 input)
    end
  else Some (st, input).
(** 214-249 Update; the input has fewer than 2^32 bytes *)
Definition update (c : ctx) (input : list Z) : option ctx :=
  let ilen := Z.of_nat (length input) in
  if 0 <? ilen then
    let lft := Z.land (tot0 c) 63 in
    let fill := 64 - lft in
    let t0 := Z.land (ul (tot0 c + ilen)) 4294967295 in
    let t1 := if t0 <? ilen then ul (tot1 c + 1) else tot1 c in
    let first :=
      if negb (lft =? 0) && (fill <=? ilen) then
        match copy_buf (buffer c) (Z.to_nat lft) (firstn (Z.to_nat fill) input) with
        | None => None
        | Some b => Some (process (state c) b, b, skipn (Z.to_nat fill) input, 0)
        end
      else Some (state c, buffer c, input, lft) in
    match first with
    | None => None
    | Some (st, b, rest, lft) =>
      match blocks (length rest) st rest with
      | None => None
      | Some (st, rest) =>
        match (if (0 <? length rest)%nat then copy_buf b (Z.to_nat lft) rest else Some b) with
        | None => None
        | Some b => Some (Ctx t0 t1 st b (ipad c) (opad c))
        end
      end
    end
  else Some c.
(** 106-107 md5_padding *)
Definition padding : list Z := 128 :: repeat 0 63.
(** 251-276 Finish: the 16 bytes stored, the context *)
Definition finish (c : ctx) : option (list Z * ctx) :=
  let high := Z.lor (Z.shiftr (tot0 c) 29) (ul (Z.shiftl (tot1 c) 3)) in
  let low := ul (Z.shiftl (tot0 c) 3) in
  let msglen := put32 low ++ put32 high in
  let last := Z.land (tot0 c) 63 in
  let padn := if last <? 56 then 56 - last else 120 - last in
  match update c (firstn (Z.to_nat (uwrap 32 padn)) padding) with
  | None => None
  | Some c =>
    match update c msglen with
    | None => None
    | Some c => Some (put32 (rA (state c)) ++ put32 (rB (state c)) ++ put32 (rC (state c)) ++ put32 (rD (state c)), c)
    end
  end.
(** 430-439 Md5 *)
Definition md5 (input : list Z) : option (list Z) :=
  match update (starts context) input with
  | None => None
  | Some c => match finish c with None => None | Some (out, _) => Some out end
  end.

(** 391-398: the loop over the key, at most 64 bytes *)
Fixpoint xor_key (pad key : list Z) : list Z :=
  match pad, key with
  | p :: pad, k :: key => Z.lxor p k :: xor_key pad key
  | pad, [] => pad
  | [], _ => []
  end.
(** 385-402 HmacStarts *)
Definition hmac_starts (c : ctx) (key : list Z) : option ctx :=
  let ip := xor_key (repeat 54 64) key in
  let op := xor_key (repeat 92 64) key in
  let c := Ctx (tot0 c) (tot1 c) (state c) (buffer c) ip op in
  update (starts c) ip.
(** 415-425 HmacFinish *)
Definition hmac_finish (c : ctx) : option (list Z) :=
  match finish c with
  | None => None
  | Some (tmp, c) =>
    match update (starts c) (opad c) with
    | None => None
    | Some c => match update c tmp with
                | None => None
                | Some c => match finish c with None => None | Some (out, _) => Some out end
                end
    end
  end.
(** 444-456 Md5Hmac *)
Definition md5_hmac (key input : list Z) : option (list Z) :=
  match hmac_starts context key with
  | None => None
  | Some c => match update c input with None => None | Some c => hmac_finish c end
  end.
End Width.
