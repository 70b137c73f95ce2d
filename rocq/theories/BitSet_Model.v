(** Source/Core/BareMetal/L0Types/BitSet.cpp.  A BitSet is the list of its nElements words (uint32).
    Reading or writing a word outside the array is undefined behaviour (None). *)
From Verif Require Import Base.

(** array[i] *)
Definition word (a : list Z) (i : Z) : option Z := nth_error a (Z.to_nat i).
Definition nel (a : list Z) : Z := Z.of_nat (length a).

(** 53-63, 65-70: the constructors from uint32 and uint64; 155-174 the assignments. *)
Definition of_u32 (v : Z) : list Z := [v].
Definition of_u64 (v : Z) : list Z := [uwrap 32 v; uwrap 32 (Z.shiftr v 32)].

(** 92-104 *)
Definition resize (a : list Z) (size : Z) : list Z :=
  firstn (Z.to_nat size) a ++ repeat 0 (Z.to_nat size - length a).

(** 110-119 Bit *)
Definition bit (a : list Z) (index : Z) : bool :=
  let byteIndex := index / 32 in
  if byteIndex <? nel a then
    match word a byteIndex with
    | Some w => negb (Z.land w (uwrap 32 (Z.shiftl 1 (index - 32 * byteIndex))) =? 0)
    | None => false
    end
  else false.

Definition upd_word (a : list Z) (i : Z) (f : Z -> Z) : list Z :=
  firstn (Z.to_nat i) a ++ match skipn (Z.to_nat i) a with [] => [] | w :: r => f w :: r end.

(** 121-138 Set *)
Definition set (a : list Z) (index : Z) (value : bool) : list Z :=
  let byteIndex := index / 32 in
  let a := if byteIndex >=? nel a then resize a (byteIndex + 1) else a in
  let bitmask := uwrap 32 (Z.shiftl 1 (index - 32 * byteIndex)) in
  if byteIndex <? nel a then
    upd_word a byteIndex (fun w => if value then Z.lor w bitmask else Z.land w (uwrap 32 (Z.lnot bitmask)))
  else a.

(** 176-193 *)
Definition to_u32 (a : list Z) : Z := match a with [] => 0 | w :: _ => w end.
Definition to_u64 (a : list Z) : Z :=
  let v := match a with [] => 0 | w :: _ => w end in
  if nel a =? 2 then uwrap 64 (v + Z.shiftl (nth 1 a 0) 32) else v.

(** 41-47 Longer *)
Definition longer (a b : list Z) : list Z := if nel b >? nel a then b else a.

(** 196-242 and 365-410: word by word, then the rest of the longer operand (| ^) or zeros (&). *)
Definition zipw (f : Z -> Z -> Z) (a b : list Z) (rest : list Z) : list Z :=
  map (fun p => f (fst p) (snd p)) (combine a b) ++ skipn (Nat.min (length a) (length b)) rest.
Definition band (a b : list Z) : list Z := zipw Z.land a b (repeat 0 (Nat.max (length a) (length b))).
Definition bor (a b : list Z) : list Z := zipw Z.lor a b (longer a b).
Definition bxor (a b : list Z) : list Z := zipw Z.lxor a b (longer a b).
(** 245-253 *)
Definition bnot (a : list Z) : list Z := map (fun w => uwrap 32 (Z.lnot w)) a.

(** 256-275: the loop over i < n, in increasing order. *)
Definition put_bit (new : list Z) (pos : Z) : list Z :=
  let byteIndex := pos / 32 in
  if byteIndex <? nel new
  then upd_word new byteIndex (fun w => Z.lor w (uwrap 32 (Z.shiftl 1 (uwrap 32 (pos - uwrap 32 (byteIndex * 32))))))
  else new.
Fixpoint shl_loop (a : list Z) (r : Z) (new : list Z) (n : nat) : list Z :=
  match n with
  | O => new
  | S m => let new := shl_loop a r new m in
           if bit a (Z.of_nat m) then put_bit new (uwrap 32 (Z.of_nat m + r)) else new
  end.
Definition bshl (a : list Z) (r : Z) : list Z :=
  let newSize := uwrap 32 (nel a + r / 32 + 1) in
  shl_loop a r (repeat 0 (Z.to_nat newSize)) (Z.to_nat (uwrap 32 (32 * nel a))).

(** 278-296: i runs from r to bitsize - 1; [n] iterations done. *)
Fixpoint shr_loop (a : list Z) (r : Z) (new : list Z) (n : nat) : list Z :=
  match n with
  | O => new
  | S m => let new := shr_loop a r new m in
           let i := r + Z.of_nat m in
           if bit a i then put_bit new (uwrap 32 (i - r)) else new
  end.
Definition bshr (a : list Z) (r : Z) : list Z :=
  shr_loop a r (repeat 0 (length a)) (Z.to_nat (uwrap 32 (32 * nel a) - r)).

(** 298-315 *)
Definition beq (a b : list Z) : bool :=
  forallb (fun p => snd p =? fst p) (combine a b) &&
  forallb (fun w => w =? 0) (skipn (Nat.min (length a) (length b)) (longer a b)).
(** 317-334 *)
Definition beq_u32 (a : list Z) (v : Z) : bool :=
  match a with [] => v =? 0 | w :: r => if negb (w =? v) then false else forallb (fun x => x =? 0) r end.
(** 336-351: None when array[1] is read although there is only one word. *)
Definition beq_u64 (a : list Z) (v : Z) : option bool :=
  match a with
  | [] => Some (v =? 0)
  | w :: r =>
    if ((nel a =? 1) && negb (Z.shiftr v 32 =? 0)) || negb (w =? Z.land v 4294967295) then Some false
    else match r with
         | [] => None
         | w1 :: r' => if negb (w1 =? Z.shiftr v 32) then Some false else Some (forallb (fun x => x =? 0) r')
         end
  end.
