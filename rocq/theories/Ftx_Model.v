(** Source/Core/BareMetal/L4Configuration/StringToFloat.cpp. A text is the list of its characters before the terminating zero.
    The numbers and the operations of the processor are those of Flt_Model. *)
From Verif Require Import Base Flt_Model.
From Verif Require IntText_Model.
Open Scope Z_scope.

Definition fmul (f : fmt) (x y : fl) : fl :=
  match x, y with
  | Fin m1 e1, Fin m2 e2 => rnd f (m1 * m2) (e1 + e2)
  | NaN, _ | _, NaN => NaN
  | Inf a, Inf b => Inf (xorb a b)
  | Inf a, Fin m _ | Fin m _, Inf a => if m =? 0 then NaN else Inf (xorb a (m <? 0))
  end.
Definition fadd (f : fmt) (x y : fl) : fl :=
  match x, y with
  | Fin m1 e1, Fin m2 e2 => let c := Z.min e1 e2 in rnd f (m1 * 2 ^ (e1 - c) + m2 * 2 ^ (e2 - c)) c
  | NaN, _ | _, NaN => NaN
  | Inf a, Inf b => if Bool.eqb a b then Inf a else NaN
  | Inf a, Fin _ _ | Fin _ _, Inf a => Inf a
  end.
(** (n / d) * 2^e for d > 0: enough digits of the quotient, and one that says whether there are more *)
Definition rnd_q (f : fmt) (n d e : Z) : fl :=
  let s := Z.max 0 (prec f + 2 + bits d - bits n) in
  let a := n * 2 ^ s in
  rnd f (2 * (a / d) + (if a mod d =? 0 then 0 else 1)) (e - s - 1).
Definition fdiv (f : fmt) (x y : fl) : fl :=
  match x, y with
  | Fin m1 e1, Fin m2 e2 =>
    if m2 =? 0 then (if m1 =? 0 then NaN else Inf (m1 <? 0)) else rnd_q f (Z.sgn m2 * m1) (Z.abs m2) (e1 - e2)
  | NaN, _ | _, NaN => NaN
  | Inf _, Inf _ => NaN
  | Inf a, Fin m _ => Inf (xorb a (m <? 0))
  | Fin _ _, Inf _ => zero
  end.
Definition fneg (x : fl) : fl := match x with Fin m e => Fin (- m) e | Inf s => Inf (negb s) | NaN => NaN end.
(** !IsNaN && !IsInf *)
Definition is_fin (x : fl) : bool := match x with Fin _ _ => true | _ => false end.
(** static_cast<T>(a double) *)
Definition cast (f : fmt) (x : fl) : fl := match x with Fin m e => rnd f m e | _ => x end.
(** static_cast<T>(1E+step), static_cast<T>(1E-step), static_cast<T>(10.0) *)
Definition big_step (f : fmt) (step : Z) : fl := cast f (rnd binary64 (10 ^ step) 0).
Definition small_step (f : fmt) (step : Z) : fl := cast f (rnd_q binary64 1 (10 ^ step) 0).
Definition ten (f : fmt) : fl := cast f (Fin 10 0).

(** 47-62, 76-111: CHECK_AND_MUL, CHECK_AND_DIV and AddExponent *)
Definition check_and (f : fmt) (by_step : Z -> fl) (step : Z) (st : fl * Z) : fl * Z :=
  let (x, e) := st in if step <=? e then (fmul f x (by_step step), e - step) else st.
Definition is_double (f : fmt) : bool := 24 <? prec f.
Definition steps (f : fmt) : list Z := (if is_double f then [256; 128; 64] else []) ++ [32; 16; 8; 4; 2].
Definition add_exponent (f : fmt) (x : fl) (exponent : Z) (positive : bool) : fl :=
  let (x, e) := fold_left (fun st s => check_and f (if positive then big_step f else small_step f) s st) (steps f) (x, exponent) in
  if 1 <=? e then (if positive then fmul f x (ten f) else fdiv f x (ten f)) else x.

(** 157-196: the digits before the point. What follows, and the position after the character that was found *)
Inductive int_end := IStop (x : fl) (ret : bool) | IDot (x : fl) (rest : list Z) (i : Z) | IExp (x : fl) (rest : list Z) (i : Z).
Definition digit_of (c : Z) : option Z := let d := swrap 8 (swrap 8 c - 48) in if (0 <=? d) && (d <=? 9) then Some d else None.
Fixpoint int_loop (f : fmt) (rest : list Z) (i : Z) (x : fl) : int_end :=
  if 1000 <=? i then IStop x true else
  match rest with
  | [] => IStop x true
  | c :: r =>
    match digit_of c with
    | Some d =>
      let t := fmul f x (ten f) in
      if is_fin t then
        let t2 := fadd f t (of_int f d) in
        if is_fin t2 then int_loop f r (i + 1) t2 else IStop x false
      else IStop x false
    | None =>
      if c =? 46 then IDot x r (i + 1) else if (c =? 69) || (c =? 101) then IExp x r (i + 1) else IStop x false
    end
  end.
(** 202-240: the digits after the point *)
Inductive dec_end := DStop (part : fl) (ret : bool) | DExp (part : fl) (rest : list Z) (i : Z).
Fixpoint dec_loop (f : fmt) (rest : list Z) (i : Z) (part p : fl) : dec_end :=
  if 1000 <=? i then DStop part true else
  match rest with
  | [] => DStop part true
  | c :: r =>
    match digit_of c with
    | Some d =>
      let p' := fmul f p (ten f) in
      if is_fin p' then dec_loop f r (i + 1) (fadd f part (fdiv f (of_int f d) p')) p'
      else DStop part true
    | None => if (c =? 69) || (c =? 101) then DExp part r (i + 1) else DStop part false
    end
  end.
(** 257-302: the exponent *)
Inductive exp_end := EStop | EEnd (exponent : Z) (ret : bool).
Fixpoint exp_loop (rest : list Z) (i : Z) (e : Z) : exp_end :=
  if 1000 <=? i then EEnd e true else
  match rest with
  | [] => EEnd e true
  | c :: r =>
    match digit_of c with
    | Some d => let e' := e * 10 + d in if 512 <=? e' then EStop else exp_loop r (i + 1) e'
    | None => EEnd e false
    end
  end.
Definition read_exponent (f : fmt) (x : fl) (rest : list Z) (i : Z) : fl * bool :=
  let '(positive, rest, i) := match rest with
    | c :: r => if c =? 43 then (true, r, i + 1) else if c =? 45 then (false, r, i + 1) else (true, rest, i)
    | [] => (true, rest, i) end in
  match exp_loop rest i 0 with
  | EStop => (x, false)
  | EEnd e ret => let t := add_exponent f x e positive in if is_fin t then (t, ret) else (x, false)
  end.
(** 135-312: StringToNormalFloatPrivate: the number and what is returned *)
Definition read_unsigned (f : fmt) (rest : list Z) (i : Z) : fl * bool :=
  match int_loop f rest i zero with
  | IStop x ret => (x, ret)
  | IDot x r i' =>
    let (part, after) := match dec_loop f r i' zero (of_int f 1) with DStop p ret => (p, inl ret) | DExp p r2 i2 => (p, inr (r2, i2)) end in
    let t := fadd f x part in
    if is_fin t then match after with inl ret => (t, ret) | inr (r2, i2) => read_exponent f t r2 i2 end
    else (x, false)
  | IExp x r i' => read_exponent f x r i'
  end.
Definition normal_float (f : fmt) (text : list Z) : fl * bool :=
  match text with
  | c :: r =>
    if c =? 45 then (let (x, ret) := read_unsigned f r 1 in (fneg x, ret))
    else if c =? 43 then read_unsigned f r 1 else read_unsigned f text 0
  | [] => read_unsigned f text 0
  end.
(** 317-340: StringToFloatPrivate; the number that is refused in 0x, 0o and 0b is not changed (None) *)
Definition string_to_float (f : fmt) (text : list Z) : option fl * bool :=
  let normal := let (x, ret) := normal_float f text in (Some x, ret) in
  match text with
  | c0 :: c1 :: _ =>
    if (c0 =? 48) && ((c1 =? 120) || (c1 =? 111) || (c1 =? 98)) then
      match IntText_Model.string_to_integer (ITy 64 false) text with
      | (true, n) => let (x, ret) := integer_to_float f n in (Some x, ret)
      | (false, _) => (None, false)
      end
    else normal
  | _ => normal
  end.
