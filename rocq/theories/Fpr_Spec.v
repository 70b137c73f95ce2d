(** What a printed floating point number looks like, and its value. *)
From Verif Require Import Base Flt_Model Flt_Spec Ftx_Model Ftx_Spec.
From Verif Require Fmt_Model.
Open Scope Z_scope.

(** The fields of a format descriptor, and the six notations: fixed point, fixed point with a relative precision, exponent, engineering, smart, compact *)
Definition valid (d : Fmt_Model.fd) : Prop :=
  0 <= Fmt_Model.size d <= 255 /\ 0 <= Fmt_Model.precision d <= 255 /\ In (Fmt_Model.floatNotation d) [0; 1; 2; 3; 6; 7].
(** The precision that is asked for: the digits after the point in fixed point notation, otherwise the significant digits. 255: nothing was asked *)
Definition asked (f : fmt) (d : Fmt_Model.fd) : Z :=
  if Fmt_Model.precision d =? 255 then (if Fmt_Model.floatNotation d =? 0 then 6 else if prec f =? 24 then 7 else 15) else Fmt_Model.precision d.
(** A number of the format, an infinity or not a number *)
Definition is_float (f : fmt) (x : fl) : Prop := match x with Fin m e => finite f m e | _ => True end.
(** The text in its field *)
Definition in_field (d : Fmt_Model.fd) (core text : list Z) : Prop :=
  exists before after, text = before ++ core ++ after /\ Forall (fun c => c = 32) before /\ Forall (fun c => c = 32) after
  /\ (Fmt_Model.size d = 0 \/ Fmt_Model.padded d = false -> before = [] /\ after = [])
  /\ (if Fmt_Model.leftAligned d then before = [] else after = [])
  /\ (0 < Fmt_Model.size d -> Z.of_nat (length text) <= Fmt_Model.size d)
  /\ (0 < Fmt_Model.size d -> Fmt_Model.padded d = true -> Z.of_nat (length text) = Fmt_Model.size d).

(** A number: sign, digits before the point, digits after it, and the power of ten that multiplies it with the characters that write it *)
Record shown := Shown { s_neg : bool; s_int : list Z; s_dec : option (list Z); s_power : Z; s_suffix : list Z }.
Definition s_text (v : shown) : list Z := (if s_neg v then [45] else []) ++ s_int v ++ match s_dec v with Some ds => 46 :: ds | None => [] end ++ s_suffix v.
Definition s_decimals (v : shown) : list Z := match s_dec v with Some ds => ds | None => [] end.
(** E+12, E-3; nothing for the power zero *)
Definition exponent_suffix (k : Z) (s : list Z) : Prop :=
  (k = 0 /\ s = []) \/ exists ds, digits ds /\ ds <> [] /\ number ds = Z.abs k /\ (0 < k /\ s = 69 :: 43 :: ds \/ k < 0 /\ s = 69 :: 45 :: ds).
(** y, z, a, f, p, n, u, m, K, M, G, T, P, E, Z, Y *)
Definition letters : list (Z * Z) :=
  [(-24, 121); (-21, 122); (-18, 97); (-15, 102); (-12, 112); (-9, 110); (-6, 117); (-3, 109); (3, 75); (6, 77); (9, 71); (12, 84); (15, 80); (18, 69); (21, 90); (24, 89)].
Definition letter_suffix (k : Z) (s : list Z) : Prop := (k = 0 /\ s = []) \/ exists l, In (k, l) letters /\ s = [l].
Definition digits_before (v : shown) : Z := Z.of_nat (length (s_int v)).
Definition digits_after (v : shown) : Z := Z.of_nat (length (s_decimals v)).
(** the shape of each notation *)
Definition shape (notation : Z) (v : shown) : Prop :=
  digits (s_int v) /\ s_int v <> [] /\ (forall ds, s_dec v = Some ds -> digits ds /\ ds <> []) /\
  match notation with
  | 0 | 1 => s_power v = 0 /\ s_suffix v = []
  | 2 => digits_before v = 1 /\ exponent_suffix (s_power v) (s_suffix v)
  | 3 => digits_before v <= 3 /\ (3 | s_power v) /\ exponent_suffix (s_power v) (s_suffix v)
  | 6 => digits_before v <= 3 /\ (3 | s_power v) /\ (if Z.abs (s_power v) <=? 24 then letter_suffix (s_power v) (s_suffix v) else exponent_suffix (s_power v) (s_suffix v))
  | 7 => digits_before v <= 3 /\ (letter_suffix (s_power v) (s_suffix v) \/ digits_before v = 1 /\ exponent_suffix (s_power v) (s_suffix v))
  | _ => False
  end.
(** the exponent of the last digit that counts: the last decimal; without decimals the units, or less if fewer significant digits were asked *)
Definition last_digit (notation precision : Z) (v : shown) : Z :=
  match s_dec v with
  | Some _ => s_power v - digits_after v
  | None => s_power v + (if notation =? 0 then 0 else Z.max 0 (digits_before v - precision))
  end.
(** | n * 10^k - a / b | <= 10^u / 2 + (w parts in 2^q) * a / b *)
Definition rounded (n k a b u w q : Z) : Prop :=
  let K := Z.max 0 (- k) + Z.max 0 (- u) in
  2 * 2 ^ q * Z.abs (n * 10 ^ (K + k) * b - a * 10 ^ K) <= 2 ^ q * 10 ^ (K + u) * b + 2 * w * (a * 10 ^ K).
(** without a limit of the size, all the digits that were asked; the zeros after the point of a number below one do not count *)
Definition all_digits (notation precision : Z) (v : shown) : Prop :=
  if notation =? 0 then digits_after v = precision
  else digits_before v + digits_after v = Z.max (digits_before v) precision
    \/ notation = 1 /\ s_int v = [48] /\ exists z ds, s_decimals v = repeat 48 z ++ ds /\ Z.of_nat (length ds) = precision.
(** below half of the last decimal, with 200 parts in 2^prec *)
Definition below_half (f : fmt) (m e p : Z) : Prop := 2 ^ prec f * (2 * (Z.abs (num m e) * 10 ^ p)) <= (2 ^ prec f + 200) * den e.
(** what is printed of each number, without the spaces around it *)
Definition printed (f : fmt) (d : Fmt_Model.fd) (x : fl) (core : list Z) : Prop :=
  let n := Fmt_Model.floatNotation d in
  let no_limit := Fmt_Model.size d = 0 in
  match x with
  | NaN => core = [78; 97; 78] /\ (no_limit \/ 3 <= Fmt_Model.size d) \/ core = [63] /\ 0 < Fmt_Model.size d < 3
  | Inf negative => core = (if negative then [45; 73; 110; 102] else [43; 73; 110; 102]) /\ (no_limit \/ 4 <= Fmt_Model.size d) \/ core = [63] /\ 0 < Fmt_Model.size d < 4
  | Fin m e =>
    m = 0 /\ core = [48]
    \/ m <> 0 /\ core = [48] /\ (no_limit -> if n =? 0 then below_half f m e (asked f d) else asked f d = 0)
    \/ m <> 0 /\ core = [63] /\ ~ no_limit
    \/ m <> 0 /\ exists v, core = s_text v /\ s_neg v = (m <? 0) /\ shape n v
       /\ rounded (number (s_int v ++ s_decimals v)) (s_power v - digits_after v) (Z.abs (num m e)) (den e) (last_digit n (asked f d) v) 250 (prec f)
       /\ (no_limit -> all_digits n (asked f d) v)
  end.
