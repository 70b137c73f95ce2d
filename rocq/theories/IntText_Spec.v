(** Specification of integer text: what a numeral is and what value it denotes, independent of the code. *)
From Verif Require Import Base.

(** Value of a digit character: '0'-'9', 'A'-'Z' (10..), 'a'-'z' (10..). *)
Definition digit_val (c : Z) : Z :=
  if (48 <=? c) && (c <=? 57) then c - 48
  else if (65 <=? c) && (c <=? 90) then c - 55
  else if (97 <=? c) && (c <=? 122) then c - 87
  else -1.

Definition is_digit (base c : Z) : Prop := 0 <= digit_val c < base.

(** Positional value of a digit string, most significant digit first. *)
Definition value (base : Z) (s : list Z) : Z := fold_left (fun acc c => acc * base + digit_val c) s 0.

(** [s] is a string of digits (possibly with leading zeros) denoting [n]. *)
Definition numeral (base : Z) (s : list Z) (n : Z) : Prop :=
  Forall (is_digit base) s /\ value base s = n.

(** [s] is the canonical numeral of [n]: non-empty, no superfluous leading zero. *)
Definition canonical (base : Z) (s : list Z) (n : Z) : Prop :=
  numeral base s n /\ s <> [] /\ (hd 0 s = 48 -> s = [48]).

(** Canonical decimal text of a signed integer. *)
Definition decimal_text (s : list Z) (z : Z) : Prop :=
  if z <? 0 then exists ds, s = 45 :: ds /\ canonical 10 ds (- z) else canonical 10 s z.

(** A text placed in a field: [w] = width; unpadded texts are put as they are; a text that does not fit
    is replaced by "?". *)
Definition field (w : Z) (padded left : bool) (pad : Z) (text out : list Z) : Prop :=
  let t := if Z.of_nat (length text) <=? w then text else [63] in
  let fill := w - Z.of_nat (length t) in
  out = if padded then
          if left then t ++ repeat 32 (Z.to_nat fill) else repeat pad (Z.to_nat fill) ++ t
        else t.

(** The integer literals accepted for type [t] and the value they denote.  Decimal literals do not start
    with '0' (except "0" itself); the digit sequence may be empty (value 0); hexadecimal, octal and binary
    literals denote a bit pattern of the type and may have at most as many digits as the type needs. *)
Definition int_literal (t : ity) (s : list Z) (v : Z) : Prop :=
  (s = [48] /\ v = 0)
  \/ (exists n, hd 0 s <> 48 /\ numeral 10 s n /\ in_ty t n /\ v = n)
  \/ (exists ds n, s = 43 :: ds /\ numeral 10 ds n /\ in_ty t n /\ v = n)
  \/ (exists ds n, s = 45 :: ds /\ isgn t = true /\ numeral 10 ds n /\ in_ty t (- n) /\ v = - n)
  \/ (exists letter k ds n, In (letter, k) [(120, 4); (111, 3); (98, 1)] /\
        s = 48 :: letter :: ds /\ numeral (2 ^ k) ds n /\ n < 2 ^ ibits t /\
        k * Z.of_nat (length ds) < ibits t + k /\ v = cast t n).

(** A C string: characters other than NUL. *)
Definition c_string (s : list Z) : Prop := Forall (fun c => 0 < c < 256) s.
