(** The numbers that can be written in a text, and their values. *)
From Verif Require Import Base Flt_Model Flt_Spec.
From Verif Require IntText_Spec.
Open Scope Z_scope.

Definition digits (ds : list Z) : Prop := Forall (fun c => 48 <= c <= 57) ds.
(** the number that is written with decimal digits *)
Definition number (ds : list Z) : Z := IntText_Spec.value 10 ds.
(** sign, digits, maybe a point and digits, maybe a letter, a sign and digits. Each sequence of digits may be empty. *)
Record parts := Parts { p_sign : list Z; p_int : list Z; p_dec : option (list Z); p_exp : option (Z * list Z * list Z) }.
Definition sign (s : list Z) : Prop := s = [] \/ s = [43] \/ s = [45].
Definition well_formed (p : parts) : Prop :=
  sign (p_sign p) /\ digits (p_int p)
  /\ (forall ds, p_dec p = Some ds -> digits ds)
  /\ (forall l s ds, p_exp p = Some (l, s, ds) -> (l = 69 \/ l = 101) /\ sign s /\ digits ds).
Definition written (p : parts) : list Z :=
  p_sign p ++ p_int p ++ match p_dec p with Some ds => 46 :: ds | None => [] end
  ++ match p_exp p with Some (l, s, ds) => l :: s ++ ds | None => [] end.
Definition float_syntax (t : list Z) : Prop := exists p, well_formed p /\ t = written p.
Definition decimals (p : parts) : list Z := match p_dec p with Some ds => ds | None => [] end.
(** the exponent *)
Definition exponent (p : parts) : Z :=
  match p_exp p with Some (_, [45], ds) => - number ds | Some (_, _, ds) => number ds | None => 0 end.
(** the value with the sign of the text *)
Definition signed (p : parts) (n : Z) : Z := match p_sign p with [45] => - n | _ => n end.
(** a floating point number has the value of an integer *)
Definition is_integer (x : fl) (n : Z) : Prop := exists m e, x = Fin m e /\ num m e = n * den e.
(** |x - n / d| <= w / (d * 2^q) *)
Definition within (x : fl) (n d w q : Z) : Prop :=
  exists m e, x = Fin m e /\ 2 ^ q * Z.abs (num m e * d - n * den e) <= w * den e * d.
(** how many digits may follow the point: 10 to that power is a number of the format; and how many when the powers of ten are exact *)
Definition max_decimals (f : fmt) : nat := if 24 <? prec f then 308 else 38.
Definition exact_decimals (f : fmt) : nat := if 24 <? prec f then 22 else 10.
(** the value is far below the largest number of the format, there are not too many decimals and the exponent is below 512 *)
Definition in_range (f : fmt) (p : parts) : Prop :=
  4 * (Z.of_nat (length (p_int p)) + Z.max 0 (exponent p)) + 20 <= emax f
  /\ (length (decimals p) <= max_decimals f)%nat
  /\ (forall l s ds, p_exp p = Some (l, s, ds) -> number ds < 512).
(** no point is followed by more digits *)
Definition few_decimals (f : fmt) (t : list Z) : Prop := forall a ds r, t = a ++ 46 :: ds ++ r -> digits ds -> (length ds <= max_decimals f)%nat.
(** the texts 0x..., 0o... and 0b... *)
Definition based (t : list Z) : Prop := exists letter r, t = 48 :: letter :: r /\ (letter = 120 \/ letter = 111 \/ letter = 98).
(** the same number without its exponent *)
Definition plain (p : parts) : parts := Parts (p_sign p) (p_int p) (p_dec p) None.
(** the exponents that the multiplications reach *)
Definition max_exponent (f : fmt) : Z := if 24 <? prec f then 512 else 64.
(** x is x0 * 10^k with an error of at most w parts in 2^q *)
Definition scaled (x0 x : fl) (k w q : Z) : Prop :=
  exists m0 e0 m e, x0 = Fin m0 e0 /\ x = Fin m e /\
  2 ^ q * Z.abs (num m e * 10 ^ Z.max 0 (- k) * den e0 - num m0 e0 * 10 ^ Z.max 0 k * den e) <= w * (Z.abs (num m0 e0) * 10 ^ Z.max 0 k * den e).
(** the size of x0 * 10^k, for k <= 0, and of x0 for k >= 0, is at least 2^(-r) *)
Definition at_least (x0 : fl) (k r : Z) : Prop := exists m0 e0, x0 = Fin m0 e0 /\ den e0 * 10 ^ Z.max 0 (- k) <= Z.abs (num m0 e0) * 2 ^ r.
