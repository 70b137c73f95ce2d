(** What a conversion between integers and floating point numbers should do, on exact values. *)
From Verif Require Import Base Flt_Model.
Open Scope Z_scope.

(** A finite number of the format (2^prec * 2^e is 2^(prec-1) * 2^(e+1)) *)
Definition finite (f : fmt) (m e : Z) : Prop := Z.abs m <= 2 ^ prec f /\ emin f <= e /\ (m = 0 \/ bits m + e <= emax f).
(** The value m * 2^e as the fraction num / den *)
Definition num (m e : Z) : Z := m * 2 ^ (e - Z.min e 0).
Definition den (e : Z) : Z := 2 ^ (- Z.min e 0).
(** z is the integer that is nearest to n / d; of two, the one that is further from zero *)
Definition nearest_integer (n d z : Z) : Prop :=
  2 * Z.abs (n - z * d) <= d /\ (2 * Z.abs (n - z * d) = d -> Z.abs n < Z.abs z * d).
(** z or the bound that it exceeds *)
Definition clamped (t : ity) (z : Z) : Z := Z.max (imin t) (Z.min (imax t) z).
(** The value m * 2^e in units of 2^c *)
Definition at_unit (c m e : Z) : Z := m * 2 ^ (e - c).
(** m2 * 2^e2 is not nearer to m * 2^e than m1 * 2^e1 *)
Definition nearer (m e m1 e1 m2 e2 : Z) : Prop :=
  let c := Z.min e (Z.min e1 e2) in
  Z.abs (at_unit c m1 e1 - at_unit c m e) <= Z.abs (at_unit c m2 e2 - at_unit c m e).
(** A number of the format that is nearest to m * 2^e *)
Definition nearest_float (f : fmt) (m e : Z) (x : fl) : Prop :=
  exists m1 e1, x = Fin m1 e1 /\ finite f m1 e1 /\ forall m2 e2, finite f m2 e2 -> nearer m e m1 e1 m2 e2.
(** The two formats and the eight integer types *)
Definition is_format (f : fmt) : Prop := f = binary32 \/ f = binary64.
Definition is_type (t : ity) : Prop := wid t = 8 \/ wid t = 16 \/ wid t = 32 \/ wid t = 64.
(** The bits addr .. addr + nb - 1 of a word *)
Definition bit_field (nb addr word : Z) : Z := (word / 2 ^ addr) mod 2 ^ nb.
