(** Specification of fixed-width integer helpers. *)
From Verif Require Import Base.

(** Nearest value of the interval. *)
Definition clamp (lo hi x : Z) : Z := if x <? lo then lo else if x >? hi then hi else x.

(** The range of an integer of [n] bits. *)
Definition bit_min (sgn : bool) (n : Z) : Z := if sgn then - 2 ^ (n - 1) else 0.
Definition bit_max (sgn : bool) (n : Z) : Z := if sgn then 2 ^ (n - 1) - 1 else 2 ^ n - 1.

(** The mathematical value of a double-width integer held in two halves of type [t]: the upper half
    (signed when the type is) times 2^w plus the bit pattern of the lower half. *)
Definition double_value (t : ity) (up lo : Z) : Z := up * 2 ^ ibits t + uwrap (ibits t) lo.

(** The double-width type. *)
Definition double_ty (t : ity) : ity := ITy (2 * ibits t) (isgn t).
