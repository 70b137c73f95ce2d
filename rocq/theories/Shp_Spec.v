(** What the functions on C texts promise. *)
From Verif Require Import Base.

Notation len s := (Z.of_nat (length s)).
(** The memory starts with the text [s] and its terminator. *)
Definition text (m s : list Z) : Prop := exists rest, m = s ++ 0 :: rest /\ ~ In 0 s.
(** The memory [old] now starts with the text [s], and is as before behind it. *)
Definition holds (old new s : list Z) : Prop := exists used, length used = S (length s) /\ exists rest, old = used ++ rest /\ new = s ++ 0 :: rest.
(** The first difference, among the first [n] characters and the terminators, is a smaller character in [a]. *)
Definition less (n : option Z) (a b : list Z) : Prop :=
  exists p x y ra rb, a ++ [0] = p ++ x :: ra /\ b ++ [0] = p ++ y :: rb /\ x < y /\ match n with None => True | Some n => len p < n end.
(** [a] is what precedes the first occurrence of [t] in [s], [b] what follows it. *)
Definition first_occurrence (t s a b : list Z) : Prop :=
  s = a ++ t ++ b /\ forall a' b', s = a' ++ t ++ b' -> (length a <= length a')%nat.
Definition absent (t s : list Z) : Prop := forall a b, s <> a ++ t ++ b.
(** [a] is what precedes the first character of [s] that is in [d]. *)
Definition before_any (d s a : list Z) : Prop := (forall c, In c a -> ~ In c d) /\ ((s = a) \/ exists c b, s = a ++ c :: b /\ In c d).
(** The character in lower case, as an unsigned byte. *)
Definition small (c : Z) : Z := let u := c mod 256 in if (65 <=? u) && (u <=? 90) then u + 32 else u.
