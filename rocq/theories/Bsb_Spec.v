(** What the conversion of bit ranges should do, without reference to its code. A memory is a list of
    bytes; its bit number [i] is bit [i mod 8] of its byte [i / 8]. *)
From Verif Require Import Base.
Local Open Scope Z_scope.

Definition bytes (m : list Z) : Prop := Forall (fun b => 0 <= b < 256) m.

Definition bit (m : list Z) (i : Z) : bool := Z.testbit (nth (Z.to_nat (i / 8)) m 0) (i mod 8).

(** The unsigned number in [n] bits of [m], from bit [o], least significant first. *)
Fixpoint unsigned_field (m : list Z) (o : Z) (n : nat) : Z :=
  match n with
  | O => 0
  | S k => Z.b2z (bit m o) + 2 * unsigned_field m (o + 1) k
  end.

(** The number in [n] bits of [m] from bit [o], in two's complement when [sg]. *)
Definition field (m : list Z) (o n : Z) (sg : bool) : Z :=
  let u := unsigned_field m o (Z.to_nat n) in
  if sg && (2 ^ (n - 1) <=? u) then u - 2 ^ n else u.

Definition lowest (n : Z) (sg : bool) : Z := if sg then - 2 ^ (n - 1) else 0.
Definition highest (n : Z) (sg : bool) : Z := if sg then 2 ^ (n - 1) - 1 else 2 ^ n - 1.

(** The number of [n] bits that is the nearest to [z]. *)
Definition nearest (n : Z) (sg : bool) (z : Z) : Z := Z.max (lowest n sg) (Z.min z (highest n sg)).

(** [n] bits from bit [o] are in the memory. *)
Definition inside (m : list Z) (o n : Z) : Prop := 0 <= o /\ 1 <= n /\ o + n <= 8 * Z.of_nat (length m).

(** [m'] is [m] but for [n] bits from bit [o]. *)
Definition same_but (m m' : list Z) (o n : Z) : Prop :=
  length m' = length m /\ bytes m' /\ forall i, 0 <= i -> i < o \/ o + n <= i -> bit m' i = bit m i.
