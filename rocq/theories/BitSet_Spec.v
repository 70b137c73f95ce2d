(** The set of bit indices a BitSet represents, as the natural number whose binary digits are its members. *)
From Verif Require Import Base BitSet_Model.

Definition is_word (w : Z) : Prop := 0 <= w < 2 ^ 32.
Definition bitset (a : list Z) : Prop := Forall is_word a /\ 32 * nel a < 2 ^ 32.
Fixpoint value (a : list Z) : Z := match a with [] => 0 | w :: r => w + 2 ^ 32 * value r end.
(** i is a member *)
Definition member (a : list Z) (i : Z) : bool := Z.testbit (value a) i.
