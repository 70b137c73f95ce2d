(** Notions to state what the matrix operations do to memory. *)
From Verif Require Import Base Mtx_Model.
Open Scope nat_scope.

(** Address [a] holds an element of [v]. *)
Definition inside (v : view) (a : Z) : Prop := exists i j, i < nrows v /\ j < ncols v /\ cell v i j = a.

(** Different elements of [v] have different addresses. *)
Definition apart (v : view) : Prop :=
  forall i j i' j', i < nrows v -> j < ncols v -> i' < nrows v -> j' < ncols v -> cell v i j = cell v i' j' -> i = i' /\ j = j'.

(** The two matrices share no address. *)
Definition disjoint (v w : view) : Prop := forall a, inside v a -> ~ inside w a.

(** The two matrices share an address only for the same element: they are disjoint, or one is the other. *)
Definition aligned (v w : view) : Prop :=
  forall i j i' j', i < nrows v -> j < ncols v -> i' < nrows w -> j' < ncols w -> cell v i j = cell w i' j' -> i = i' /\ j = j'.

(** Only the elements of [v] may have changed. *)
Definition only {T} (v : view) (m m' : memory T) : Prop := forall a, ~ inside v a -> m' a = m a.

(** Index without the removed one. *)
Definition skip (k m : nat) : nat := if m <? k then m else S m.
