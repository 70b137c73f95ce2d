(** What the interpolating broker should do, without reference to its code. *)
From Coq Require Import QArith.
From Verif Require Import Base Itp_Model.
Local Open Scope Z_scope.

(** The value at time [x] of the line from ([t0], [v0]) to ([t1], [v1]). *)
Definition line (t0 : Z) (v0 : Q) (t1 : Z) (v1 : Q) (x : Z) : Q :=
  (v0 + (v1 - v0) * (inject_Z (x - t0) / inject_Z (t1 - t0)))%Q.

(** The part of a number before the point. *)
Definition whole (q : Q) (z : Z) : Prop :=
  (0 <= q /\ inject_Z z <= q /\ q < inject_Z (z + 1) \/ q <= 0 /\ inject_Z (z - 1) < q /\ q <= inject_Z z)%Q.

(** The value of a type that stands for a number. *)
Definition stands_for (k : kind) (q g : Q) : Prop :=
  match k with
  | KFlt => (g == q)%Q
  | KInt _ _ => exists z, whole q z /\ g = inject_Z z
  end.

(** A value of a type. *)
Definition typed (k : kind) (q : Q) : Prop :=
  match k with
  | KFlt => True
  | KInt bits sgn => exists z, q = inject_Z z /\ in_ty (ITy bits sgn) z
  end.

(** The number [v1] - [v0] can be computed in the type: no wrap-around. *)
Definition fits (k : kind) (v0 v1 : Q) : Prop :=
  match k with
  | KFlt => True
  | KInt bits sgn =>
    if bits <? 32 then True
    else if sgn then (inject_Z (- 2 ^ (bits - 1)) <= v1 - v0 <= inject_Z (2 ^ (bits - 1) - 1))%Q
    else (v0 <= v1)%Q
  end.

(** The values of a signal at a sample. *)
Definition signal (s : source) (n i : nat) : list Q := nth i (s_values s n) [].

(** A usable source from the sample [a] to the sample [z]: Synchronise succeeds, time grows, the values are values
    of the types of the signals and have the sizes of the signals. *)
Record usable (s : source) (kinds : list kind) (sizes : list nat) (a z : nat) : Prop := {
  us_sync : forall n, (a <= n < z)%nat -> s_sync s n = true;
  us_time : forall n, (a <= n < z)%nat -> s_time s n < s_time s (S n);
  us_width : forall n, (a <= n <= z)%nat -> 0 <= s_time s n < 2 ^ 64;
  us_signals : forall n, (a <= n <= z)%nat -> length (s_values s n) = length kinds;
  us_sizes : length sizes = length kinds;
  us_size : forall n i, (a <= n <= z)%nat -> (i < length kinds)%nat -> length (signal s n i) = nth i sizes O;
  us_typed : forall n i, (a <= n <= z)%nat -> (i < length kinds)%nat -> Forall (typed (nth i kinds KFlt)) (signal s n i);
  us_period : 0 < s_period s }.

(** All the elements of a signal change alike; a signal of one element does. *)
Definition uniform (s : source) (kinds : list kind) (sizes : list nat) (a z : nat) : Prop :=
  forall i n n' e e', (i < length kinds)%nat -> (a <= n <= z)%nat -> (a <= n' <= z)%nat ->
    (e < nth i sizes O)%nat -> (e' < nth i sizes O)%nat ->
    (nth e (signal s n' i) 0 - nth e (signal s n i) 0 == nth e' (signal s n' i) 0 - nth e' (signal s n i) 0)%Q.

(** No difference of values wraps around. *)
Definition moderate (s : source) (kinds : list kind) (sizes : list nat) (a z : nat) : Prop :=
  forall i n n' e, (i < length kinds)%nat -> (a <= n)%nat -> (n < n')%nat -> (n' <= z)%nat -> (e < nth i sizes O)%nat ->
    fits (nth i kinds KFlt) (nth e (signal s n i) 0%Q) (nth e (signal s n' i) 0%Q).

(** The broker has the signals of the source. *)
Definition matches (b : broker) (kinds : list kind) : Prop := map c_kind (b_copies b) = kinds.

(** The sample that is needed at time [x]: the first one, from [a], that is not older. *)
Definition needed (s : source) (a : nat) (x : Z) (n : nat) : Prop :=
  (a <= n)%nat /\ x <= s_time s n /\ forall n', (a <= n')%nat -> (n' < n)%nat -> s_time s n' < x.

(** What the GAM reads: element [e] of signal [i]. *)
Definition gam (b : broker) (i e : nat) : Q := nth e (nth i (map c_gam (b_copies b)) []) 0%Q.
