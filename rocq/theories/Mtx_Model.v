(** Model of the matrix operations, Source/Core/BareMetal/L0Types/Matrix.h. *)
From Verif Require Import Base.
Open Scope nat_scope.

(** The arithmetic of the element type.  Simplification: floating point is exact here (no rounding,
    no overflow), and signed integers do not overflow; unsigned integers are the residues modulo 2^w.
    [junk] is the content of memory that was allocated and not written. *)
Record ops (T : Type) := Ops {
  zero : T; one : T; add : T -> T -> T; mul : T -> T -> T; opp : T -> T; div : T -> T -> T; is0 : T -> bool; junk : T }.
Arguments zero {T}. Arguments one {T}. Arguments add {T}. Arguments mul {T}. Arguments opp {T}.
Arguments div {T}. Arguments is0 {T}. Arguments junk {T}.

(** Memory as a map from addresses, counted in elements, to elements. *)
Definition memory (T : Type) := Z -> T.
Definition set {T} (m : memory T) (a : Z) (x : T) : memory T := fun b => if Z.eqb b a then x else m b.

(** A matrix object: its numbers of rows and columns and the address of each element,
    Matrix.h:518-537 (operator[]) and 605-619 (operator()). *)
Record view := View { nrows : nat; ncols : nat; cell : nat -> nat -> Z }.

(** Matrix.h:418-438 with 529-534: one block, indexed with a 32-bit product. *)
Definition block (base : Z) (r c : nat) : view :=
  View r c (fun i j => (base + uwrap 32 (Z.of_nat i * Z.of_nat c) + Z.of_nat j)%Z).

(** Matrix.h:390-416 with 523-527: an array of pointers to rows. *)
Definition by_rows (ptrs : list Z) (c : nat) : view :=
  View (List.length ptrs) c (fun i j => (nth i ptrs 0 + Z.of_nat j)%Z).

(** A for loop from 0 to n - 1. *)
Fixpoint loop {A : Type} (n : nat) (body : nat -> A -> A) (a : A) : A :=
  match n with 0 => a | S k => body k (loop k body a) end.

Section model.
  Context {T : Type}.
  Variable O : ops T.

  (** Matrix.h:631-656.  The Boolean is the returned value. *)
  Definition product (this factor result : view) (m : memory T) : bool * memory T :=
    if (nrows factor =? ncols this) && (nrows result =? nrows this) && (ncols result =? ncols factor) then
      (true, loop (nrows this) (fun i =>
             loop (ncols factor) (fun j m =>
               loop (ncols this) (fun k m =>
                 set m (cell result i j) (add O (m (cell result i j)) (mul O (m (cell this i k)) (m (cell factor k j)))))
               (set m (cell result i j) (zero O)))) m)
    else (false, m).

  (** Matrix.h:658-679. *)
  Definition sum (this addend result : view) (m : memory T) : bool * memory T :=
    if (nrows addend =? nrows this) && (nrows result =? nrows this)
       && ((ncols addend =? ncols this) && (ncols result =? ncols this)) then
      (true, loop (nrows this) (fun i =>
             loop (ncols this) (fun j m =>
               set m (cell result i j) (add O (m (cell this i j)) (m (cell addend i j))))) m)
    else (false, m).

  (** Matrix.h:681-705; the writes go through the pointer and the 32-bit index of operator[]. *)
  Definition copy (this from : view) (m : memory T) : bool * memory T :=
    if (nrows from =? nrows this) && (ncols from =? ncols this) then
      (true, loop (nrows this) (fun i =>
             loop (ncols this) (fun j m => set m (cell this i j) (m (cell from i j)))) m)
    else (false, m).

  (** Matrix.h:707-746. *)
  Definition submatrix (this : view) (r0 r1 c0 c1 : nat) (sub : view) (m : memory T) : bool * memory T :=
    if (r0 <=? r1) && (c0 <=? c1) && (r1 <? nrows this) && (c1 <? ncols this) then
      if (nrows sub =? r1 - r0 + 1) && (ncols sub =? c1 - c0 + 1) then
        (true, loop (r1 - r0 + 1) (fun i =>
               loop (c1 - c0 + 1) (fun j m => set m (cell sub i j) (m (cell this (r0 + i) (c0 + j))))) m)
      else (false, m)
    else (false, m).

  (** Matrix.h:748-772. *)
  Definition transpose (this tr : view) (m : memory T) : bool * memory T :=
    if (nrows this =? ncols tr) && (ncols this =? nrows tr) then
      (true, loop (nrows this) (fun i =>
             loop (ncols this) (fun j m => set m (cell tr j i) (m (cell this i j)))) m)
    else (false, m).

  (** A matrix that was just allocated, as the map of its elements. *)
  Definition fresh := nat -> nat -> T.
  Definition put (s : fresh) (r c : nat) (x : T) : fresh := fun r' c' => if (r' =? r) && (c' =? c) then x else s r' c'.

  (** Matrix.h:803-810 and 909-917: one row copied to row [n] of the smaller matrix, without column
      [k]; the counter m goes with the matrix. *)
  Definition copy_row (cols k n : nat) (row : nat -> T) (s : fresh) : fresh :=
    fst (loop cols (fun j st => if j =? k then st else (put (fst st) n (snd st) (row j), S (snd st))) (s, 0)).

  (** Matrix.h:800-812: the matrix without the first row and without column [k]; the counter n goes
      with the matrix. *)
  Definition first_minor (n k : nat) (a : fresh) : fresh :=
    fst (loop (n - 1) (fun i st => (copy_row n k (snd st) (a (S i)) (fst st), S (snd st))) (fun _ _ => junk O, 0)).

  (** Matrix.h:816 and 924. *)
  Definition sign (k : nat) : T := if Nat.even k then one O else opp O (one O).

  (** Matrix.h:779-875, Determinant of a square matrix with [n] rows. *)
  Fixpoint det (n : nat) (a : fresh) : T :=
    match n with
    | 0 => zero O
    | S n' =>
      match n' with
      | 0 => a 0 0
      | _ => loop n (fun k acc => add O acc (mul O (mul O (sign k) (a 0 k)) (det n' (first_minor n k a)))) (zero O)
      end
    end.

  Definition elements (v : view) (m : memory T) : fresh := fun i j => m (cell v i j).

  (** Matrix.h:781; the memory is not written. *)
  Definition determinant (this : view) (m : memory T) : option T :=
    if nrows this =? ncols this then Some (det (nrows this) (elements this m)) else None.

  (** Matrix.h:907-920: the matrix without row [i] and column [j], copied over [s]. *)
  Definition minor_into (n i j : nat) (a s : fresh) : fresh :=
    fst (loop n (fun h st => if h =? i then st else (copy_row n j (snd st) (a h) (fst st), S (snd st))) (s, 0)).

  (** Matrix.h:882-988, Inverse. *)
  Definition inverse (this inv : view) (m : memory T) : bool * memory T :=
    let d := match determinant this m with Some d => d | None => zero O end in
    if (ncols this =? nrows this) && (nrows inv =? nrows this) && (ncols inv =? ncols this)
       && (nrows this =? ncols this) && negb (is0 O d) then
      (true, fst (loop (nrows this) (fun i =>
                  loop (ncols this) (fun j st =>
                    let s := minor_into (nrows this) i j (elements this (fst st)) (snd st) in
                    (set (fst st) (cell inv j i) (div O (mul O (det (nrows this - 1) s) (sign (i + j))) d), s)))
                (m, fun _ _ => junk O)))
    else (false, m).
End model.
