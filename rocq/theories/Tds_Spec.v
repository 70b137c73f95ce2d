(** The layout of a type description, and the names of the basic types. *)
From Coq Require Export String.
From Verif Require Import Base.
Local Open Scope Z_scope.

Definition word (w : Z) : Prop := 0 <= w < 65536.
Definition bit (b : bool) : Z := if b then 1 else 0.
(** a basic type: bit 0 clear, bit 1 the constness, four bits for the kind and ten for the size *)
Definition basic (c : bool) (kind size : Z) : Z := 2 * bit c + 4 * kind + 64 * size.
(** a class: bit 0 set, bit 1 the constness, fourteen bits for the code of the class *)
Definition class (c : bool) (code : Z) : Z := 1 + 2 * bit c + 4 * code.
(** the same type up to constness: the same but for bit 1 *)
Definition same_type (a b : Z) : Prop := Z.odd a = Z.odd b /\ a / 4 = b / 4.

(** kind and size of each name: 0 signed, 1 unsigned, 2 floating point, 4 string, 6 character, 10 boolean *)
Definition names : list (string * (Z * Z)) :=
  [ ("int8", (0, 8)); ("int16", (0, 16)); ("int32", (0, 32)); ("int64", (0, 64));
    ("uint8", (1, 8)); ("uint16", (1, 16)); ("uint32", (1, 32)); ("uint64", (1, 64));
    ("float32", (2, 32)); ("float64", (2, 64)); ("bool", (10, 8)); ("string", (4, 64)); ("char8", (6, 8)); ("void", (0, 0)) ]%string.
Definition no_type : Z := basic false 15 0.
