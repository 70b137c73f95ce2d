(** C77: a type description holds what it was built with, and names and types correspond. *)
From Verif Require Import Base IntArith_Model Tds_Model Tds_Spec Tds_Proofs.
Local Open Scope Z_scope.

(** Whatever the memory held: the word has the documented layout; a kind or a size too large for its field becomes the
    largest value of the field. *)
Theorem C77_build (g kind size : Z) (c : bool) :
  0 <= kind < 65536 -> 0 <= size < 65536 -> make g c kind size = basic c (Z.min kind 15) (Z.min size 1023).
Proof. exact (make_ok g c kind size). Qed.
Print Assumptions C77_build.
Theorem C77_build_class (g code : Z) (c : bool) : 0 <= code < 16384 -> make_class g c code = class c code.
Proof. exact (make_class_ok g c code). Qed.
Print Assumptions C77_build_class.
Example C77_build_example : make 48879 true 2 64 = basic true 2 64 /\ basic true 2 64 = 4106 /\ make 0 false 2 2000 = basic false 2 1023
  /\ make_class 0 true 300 = 1203.
Proof. vm_compute. auto. Qed.

(** What is read back from a description. *)
Theorem C77_read (c : bool) (kind size : Z) : 0 <= kind < 16 -> 0 <= size < 1024 ->
  is_structured (basic c kind size) = false /\ is_constant (basic c kind size) = c /\
  type_of (basic c kind size) = kind /\ number_of_bits (basic c kind size) = size.
Proof. exact (read_basic c kind size). Qed.
Print Assumptions C77_read.
Theorem C77_read_class (c : bool) (code : Z) : 0 <= code < 16384 ->
  is_structured (class c code) = true /\ is_constant (class c code) = c /\ id_code (class c code) = code.
Proof. exact (read_class c code). Qed.
Print Assumptions C77_read_class.
Example C77_read_example : is_constant (basic true 2 64) = true /\ number_of_bits (basic true 2 64) = 64 /\ id_code (class true 300) = 300.
Proof. vm_compute. auto. Qed.

(** == ignores constness and nothing else; != is its negation. *)
Theorem C77_equal (a b : Z) : (equal a b = true <-> same_type a b) /\ differ a b = negb (equal a b).
Proof. split; [apply equal_ok|reflexivity]. Qed.
Print Assumptions C77_equal.
Theorem C77_equal_basic (c d : bool) (k s k' s' : Z) : 0 <= k < 16 -> 0 <= s < 1024 -> 0 <= k' < 16 -> 0 <= s' < 1024 ->
  (equal (basic c k s) (basic d k' s') = true <-> k = k' /\ s = s').
Proof. exact (equal_basic c d k s k' s'). Qed.
Print Assumptions C77_equal_basic.
(** A basic type never equals a class, and two classes are equal when their codes are. *)
Theorem C77_equal_class (c d : bool) (k s n n' : Z) : 0 <= k -> 0 <= s ->
  equal (basic c k s) (class d n) = false /\ (equal (class c n) (class d n') = true <-> n = n').
Proof. exact (equal_class c d k s n n'). Qed.
Print Assumptions C77_equal_class.
Example C77_equal_example : equal (basic true 2 64) (basic false 2 64) = true /\ equal (basic true 2 64) (basic true 2 32) = false
  /\ equal (class true 3) (basic true 3 0) = false.
Proof. vm_compute. auto. Qed.

(** Every name of the documented table gives its type, every other text and the null pointer the invalid type. *)
Theorem C77_from_name (n : string) :
  (forall k s, In (n, (k, s)) names -> from_name (Some n) = basic false k s) /\
  ((forall p, ~ In (n, p) names) -> from_name (Some n) = no_type) /\ from_name None = no_type.
Proof. exact (from_name_ok n). Qed.
Print Assumptions C77_from_name.
Example C77_from_name_example : In ("uint16"%string, (1, 16)) names /\ from_name (Some "uint17"%string) = no_type.
Proof. split; [cbn; auto 20|reflexivity]. Qed.

(** For every one of the 65536 descriptions, and any other integer: the name reported is the one of its type, and none
    is reported for a type that has none. *)
Theorem C77_to_name (w : Z) :
  (forall n k s, In (n, (k, s)) names -> same_type (basic false k s) w -> to_name w = Some n) /\
  ((forall n k s, In (n, (k, s)) names -> ~ same_type (basic false k s) w) -> to_name w = None).
Proof. exact (to_name_ok w). Qed.
Print Assumptions C77_to_name.
(** From a name to its type and back; from a type to its name and back, up to constness. *)
Theorem C77_round_trip (n : string) (w : Z) :
  (In n (map fst names) -> to_name (from_name (Some n)) = Some n) /\
  (to_name w = Some n -> equal (from_name (Some n)) w = true).
Proof. exact (round_trip n w). Qed.
Print Assumptions C77_round_trip.
Example C77_round_trip_example : In "float32"%string (map fst names) /\ to_name (basic true 2 32) = Some "float32"%string /\ to_name (class false 2) = None.
Proof. split; [cbn; auto 20|vm_compute; auto]. Qed.

(** Numeric: an integer or a floating point number with a size; neither void, nor a boolean, nor a class. *)
Theorem C77_numeric (c : bool) (kind size code : Z) : 0 <= kind < 16 -> 0 <= size < 1024 -> 0 <= code < 16384 ->
  (is_numeric (basic c kind size) = true <-> kind <= 2 /\ 0 < size) /\ is_numeric (class c code) = false.
Proof. exact (numeric_ok c kind size code). Qed.
Print Assumptions C77_numeric.
Example C77_numeric_example : is_numeric (basic true 1 16) = true /\ is_numeric (basic false 0 0) = false /\ is_numeric (basic false 10 8) = false.
Proof. vm_compute. auto. Qed.
