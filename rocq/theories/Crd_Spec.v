(** What a user of the register of classes relies on. *)
From Verif Require Import Base Crd_Model.

(** The names of the classes, in the order in which they were registered *)
Definition names (r : registry) : list text := map i_name (items r).
(** The name is library::class, split at the first two colons; or a class alone, which is then the name of the library too *)
Definition means (s lib cls : text) : Prop :=
  (s = lib ++ [58; 58] ++ cls /\ forall x y, s = x ++ [58; 58] ++ y -> (length lib <= length x)%nat) \/
  (s = lib /\ s = cls /\ forall x y, s <> x ++ [58; 58] ++ y).
(** The class is the k-th of the list and not before *)
Definition first_at (l : list text) (cls : text) (k : nat) : Prop :=
  nth_error l k = Some cls /\ forall j, (j < k)%nat -> nth_error l j <> Some cls.
(** The file that is opened for a library: the first of .so, .gam and .drv that there is *)
Definition so : text := [46; 115; 111].
Definition gam : text := [46; 103; 97; 109].
Definition drv : text := [46; 100; 114; 118].
Definition file_of (libs : text -> option (list text)) (lib file : text) (classes : list text) : Prop :=
  libs file = Some classes /\
  (file = lib ++ so \/ (file = lib ++ gam /\ libs (lib ++ so) = None) \/ (file = lib ++ drv /\ libs (lib ++ so) = None /\ libs (lib ++ gam) = None)).

(** A history: classes are registered and looked for; the register stays under 2^32 classes *)
Inductive history (libs : text -> option (list text)) : registry -> Prop :=
| H_none : history libs no_classes
| H_add r name : history libs r -> Z.of_nat (length (items r)) + 1 < 2 ^ 32 -> history libs (add r name)
| H_find r s k r' : history libs r -> find_class libs r s = (k, r') -> Z.of_nat (length (items r')) < 2 ^ 32 -> history libs r'.
