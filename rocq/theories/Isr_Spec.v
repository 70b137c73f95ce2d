(** What the description of a member and of a type should say, independent of the code. *)
From Verif Require Import Base IntText_Spec Isr_Model.

(** ** The modifiers of a member (IntrospectionEntry.h 105-121): const or not, the pointers (each const or not), the dimensions *)
Record declarator := Declarator { base_const : bool; pointers : list bool; arrays : list Z }.

Definition const_mark (b : bool) : text := if b then [67] else [].
(** [t] writes the dimensions, each as a decimal number between brackets *)
Inductive writes_dimensions : list Z -> text -> Prop :=
| Wd_nil : writes_dimensions [] []
| Wd_cons d ds s t : decimal_text s d -> writes_dimensions ds t -> writes_dimensions (d :: ds) (91 :: s ++ 93 :: t).
(** [t] is the text of the modifiers for the declarator *)
Definition writes (d : declarator) (t : text) : Prop :=
  exists s, writes_dimensions (arrays d) s /\
            t = const_mark (base_const d) ++ flat_map (fun b => 42 :: const_mark b) (pointers d) ++ s.

(** ** The layout of a type, in terms of what the introspection reports *)

Fixpoint product (l : list Z) : Z := match l with [] => 1 | n :: r => n * product r end.
(** the dimensions reported for a member *)
Definition reported (e : entry) : list Z :=
  map (fun k => get_number_of_elements e (Z.of_nat k)) (seq 0 (Z.to_nat (get_number_of_dimensions e))).
(** the bytes that the member needs *)
Definition bytes (e : entry) : Z := size e * product (reported e).
(** the members follow each other from the byte [at_] to the byte [end_], with nothing between them *)
Fixpoint tiles (at_ : Z) (es : list entry) (end_ : Z) : Prop :=
  match es with [] => at_ = end_ | e :: r => byteOffset e = at_ /\ tiles (at_ + bytes e) r end_ end.

(** ** What a configuration declares *)

(** the size of a type in the registry, if it is known: of a basic type, or the size of its class *)
Definition size_of (g : registry) (type : text) (n : Z) : Prop :=
  0 <= n /\
  (assoc basic_types type = Some n \/
   assoc basic_types type = None /\ exists i l, find g type = Some i /\ introspection i = Some l /\ n = class_size l).

(** one member declared: name, type, dimensions (none, or one of a single element, is a scalar) *)
Inductive declares (g : registry) : list child -> list (text * text * list Z * Z) -> Prop :=
| De_nil : declares g [] []
| De_leaf cs ms : declares g cs ms -> declares g (Leaf :: cs) ms
| De_scalar name type n s cs ms :
    n = Absent \/ n = Values [1] -> size_of g type s -> declares g cs ms ->
    declares g (Node name (Some type) n :: cs) ((name, type, [], s) :: ms)
| De_array name type ds s cs ms :
    ds <> [1] -> ds <> [] -> (length ds <= 3)%nat -> Forall (fun d => 1 <= d < 2 ^ 32) ds -> size_of g type s -> declares g cs ms ->
    declares g (Node name (Some type) (Values ds) :: cs) ((name, type, ds, s) :: ms).

(** the size of what is declared *)
Fixpoint declared_size (ms : list (text * text * list Z * Z)) : Z :=
  match ms with [] => 0 | (_, _, ds, s) :: r => s * product ds + declared_size r end.

(** a member of the introspection is as declared *)
Definition as_declared (e : entry) (m : text * text * list Z * Z) : Prop :=
  let '(name, type, ds, s) := m in memberName e = name /\ typeName e = type /\ reported e = ds /\ size e = s.

(** the registry knows the type [name] as declared: every member, with no gap and no overlap, and the size *)
Definition registered_as (g : registry) (name : text) (ms : list (text * text * list Z * Z)) : Prop :=
  exists l, find g name = Some (Configured l) /\ Forall2 as_declared (members l) ms /\
            tiles 0 (members l) (class_size l) /\ class_size l = declared_size ms.
