(** The types that a tree of data should give (IntrospectionStructure.h 100-172), independent of the code. *)
From Verif Require Import Base IntText_Spec Isr_Model Isr_Spec Rsd_Model.

(** name, type, dimensions, size of one element *)
Definition member := (text * text * list Z * Z)%type.
Definition name_of (m : member) : text := fst (fst (fst m)).

(** a name without brackets *)
Definition plain (b : text) : Prop := b <> [] /\ ~ In 91 b.
(** [l] are the names b[i], b[i+1], ... *)
Inductive array_names (b : text) : Z -> list text -> Prop :=
| An_nil i : array_names b i []
| An_cons i s l : decimal_text s i -> array_names b (i + 1) l -> array_names b i ((b ++ 91 :: s ++ [93]) :: l).

(** the leaf that names the type says [t] *)
Definition says (id : option text) (children : list (text * content)) (t : text) : Prop :=
  t <> [] /\ exists i ty ds pre post, id = Some i /\ children = pre ++ (i, Lf ty ds (Some t)) :: post /\ ~ In i (map fst pre).
(** the type of a node whose name without brackets is [base]: the one it says, or AutoGenerated followed by the name *)
Definition named (id : option text) (base : text) (children : list (text * content)) (t : text) : Prop :=
  says id children t \/
  ((forall i, id = Some i -> ~ In i (map fst children)) /\ t = [65;117;116;111;71;101;110;101;114;97;116;101;100] ++ base).

(** the dimensions of a member: none, or one of a single element, is a scalar *)
Definition shape (dims : list Z) : list Z := match dims with [1] => [] | d => d end.

(** The children of a node describe the members [ms], and the nodes below it the types [ts]. Structured children (one node, or the elements
    of one array) come last. *)
Inductive describes (id : option text) : list (text * content) -> list member -> list (text * list member) -> Prop :=
| Ds_nil : describes id [] [] []
| Ds_id n ty ds str r ms ts :
    id = Some n -> describes id r ms ts -> describes id ((n, Lf ty ds str) :: r) ms ts
| Ds_leaf n ty ds str s r ms ts :
    id <> Some n -> assoc basic_types ty = Some s -> (length ds <= 3)%nat -> Forall (fun d => 1 <= d < 2 ^ 32) ds ->
    ~ In n (map name_of ms) -> describes id r ms ts -> describes id ((n, Lf ty ds str) :: r) ((n, ty, shape ds, s) :: ms) ts
| Ds_node b sub t ms ts :
    plain b -> named id b sub t -> describes id sub ms ts ->
    describes id [(b, Nd sub)] [(b, t, [], declared_size ms)] ((t, ms) :: ts)
| Ds_array b sub t ms ts others l :
    plain b -> named id b sub t -> describes id sub ms ts -> map fst others = l -> array_names b 1 l ->
    1 + Z.of_nat (length l) < 2 ^ 32 ->
    describes id ((b ++ [91; 48; 93], Nd sub) :: others) [(b, t, shape [1 + Z.of_nat (length l)], declared_size ms)] ((t, ms) :: ts).

(** the type of the whole tree: of its name (without brackets), or AutoGeneratedRoot if it has none *)
Definition root_named (id name : option text) (children : list (text * content)) (t : text) : Prop :=
  match name with
  | Some n => plain n /\ named id n children t
  | None => named id [82;111;111;116] children t
  end.
