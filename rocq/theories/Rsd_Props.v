(** C68: the types registered from a tree of data. *)
From Verif Require Import Base IntText_Model IntText_Spec IntText_Proofs IntText_Proofs2 Isr_Model Isr_Spec Isr_Proofs Rsd_Model Rsd_Spec Rsd_Proofs.

(** A tree of any depth in which the structured child of every node (one node, or the elements of one array) comes last, whose types have
    distinct names, none of them a basic type or a type of the application, and sizes that fit, is registered: every node becomes a type with
    exactly its leaves and its structured child as members, nothing between them, and each member as large as its type. No other type
    changes. *)
Theorem C68_tree_partial : forall g id name children t ms ts,
  describes id children ms ts -> root_named id name children t -> NoDup (t :: map fst ts) ->
  (forall x, In x ((t, ms) :: ts) ->
     assoc basic_types (fst x) = None /\ (forall l, find g (fst x) <> Some (Native l)) /\ 0 < declared_size (snd x) < 2 ^ 32) ->
  exists g', register_tree g id name children = Some (true, g') /\
    (forall t' m', In (t', m') ((t, ms) :: ts) -> registered_as g' t' m') /\
    (forall other, ~ In other (t :: map fst ts) -> find g' other = find g other).
Proof. exact register_described. Qed.
Print Assumptions C68_tree_partial.

Definition t_uint32 : text := [117;105;110;116;51;50].
Definition t_int32 : text := [105;110;116;51;50].
Definition t_float32 : text := [102;108;111;97;116;51;50].
Definition id_T : text := [84].
Definition n_a : text := [97]. Definition n_b : text := [98]. Definition n_p : text := [112]. Definition n_x : text := [120]. Definition n_y : text := [121].
(** { T = x; a : uint32[2][3]; p[0] = { b : float32 }; p[1] = { ... } } *)
Definition tree : list (text * content) :=
  [(id_T, Lf t_uint32 [] (Some n_x)); (n_a, Lf t_uint32 [2; 3] None);
   (n_p ++ [91;48;93], Nd [(n_b, Lf t_float32 [] None)]); (n_p ++ [91;49;93], Nd [])].
Definition ms_p : list member := [(n_b, t_float32, [], 4)].
Definition t_p : text := auto ++ n_p.
Definition ms_tree : list member := [(n_a, t_uint32, [2; 3], 4); (n_p, t_p, [2], 4)].
Example C68_tree_case :
  describes (Some id_T) tree ms_tree [(t_p, ms_p)] /\ root_named (Some id_T) (Some n_y) tree n_x /\ NoDup [n_x; t_p] /\
  (forall x, In x [(n_x, ms_tree); (t_p, ms_p)] ->
     assoc basic_types (fst x) = None /\ (forall l, find [] (fst x) <> Some (Native l)) /\ 0 < declared_size (snd x) < 2 ^ 32) /\
  exists g' l, register_tree [] (Some id_T) (Some n_y) tree = Some (true, g') /\ find g' n_x = Some (Configured l) /\
               map byteOffset (members l) = [0; 24] /\ class_size l = 32.
Proof.
  split; [|split; [|split; [|split]]].
  - apply Ds_id; [reflexivity|]. apply (Ds_leaf _ n_a t_uint32 [2; 3] None 4); try discriminate; try reflexivity; [cbn; lia|repeat constructor; lia|cbn; intuition discriminate|].
    apply (Ds_array _ n_p [(n_b, Lf t_float32 [] None)] t_p ms_p [] [(n_p ++ [91;49;93], Nd [])] [n_p ++ [91;49;93]]).
    + split; [discriminate|cbn; intuition discriminate].
    + right. split; [|reflexivity]. intros i E. injection E as <-. cbn. intuition discriminate.
    + apply (Ds_leaf _ n_b t_float32 [] None 4); try discriminate; try reflexivity; [cbn; lia|constructor|intros []|apply Ds_nil].
    + reflexivity.
    + apply (An_cons n_p 1 [49] []); [|constructor]. repeat split; cbn; try discriminate. constructor; [unfold is_digit; cbn; lia|constructor].
    + cbn. lia.
  - split; [split; [discriminate|cbn; intuition discriminate]|]. left. split; [discriminate|].
    exists id_T, t_uint32, [], [], (tl tree). repeat split. intros [].
  - repeat constructor; cbn; intuition discriminate.
  - intros x [<-|[<-|[]]]; (split; [reflexivity|]); (split; [intros l; discriminate|cbn; lia]).
  - do 2 eexists. vm_compute. repeat split.
Qed.

(** Whatever the tree is, no type of the application changes. *)
Theorem C68_native : forall g id name children b g' n l,
  register_tree g id name children = Some (b, g') -> find g n = Some (Native l) -> find g' n = Some (Native l).
Proof. exact register_native. Qed.
Print Assumptions C68_native.
Example C68_native_case : let g := [(n_x, Native None)] in
  exists g', register_tree g (Some id_T) (Some n_y) tree = Some (false, g') /\ find g' n_x = Some (Native None).
Proof. eexists. vm_compute. split; reflexivity. Qed.

(** ** What does not hold *)

(** The child that follows a structured child is left out of the type, although the registration succeeds. *)
Theorem C68_following_member_refuted :
  ~ (forall children g' n ty, register_tree [] None (Some n_a) children = Some (true, g') -> In (n, Lf ty [] None) children ->
       exists l e, find g' (auto ++ n_a) = Some (Configured l) /\ In e (members l) /\ memberName e = n).
Proof.
  intros H.
  set (c := [(n_p, Nd [(n_b, Lf t_float32 [] None)]); (n_y, Lf t_uint32 [] None)]).
  assert (R : exists g' l, register_tree [] None (Some n_a) c = Some (true, g') /\ find g' (auto ++ n_a) = Some (Configured l) /\
                           map memberName (members l) = [n_p]).
  { do 2 eexists. vm_compute. repeat split. }
  destruct R as (g' & l & R & Fi & M).
  destruct (H c g' n_y t_uint32 R ltac:(right; left; reflexivity)) as (l' & e & F' & I & N).
  rewrite Fi in F'. injection F' as <-. apply (in_map memberName) in I. rewrite M, N in I. destruct I as [I|[]]. discriminate.
Qed.
Print Assumptions C68_following_member_refuted.

(** The example of IntrospectionStructure.h 107-134 (c1, A2, A3[0], A3[1]) does not give the documented structure: A3 is not an array of two. *)
Definition n_A1 : text := [65;49]. Definition n_A2 : text := [65;50]. Definition n_A3 : text := [65;51].
Definition documented : list (text * content) :=
  [([99;49], Lf t_uint32 [] None); (n_A2, Nd [([100;50], Lf t_float32 [] None)]);
   (n_A3 ++ [91;48;93], Nd [([102;49], Lf t_int32 [] None)]); (n_A3 ++ [91;49;93], Nd [([102;49], Lf t_int32 [] None)])].
Theorem C68_documented_refuted :
  ~ (forall g', register_tree [] None (Some n_A1) documented = Some (true, g') ->
       registered_as g' (auto ++ n_A1) [([99;49], t_uint32, [], 4); (n_A2, auto ++ n_A2, [], 4); (n_A3, auto ++ n_A3, [2], 4)]).
Proof.
  intros H. destruct (H _ ltac:(vm_compute; reflexivity)) as (l & Fi & F & _).
  vm_compute in Fi. injection Fi as <-.
  inversion F as [|? ? ? ? _ F1]; subst. inversion F1 as [|? ? ? ? _ F2]; subst. inversion F2 as [|? ? ? ? A _]; subst.
  vm_compute in A. destruct A as (_ & _ & A & _). discriminate.
Qed.
Print Assumptions C68_documented_refuted.

(** Two nodes of the same name, at any depth, make the registration fail: here y = { p = { y = { b } } }. *)
Theorem C68_same_name_refuted :
  ~ (forall children ms ts, describes None children ms ts -> (forall x, In x ts -> 0 < declared_size (snd x) < 2 ^ 32) -> 0 < declared_size ms < 2 ^ 32 ->
       exists g', register_tree [] None (Some n_y) children = Some (true, g')).
Proof.
  intros H.
  assert (D0 : describes None [(n_b, Lf t_float32 [] None)] [(n_b, t_float32, [], 4)] []).
  { apply (Ds_leaf None n_b t_float32 [] None 4); try discriminate; try reflexivity; [cbn; lia|constructor|intros []|apply Ds_nil]. }
  assert (P : forall n, n = n_y \/ n = n_p -> plain n) by (intros n [-> | ->]; (split; [discriminate|cbn; intuition discriminate])).
  assert (N : forall n l, named None n l (auto ++ n)) by (intros n l; right; split; [intros i E; discriminate|reflexivity]).
  pose proof (Ds_node None n_y _ _ _ _ (P n_y ltac:(auto)) (N n_y _) D0) as D1.
  pose proof (Ds_node None n_p _ _ _ _ (P n_p ltac:(auto)) (N n_p _) D1) as D2.
  destruct (H _ _ _ D2) as (g' & R).
  - intros x [<-|[<-|[]]]; cbn; lia.
  - cbn; lia.
  - vm_compute in R. discriminate.
Qed.
Print Assumptions C68_same_name_refuted.

(** A registration that fails may have registered the types of the inner nodes. *)
Theorem C68_atomic_refuted :
  ~ (forall g id name children g', register_tree g id name children = Some (false, g') -> g' = g).
Proof.
  intros H. pose proof (H [(n_x, Native None)] (Some id_T) (Some n_y) tree _ ltac:(vm_compute; reflexivity)) as E. discriminate.
Qed.
Print Assumptions C68_atomic_refuted.
