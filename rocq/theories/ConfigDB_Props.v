(** C31: the configuration database is a tree of named values. *)
From Coq Require Import String Ascii.
From Verif Require Import Base Paths Map_Model ConfigDB_Model ConfigDB_Spec ConfigDB_Proofs.
Open Scope string_scope. Open Scope nat_scope. Open Scope list_scope.

(** The hash of the names (FNV-1a, UnorderedMap.h). *)
Definition name_hash (s : string) : Z := fnv64 (map (fun c => Z.of_nat (nat_of_ascii c)) (list_ascii_of_string s)).

(** Every history of calls answers as the tree does, whatever the values and the names, provided that the names used have
    different hashes, the paths given are names separated by single dots, and no Create goes through a value. *)
Theorem C31_history_partial : forall (V : Type) (H : string -> Z) (l : list (sop V)),
  distinct_hashes H (flat_map used l) -> Forall good_paths l -> all_clear empty l ->
  exists s, exec H init (map call l) = Some (fst (srun empty l), s).
Proof.
  intros V H l D G C. destruct (exec_ok H (flat_map used l) D l init empty (sim_init H _) G (fun n I => I) C) as (s & E & _). exists s. exact E.
Qed.
Print Assumptions C31_history_partial.

(** In the tree: what was written at a path is read there by any later call, until the path or one above is written, deleted or made again. *)
Definition touches (t : tree Z) (o : sop Z) (p : path) : Prop :=
  match o with SWrite n _ | SDelete n => exists r, p = at_ t ++ n :: r | _ => False end.
Fixpoint untouched (t : tree Z) (l : list (sop Z)) (p : path) : Prop := match l with [] => True | o :: r => ~ touches t o p /\ untouched (snd (sstep t o)) r p end.
Lemma mkdirs_keep (p : path) v : forall l (t : tree Z) base, ent t p = Some (Val v) -> ent (mkdirs t base l) p = Some (Val v).
Proof.
  induction l as [|n l IH]; intros t base E; [exact E|]. cbn [mkdirs]. apply IH. unfold mkdir. destruct (ent t (base ++ [n])) eqn:Q; [exact E|]. cbn [ent]. destruct (path_eqb (base ++ [n]) p) eqn:B; [|exact E]. apply path_eqb_spec in B. congruence.
Qed.
Lemma sstep_keep (t : tree Z) o p v : ~ touches t o p -> ent t p = Some (Val v) -> ent (snd (sstep t o)) p = Some (Val v).
Proof.
  intros N E. destruct o as [n w|n|q|q|q|q|i|n| |n| |i|]; cbn [sstep touches] in *; try exact E.
  - destruct (String.eqb n ""); [exact E|]. cbn [snd set ent]. destruct (strip (at_ t ++ [n]) p) as [r|] eqn:S; [|exact E]. apply strip_spec in S. exfalso. apply N. exists r. rewrite S, <- app_assoc. reflexivity.
  - unfold mk. destruct (ent t ([] ++ q)); [exact E|]. cbn [snd move_to ent]. apply mkdirs_keep. exact E.
  - unfold mk. destruct (ent t (at_ t ++ q)); [exact E|]. cbn [snd move_to ent]. apply mkdirs_keep. exact E.
  - unfold go. destruct (is_dir t q); exact E.
  - unfold go. destruct (is_dir t (at_ t ++ q)); exact E.
  - destruct (nth_error (names t (at_ t)) i); [|exact E]. unfold go. destruct (is_dir _ _); exact E.
  - destruct ((1 <=? n) && (n <=? List.length (at_ t))); exact E.
  - destruct (ent t (at_ t ++ [n])) eqn:Q; [|exact E]. cbn [snd del ent]. destruct (strip (at_ t ++ [n]) p) as [r|] eqn:S; [|exact E]. apply strip_spec in S. exfalso. apply N. exists r. rewrite S, <- app_assoc. reflexivity.
Qed.
Lemma srun_keep : forall l (t : tree Z) p v, untouched t l p -> ent t p = Some (Val v) -> ent (snd (srun t l)) p = Some (Val v).
Proof.
  induction l as [|o l IH]; intros t p v U E; [exact E|]. destruct U as [N U]. cbn [srun]. pose proof (sstep_keep t o p v N E) as K. destruct (sstep t o) as [a t1]. cbn [snd] in *. specialize (IH t1 p v U K). destruct (srun t1 l). exact IH.
Qed.
Lemma srun_app : forall l m (t : tree Z), srun t (l ++ m) = (fst (srun t l) ++ fst (srun (snd (srun t l)) m), snd (srun (snd (srun t l)) m)).
Proof.
  induction l as [|o l IH]; intros m t; [cbn [app srun fst snd]; destruct (srun t m); reflexivity|]. cbn [app srun]. destruct (sstep t o) as [a t1]. rewrite IH. destruct (srun t1 l) as [al t2]. reflexivity.
Qed.
Theorem C31_read_last_written_partial : forall (H : string -> Z) (before between : list (sop Z)) (n m : string) (v : Z),
  let t0 := snd (srun empty before) in
  let t1 := snd (sstep t0 (SWrite n v)) in
  let t2 := snd (srun t1 between) in
  let l := before ++ SWrite n v :: between ++ [SRead m] in
  n <> "" -> untouched t1 between (at_ t0 ++ [n]) -> at_ t2 ++ [m] = at_ t0 ++ [n] ->
  distinct_hashes H (flat_map used l) -> Forall good_paths l -> all_clear empty l ->
  exists al s, exec H init (map call l) = Some (al ++ [Value (Some v)], s).
Proof.
  intros H before between n m v t0 t1 t2 l Nn U E D G C. destruct (C31_history_partial Z H l D G C) as (s & X). assert (Q : exists al, fst (srun empty l) = al ++ [Value (Some v)]); [|destruct Q as (al & Q); exists al, s; rewrite X, Q; reflexivity].
  unfold l. rewrite srun_app. cbn [fst]. fold t0. cbn [srun]. rewrite (surjective_pairing (sstep t0 (SWrite n v))). fold t1. rewrite srun_app. fold t2. cbn [srun]. change (sstep t2 (SRead m)) with (Value (match ent t2 (at_ t2 ++ [m]) with Some (Val v) => Some v | _ => None end), t2). rewrite E. unfold t2 at 1.
  rewrite (srun_keep between t1 (at_ t0 ++ [n]) v U).
  - destruct (srun t1 between) as [bl t']. cbn [fst snd]. exists (fst (srun empty before) ++ fst (sstep t0 (SWrite n v)) :: bl). rewrite <- app_assoc. reflexivity.
  - unfold t1. cbn [sstep]. rewrite (proj2 (String.eqb_neq n "") Nn). cbn [snd set ent]. rewrite (proj2 (strip_spec (at_ t0 ++ [n]) (at_ t0 ++ [n]) [])) by (rewrite app_nil_r; reflexivity). reflexivity.
Qed.
Print Assumptions C31_read_last_written_partial.

(** A failed move or delete leaves the cursor where it was: it changes nothing that can be seen later. *)
Theorem C31_failed_kept : forall (V : Type) (t : tree V) (o : sop V), match o with SCreateAbsolute _ => False | _ => True end -> fst (sstep t o) = Ok false -> at_ (snd (sstep t o)) = at_ t /\ ent (snd (sstep t o)) = ent t /\ names (snd (sstep t o)) = names t.
Proof.
  intros V t o A E. destruct o as [n v|n|q|q|q|q|i|n| |n| |i|]; cbn [sstep] in *; try discriminate; try contradiction; auto.
  - destruct (String.eqb n ""); [auto|discriminate].
  - unfold mk in *. destruct (ent t (at_ t ++ q)); [auto|discriminate].
  - unfold go in *. destruct (is_dir t q); [discriminate|auto].
  - unfold go in *. destruct (is_dir t (at_ t ++ q)); [discriminate|auto].
  - destruct (nth_error (names t (at_ t)) i); [|auto]. unfold go in *. destruct (is_dir _ _); [discriminate|auto].
  - destruct ((1 <=? n) && (n <=? List.length (at_ t))); [discriminate|auto].
  - destruct (ent t (at_ t ++ [n])); [discriminate|auto].
Qed.
Print Assumptions C31_failed_kept.

(** ** Findings *)
(** CreateAbsolute("A.x.y") where A.x is a value: the cast of the value to a node fails and currentNode, NULL, is used. *)
Theorem C31_create_through_value_refuted : exists l : list (op Z), exec name_hash init l = None.
Proof. exists [CreateAbsolute "A"; Write "x" 1%Z; CreateAbsolute "A.x.y.z"]. vm_compute. reflexivity. Qed.
Print Assumptions C31_create_through_value_refuted.
(** A failed CreateAbsolute leaves the cursor at the root. *)
Theorem C31_create_failed_moves_refuted : exists l p s n m, n <> m /\ exec (V := Z) name_hash init (l ++ [GetName; CreateAbsolute p; GetName]) = Some ([Ok true; Ok true; Name n; Ok false; Name m], s).
Proof.
  exists [CreateAbsolute "A"; CreateAbsolute "B"], "A". eexists. exists (Some "B"), None. split; [discriminate|]. vm_compute. reflexivity.
Qed.
Print Assumptions C31_create_failed_moves_refuted.
(** Two names with the same hash: writing the second replaces the first, and reading the first returns the value of the second. *)
Theorem C31_hash_collision_refuted : ~ (forall l : list (sop Z), Forall good_paths l -> all_clear empty l -> exists s, exec name_hash init (map call l) = Some (fst (srun empty l), s)).
Proof.
  intro C. destruct (C [SWrite "8yn0iYCKYHlIj4-BwPqk" 1%Z; SWrite "GReLUrM4wMqfg9yzV3KQ" 2%Z; SRead "8yn0iYCKYHlIj4-BwPqk"; SGetNumberOfChildren]) as (s & E); [repeat constructor|repeat constructor|]. vm_compute in E. discriminate.
Qed.
Print Assumptions C31_hash_collision_refuted.
(** A path that begins or ends with two dots, is not the path of its names: Move does not find the node that Create made
    from the same text. *)
Theorem C31_dots_refuted : exists p q s s', exec (V := Z) name_hash init [CreateAbsolute p; MoveToRoot; MoveAbsolute p] = Some ([Ok true; Ok true; Ok false], s) /\
  exec (V := Z) name_hash init [CreateAbsolute q; MoveToRoot; MoveAbsolute q] = Some ([Ok true; Ok true; Ok false], s').
Proof. exists "..A.B", "A.B..". eexists. eexists. split; vm_compute; reflexivity. Qed.
Print Assumptions C31_dots_refuted.
(** Writing a value with the name of a directory removes the directory. *)
Theorem C31_write_over_directory_refuted : exists (n m : string) (v : Z) s, exec name_hash init [CreateAbsolute n; Write m v; MoveToRoot; Write n v; MoveAbsolute n] = Some ([Ok true; Ok true; Ok true; Ok true; Ok false], s).
Proof. exists "A", "x", 1%Z. eexists. vm_compute. reflexivity. Qed.
Print Assumptions C31_write_over_directory_refuted.

(** ** Example *)
Fixpoint clear_b (t : tree Z) (base a b : path) : bool :=
  match b with [] => true | x :: b' => match b' with [] => true | _ => match ent t (base ++ a ++ [x]) with Some (Val _) => false | _ => clear_b t base (a ++ [x]) b' end end end.
Lemma clear_b_ok t base p : clear_b t base [] p = true -> no_value_on t base p.
Proof.
  intros E a b v -> Na Nb Q. assert (K : forall a c, a <> [] -> clear_b t base c (a ++ b) = true -> ent t (base ++ c ++ a) = Some (Val v) -> False); [|exact (K a [] Na E Q)]. clear a Na E Q.
  induction a as [|x a IH]; intros c Na E Q; [congruence|]. cbn [app] in E.
  assert (F : clear_b t base c (x :: a ++ b) = match ent t (base ++ c ++ [x]) with Some (Val _) => false | _ => clear_b t base (c ++ [x]) (a ++ b) end). { cbn [clear_b]. destruct (a ++ b) eqn:Z; [apply app_eq_nil in Z; destruct Z; congruence|]. reflexivity. }
  rewrite F in E. destruct a as [|y a]; [rewrite Q in E; discriminate|]. apply (IH (c ++ [x])); [discriminate| |rewrite <- app_assoc; exact Q]. destruct (ent t (base ++ c ++ [x])) as [[|]|]; [exact E|discriminate|exact E].
Qed.
Definition ex_ops : list (sop Z) :=
  [SCreateAbsolute ["A"; "B"]; SWrite "x" 1%Z; SMoveToAncestor 1; SWrite "y" 2%Z; SCreateRelative ["C"]; SWrite "x" 3%Z; SMoveAbsolute ["A"; "B"]; SRead "x"; SMoveToAncestor 2; SMoveToAncestor 1; SMoveRelative ["A"; "C"]; SRead "x";
   SMoveToAncestor 1; SDelete "B"; SMoveAbsolute ["A"; "B"]; SGetNumberOfChildren; SGetChildName 1; SMoveToChild 1; SGetName; SRead "x"; SCreateAbsolute ["A"; "C"]; SGetName].
Example C31_ex : distinct_hashes name_hash (flat_map used ex_ops) /\ Forall good_paths ex_ops /\ all_clear empty ex_ops /\
  fst (srun empty ex_ops) = [Ok true; Ok true; Ok true; Ok true; Ok true; Ok true; Ok true; Value (Some 1%Z); Ok true; Ok false; Ok true; Value (Some 3%Z);
    Ok true; Ok true; Ok false; Number 2; Name (Some "C"); Ok true; Name (Some "C"); Value (Some 3%Z); Ok false; Name None].
Proof.
  split; [|split; [|split]].
  - assert (forall a b, In a ["A"; "B"; "x"; "y"; "C"] -> In b ["A"; "B"; "x"; "y"; "C"] -> name_hash a = name_hash b -> a = b).
    { intros a b I J E. repeat (destruct I as [<- |I]); try destruct I; repeat (destruct J as [<- |J]); try destruct J; try reflexivity; vm_compute in E; discriminate. }
    intros a b I J. assert (T : forall c, In c (flat_map used ex_ops) -> In c ["A"; "B"; "x"; "y"; "C"]) by (intros c K; cbn in K; cbn; intuition). apply H; apply T; assumption.
  - repeat constructor; try discriminate; apply no_dot_b; reflexivity.
  - unfold ex_ops. repeat (split; [first [exact Logic.I | apply clear_b_ok; vm_compute; reflexivity]|]). exact Logic.I.
  - vm_compute. reflexivity.
Qed.
