(** C44: the actions of the configuration parsers on the database, against the tree of the specification. *)
From Coq Require Import String Ascii.
From Verif Require Import Base Paths ConfigDB_Model ConfigDB_Spec ConfigDB_Proofs Slk_Model Slk_Proofs Cfg_Model Cfg_Spec Cfg_Values.
Open Scope string_scope. Open Scope nat_scope. Open Scope list_scope.

Section Db.
Context {E : Type} (H : string -> Z) (U : list string).
Hypothesis inj : distinct_hashes H U.
Notation value := (value E). Notation sim := (ConfigDB_Proofs.sim (V := value) H U).

(** The names of the directories are good names, known ones *)
Definition nice (n : string) : Prop := good_name n /\ In n U.
Definition good_dirs (t : tree value) : Prop := forall p, ent t p = Some Dir -> Forall nice p.
Lemma nice_good p : Forall nice p -> Forall good_name p. Proof. apply Forall_impl. intros n [G _]. exact G. Qed.
Lemma nice_in p n : Forall nice p -> In n p -> In n U. Proof. intros F I. apply (proj1 (Forall_forall _ _) F n I). Qed.
Lemma dirs_set t p n v : good_dirs t -> good_dirs (set t p n v).
Proof. intros G q Q. destruct (ent_set_cases t p n v q) as [(r & _ & X)|X]; [rewrite X in Q; destruct r; discriminate|]. apply G. destruct X as [_ X]. rewrite X in Q. exact Q. Qed.
Lemma dirs_mkdir t p n : good_dirs t -> nice n -> Forall nice p -> good_dirs (mkdir t p n).
Proof.
  intros G N P q Q. unfold mkdir in Q. destruct (ent t (p ++ [n])); [apply G; exact Q|]. cbn [ent] in Q. destruct (path_eqb (p ++ [n]) q) eqn:X; [|apply G; exact Q].
  apply path_eqb_spec in X. subst q. apply Forall_app. auto.
Qed.
Lemma dirs_mkdirs : forall l t p, good_dirs t -> Forall nice l -> Forall nice p -> good_dirs (mkdirs t p l).
Proof. induction l as [|n l IH]; intros t p G L P; [exact G|]. inversion L; subst. cbn [mkdirs]. apply IH; [apply dirs_mkdir; assumption|assumption|apply Forall_app; auto]. Qed.
Lemma dirs_del t p n : good_dirs t -> good_dirs (del t p n).
Proof. intros G q Q. cbn [del ent] in Q. destruct (strip (p ++ [n]) q); [discriminate|]. apply G. exact Q. Qed.
Lemma dirs_step t o : good_dirs t -> is_dir t (at_ t) = true -> good_paths o -> (forall n, In n (used o) -> In n U) -> good_dirs (snd (sstep t o)) .
Proof.
  intros G D P W. assert (NP : forall p, Forall good_name p -> (forall n, In n p -> In n U) -> Forall nice p). { intros p F I. apply Forall_forall. intros n N. split; [apply (proj1 (Forall_forall _ _) F n N)|apply I; exact N]. }
  assert (AT : Forall nice (at_ t)). { apply G. unfold is_dir in D. destruct (ent t (at_ t)) as [[]|]; congruence. }
  clear D. destruct o; cbn [sstep used good_paths] in *.
  - destruct (String.eqb n ""); [exact G|]. apply dirs_set. exact G.
  - exact G.
  - unfold ConfigDB_Spec.mk. destruct (ent t ([] ++ p)); [exact G|]. apply dirs_mkdirs; [exact G|apply NP; tauto|constructor].
  - unfold ConfigDB_Spec.mk. destruct (ent t (at_ t ++ p)); [exact G|]. apply dirs_mkdirs; [exact G|apply NP; tauto|exact AT].
  - unfold go. destruct (is_dir t p); exact G.
  - unfold go. destruct (is_dir t _); exact G.
  - destruct (nth_error _ i); [|exact G]. unfold go. destruct (is_dir t _); exact G.
  - destruct (_ && _); exact G.
  - exact G.
  - destruct (ent t _); [|exact G]. apply dirs_del. exact G.
  - exact G.
  - exact G.
  - exact G.
Qed.
Lemma sim_dir d t : sim d t -> is_dir t (at_ t) = true.
Proof. intros [R L]. unfold is_dir. rewrite (r_ent _ _ _ _ _ R), L. reflexivity. Qed.
Lemma dirs_run : forall l d t, sim d t -> good_dirs t -> Forall good_paths l -> (forall n, In n (flat_map used l) -> In n U) -> all_clear t l -> good_dirs (snd (srun t l)).
Proof.
  induction l as [|o l IH]; intros d t S G P W C; [exact G|]. inversion P; subst. destruct C as [C1 C2]. cbn [flat_map] in W.
  assert (W1 : forall n, In n (used o) -> In n U) by (intros n I; apply W, in_or_app; auto). destruct (step_ok H U inj d t o S H2 W1 C1) as (d' & _ & S').
  cbn [srun]. pose proof (dirs_step t o G (sim_dir d t S) H2 W1) as G'. destruct (sstep t o) as [a t']. cbn [snd] in *. specialize (IH d' t' S' G' H3 ltac:(intros n I; apply W, in_or_app; auto) C2). destruct (srun t' l). exact IH.
Qed.
Lemma dirs_empty : good_dirs empty. Proof. intros p Q. destruct p; [constructor|discriminate]. Qed.
Lemma dir_at d t p : sim d (move_to t p) -> ent t p = Some Dir.
Proof. intro S. apply sim_dir in S. unfold is_dir in S. cbn [move_to ent at_] in S. destruct (ent t p) as [[]|]; congruence. Qed.
Lemma sim_prefix d t p q : sim d t -> is_dir t p = false -> q <> [] -> ent t (p ++ q) = None.
Proof.
  intros [R _] D Q. unfold is_dir in D. rewrite (r_ent _ _ _ _ _ R) in D |- *. rewrite lk_app. destruct (lk (hp d) 0 p) as [[c|n v]|]; [discriminate| |reflexivity]. destruct q; [congruence|reflexivity].
Qed.
Lemma sim_move d t p : sim d t -> forall d', hp d' = hp d -> nxt d' = nxt d -> lk (hp d) 0 p = Some (RNode (cur d')) -> sim d' (move_to t p).
Proof. intros [R _] d' A B L. split; rewrite ?A, ?B; [apply rel_at; exact R|exact L]. Qed.

(** ** The actions *)
Lemma create_filled x (u : cst E) : filled x u ->
  let rows := if numberOfDimensions u =? 1 then 1 else if numberOfDimensions u =? 0 then 1 else numberOfRows u in
  let cols := if numberOfDimensions u =? 0 then firstNumberOfColumns u else numberOfColumns u in create_value u (numberOfDimensions u) cols rows = Some x.
Proof.
  intros (T & M & D & Cc & R & L & B1 & B2). cbn zeta. rewrite D. assert (Q : (if vdims x =? 0 then firstNumberOfColumns u else numberOfColumns u) = vcols x) by (destruct (vdims x =? 0); exact Cc).
  assert (Q2 : (if vdims x =? 1 then 1 else if vdims x =? 0 then 1 else numberOfRows u) = vrows x).
  { destruct (vdims x) as [|[|[|k]]]; [symmetry; exact R|symmetry; exact R|exact R|lia]. }
  rewrite Q, Q2. unfold create_value. rewrite M, L, Nat.eqb_refl, T, (proj2 (Nat.leb_le _ _) B1), (proj2 (Nat.ltb_lt _ _) B2). destruct x; reflexivity.
Qed.
Definition clean (nn : string) (ex : list (string * string * option string)) (d : db value) (vx : db nat) : cst E := Cs defaultTypeName nn 0 0 0 None 0 0 false ex d vx.
Lemma leaf_db tk t p x u : sim (database u) (move_to t p) -> In (nodeName u) U -> filled x u ->
  match put_value t p (nodeName u) (Some x) with
  | Some t' => exists d', add_leaf H tk u = Ret (clean (nodeName u) (if handleMathExpr u then set_leaf (nodeName u) (exprs u) else exprs u) d' (vectorStructureIdx u), false) /\ sim d' (move_to t' p)
  | None => exists u', add_leaf H tk u = Ret (u', true)
  end.
Proof.
  intros S I F. unfold add_leaf. pose proof (create_filled x u F) as Q. cbn zeta in Q. rewrite Q. unfold put_value.
  destruct (step_ok H U inj (database u) (move_to t p) (SWrite (nodeName u) x) S Logic.I ltac:(intros n [<-|[]]; exact I) Logic.I) as (d' & X & S'); cbn [sstep ConfigDB_Spec.call] in X, S'.
  unfold call. rewrite X. destruct (String.eqb (nodeName u) ""); cbn [fst snd bind] in *; [eexists; reflexivity|]. exists d'. split; [reflexivity|exact S'].
Qed.
Lemma node_db nm t p (u : cst E) : sim (database u) (move_to t p) -> nice nm ->
  match ent t (p ++ [nm]) with
  | Some _ => exists u', create_node H (TStr nm) u = Ret (u', true)
  | None => exists d', create_node H (TStr nm) u = Ret (with_db u d', false) /\ sim d' (move_to (mkdir t p nm) (p ++ [nm]))
  end.
Proof.
  intros S [G I]. unfold create_node, must, call. cbn [tdata].
  assert (C : clear_way (move_to t p) (SCreateRelative [nm])). { intros a b v X A B. destruct a as [|? [|]]; [congruence| |discriminate]. injection X as -> <-. congruence. }
  destruct (step_ok H U inj (database u) (move_to t p) (SCreateRelative [nm]) S) as (d' & X & S'); [split; [discriminate|repeat constructor; apply G]|intros n [<-|[]]; exact I|exact C|].
  cbn [sstep ConfigDB_Spec.call join at_ move_to] in X, S'. unfold ConfigDB_Spec.mk in X, S'. cbn [ent move_to] in X, S'. rewrite X. destruct (ent t (p ++ [nm])) as [e|] eqn:Q; cbn [fst snd bind negb] in *; [eexists; reflexivity|].
  exists d'. split; [reflexivity|]. cbn [mkdirs] in S'. unfold mkdir in S' |- *. cbn [ent move_to] in S'. rewrite Q in S' |- *. exact S'.
Qed.
Lemma end_db tk t p nm (u : cst E) : sim (database u) (move_to t (p ++ [nm])) -> exists d', block_end H tk u = Ret (with_db u d', false) /\ sim d' (move_to t p).
Proof.
  intro S. unfold block_end, must, call. destruct (step_ok H U inj (database u) (move_to t (p ++ [nm])) (SMoveToAncestor 1) S Logic.I ltac:(intros n []) Logic.I) as (d' & X & S').
  cbn [sstep ConfigDB_Spec.call at_ move_to] in X, S'. rewrite app_length in X, S'. cbn [List.length] in X, S'. replace ((1 <=? 1) && (1 <=? List.length p + 1)) with true in X, S' by (symmetry; apply andb_true_iff; split; apply Nat.leb_le; lia). cbn [fst snd] in X, S'.
  rewrite X. exists d'. split; [reflexivity|]. replace (List.length p + 1 - 1) with (List.length p) in S' by lia. rewrite firstn_app, Nat.sub_diag, firstn_all in S'. cbn [firstn] in S'. rewrite app_nil_r in S'. exact S'.
Qed.
(** The path of the current node *)
Lemma lk_far h nx p : wf H U h nx -> forall i c, i < nx -> lk h i p = Some (RNode (V := value) c) -> i + List.length p <= c.
Proof.
  intro W. induction p as [|n p IH]; intros i c L Q; [injection Q as <-; cbn; lia|]. change (n :: p) with ([n] ++ p) in Q. rewrite lk_app in Q. destruct (lk h i [n]) as [[j|m v]|] eqn:X; [|destruct p; discriminate|discriminate].
  destruct (lk_range H U h nx [n] W i j L X) as [R1 R2]. specialize (R2 ltac:(discriminate)). specialize (IH j c ltac:(lia) Q). cbn [List.length]. lia.
Qed.
Lemma join_app p q : p <> [] -> q <> [] -> join (p ++ q) = (join p ++ "." ++ join q)%string.
Proof.
  intros P Q. induction p as [|a p IH]; [congruence|]. destruct p as [|b p]; [destruct q; [congruence|reflexivity]|]. cbn [app]. rewrite join_cons by discriminate. cbn [app] in IH. rewrite IH by discriminate.
  rewrite (join_cons a (b :: p)) by discriminate. assert (A : forall x y z : string, (x ++ y ++ z = (x ++ y) ++ z)%string) by (intros x y z; induction x as [|c0 x IHx]; cbn; [reflexivity|rewrite IHx; reflexivity]). rewrite !A. reflexivity.
Qed.
Lemma path_up_ok : forall p fuel d t q, sim d (move_to t p) -> Forall good_name p -> Forall good_name q -> List.length p < fuel -> path_up H fuel d (join q) = Ret (join (p ++ q)).
Proof.
  induction p as [|n p IH] using rev_ind; intros fuel d t q S P Q L; (destruct fuel as [|fuel]; [cbn in L; lia|]); cbn [path_up].
  - destruct (step_ok H U inj d (move_to t []) SGetName S Logic.I ltac:(intros n []) Logic.I) as (d' & X & S'). cbn [sstep ConfigDB_Spec.call at_ move_to rev fst] in X. rewrite X. reflexivity.
  - destruct (step_ok H U inj d (move_to t (p ++ [n])) SGetName S Logic.I ltac:(intros m []) Logic.I) as (d' & X & S'). cbn [sstep ConfigDB_Spec.call at_ move_to fst] in X. rewrite rev_app_distr in X. cbn [rev app] in X. rewrite X.
    pose proof (end_db TEof t p n (clean "" [] d init) S) as (d2 & Y & S2). unfold block_end, must in Y. change (database (clean "" [] d init)) with d in Y. destruct (call H d (MoveToAncestor 1)) as [[b d3]| |] eqn:Cq; [|discriminate|discriminate]. cbn [bind] in Y |- *. unfold with_db in Y. destruct b; [|discriminate]. injection Y as ->.
    apply Forall_app in P. destruct P as [P1 P2]. inversion P2; subst.
    replace (match join q with EmptyString => n | _ => (n ++ "." ++ join q)%string end) with (join (n :: q)).
    + rewrite app_length in L. cbn [List.length] in L. rewrite (IH fuel d2 t (n :: q) S2 P1) by (auto; lia). rewrite <- app_assoc. reflexivity.
    + destruct q as [|m q]; [reflexivity|]. pose proof (join_nonempty (m :: q) Q ltac:(discriminate)) as J. rewrite join_cons by discriminate. destruct (join (m :: q)); [congruence|reflexivity].
Qed.
Lemma expr_db tk t p (u : cst E) : sim (database u) (move_to t p) -> Forall nice p ->
  get_expr_cast H tk u = Ret (Cs (typeName u) (nodeName u) (numberOfColumns u) (firstNumberOfColumns u) (numberOfRows u) (memory u) (tokenType u) (numberOfDimensions u) true (exprs u ++ [(tdata tk, join p, None)]) (database u) (vectorStructureIdx u), false).
Proof.
  intros S P. unfold get_expr_cast. destruct S as [R L]. pose proof (r_wf _ _ _ _ _ R) as W. pose proof (lk_far _ _ _ W 0 _ (w_pos _ _ _ _ W) L) as F. cbn [at_ move_to] in F. destruct (lk_range H U _ _ _ W 0 _ (w_pos _ _ _ _ W) L) as [F2 _].
  pose proof (path_up_ok p (Datatypes.S (Datatypes.S (nxt (database u)))) (database u) t [] (conj R L) (nice_good p P) ltac:(constructor) ltac:(lia)) as X. rewrite app_nil_r in X. cbn [join] in X. rewrite X. reflexivity.
Qed.
Lemma set_leaf_app n l t p x : set_leaf n (l ++ [(t, p, x)]) = l ++ [(t, p, Some n)].
Proof. induction l as [|a l IH]; [reflexivity|]. cbn [app]. destruct l as [|b l]; [destruct a as [[? ?] ?]; reflexivity|]. cbn [app set_leaf] in IH |- *. destruct a as [[? ?] ?]. rewrite IH. reflexivity. Qed.

(** ** The expressions *)
Definition enc (x : string * path * string) : string * string * option string := let '(out, p, n) := x in (out, join p, Some n).
Lemma goto_ok d t q p : sim d (move_to t q) -> Forall nice p -> exists d', goto H d (join p) = Ret (is_dir t p, d') /\ sim d' (move_to t (if is_dir t p then p else q)).
Proof.
  intros S P. unfold goto. destruct p as [|n p].
  - cbn [join]. destruct (step_ok H U inj d (move_to t q) SMoveToRoot S Logic.I ltac:(intros m []) Logic.I) as (d' & X & S'). cbn [sstep ConfigDB_Spec.call fst snd] in X, S'. unfold call. rewrite X.
    assert (D : is_dir t [] = true). { destruct S as [R _]. unfold is_dir. pose proof (r_ent _ _ _ _ _ R []) as Q. cbn [move_to ent lk] in Q. rewrite Q. reflexivity. } rewrite D. exists d'. split; [reflexivity|exact S'].
  - pose proof (join_nonempty (n :: p) (nice_good _ P) ltac:(discriminate)) as J.
    destruct (step_ok H U inj d (move_to t q) (SMoveAbsolute (n :: p)) S) as (d' & X & S'); [split; [discriminate|apply nice_good; exact P]|intros m I; apply (nice_in _ _ P I)|exact Logic.I|].
    cbn [sstep ConfigDB_Spec.call] in X, S'. unfold go in X, S'. change (is_dir (move_to t q) (n :: p)) with (is_dir t (n :: p)) in X, S'. unfold call.
    destruct (join (n :: p)) as [|c0 s0]; [congruence|]. rewrite X. destruct (is_dir t (n :: p)); cbn [fst snd] in *; exists d'; (split; [reflexivity|exact S']).
Qed.
Lemma read_ok d t q n : sim d (move_to t q) -> In n U -> read H d n = Ret (leaf_at t (q ++ [n])).
Proof.
  intros S I. unfold read. destruct (step_ok H U inj d (move_to t q) (SRead n) S Logic.I ltac:(intros m [<-|[]]; exact I) Logic.I) as (d' & X & _). cbn [sstep ConfigDB_Spec.call fst at_ move_to ent] in X. rewrite X. reflexivity.
Qed.
Lemma dots_some s : dots s <> []. Proof. destruct s as [|c s]; [discriminate|]. cbn [dots]. destruct (Ascii.eqb c dot); [discriminate|]. destruct (dots s); discriminate. Qed.
Lemma join_dots s : join (dots s) = s.
Proof.
  induction s as [|c s IH]; [reflexivity|]. cbn [dots]. destruct (Ascii.eqb c dot) eqn:Q.
  - apply Ascii.eqb_eq in Q. subst c. rewrite join_cons by apply dots_some. rewrite IH. reflexivity.
  - destruct (dots s) as [|n p] eqn:X; [elim (dots_some s X)|]. destruct p as [|m p]; [cbn [join] in *; rewrite IH; reflexivity|]. rewrite join_cons in * by discriminate. rewrite <- IH. reflexivity.
Qed.
Lemma split_ok : forall q fuel p n, Forall good_name p -> Forall good_name q -> good_name n -> List.length q < fuel -> split_var fuel (join q) (join p) n = Ret (join (removelast (p ++ n :: q)), last (p ++ n :: q) "").
Proof.
  induction q as [|m q IH]; intros fuel p n P Q N L; (destruct fuel as [|fuel]; [cbn in L; lia|]); cbn [split_var].
  - rewrite removelast_last, last_last. reflexivity.
  - inversion Q; subst. rewrite get_tok_join by assumption.
    replace ((match join p with EmptyString => join p | _ => (join p ++ ".")%string end) ++ n)%string with (join (p ++ [n])).
    + cbn [List.length] in L. rewrite (IH fuel (p ++ [n]) m) by (first [assumption|apply Forall_app; auto|lia]). rewrite <- app_assoc. reflexivity.
    + destruct p as [|a p]; [reflexivity|]. pose proof (join_nonempty (a :: p) P ltac:(discriminate)) as J. rewrite (join_app (a :: p) [n]) by discriminate. destruct (join (a :: p)) as [|c0 s0]; [congruence|].
      assert (A : forall x y z : string, (x ++ y ++ z = (x ++ y) ++ z)%string) by (intros x y z; induction x as [|c1 x IHx]; cbn; [reflexivity|rewrite IHx; reflexivity]). rewrite A. reflexivity.
Qed.
Lemma split_start v : Forall good_name (dots v) -> split_var (S (String.length v)) v "" "" = Ret (join (removelast (dots v)), last (dots v) "").
Proof.
  intro G. pose proof (length_join (dots v) G) as L. rewrite join_dots in L. rewrite <- (join_dots v) at 2. destruct (dots v) as [|n q] eqn:X; [elim (dots_some v X)|]. inversion G; subst. cbn [split_var]. rewrite get_tok_join by assumption.
  cbn [List.length] in L. change ("" ++ "")%string with (join []). rewrite (split_ok q (String.length v) [] n) by (auto; lia). reflexivity.
Qed.
Lemma last_snoc {X} (l : list X) x : l <> [] -> l = removelast l ++ [last l x]. Proof. intro N. apply app_removelast_last. exact N. Qed.
Lemma browse_b : forall b d t q, sim d (move_to t q) -> (forall v, In v b -> Forall good_name (dots v) /\ forall n, In n (dots v) -> In n U) -> (forall v, In v b -> List.length (dots v) > 1) ->
  match all_some (map (fun v => leaf_at t (dots v)) b) with
  | Some l => exists d' q', browse H d b = Ret (Some l, d') /\ sim d' (move_to t q')
  | None => exists d', browse H d b = Ret (None, d')
  end.
Proof.
  induction b as [|v b IH]; intros d t q S G L; [cbn; exists d, q; auto|]. cbn [map all_some browse]. destruct (G v (or_introl eq_refl)) as [G1 G2]. specialize (L v (or_introl eq_refl)) as L1. rewrite split_start by exact G1. cbn [bind].
  pose proof (last_snoc (dots v) "" (dots_some v)) as Sn. set (P := removelast (dots v)) in *. set (n := last (dots v) "") in *.
  assert (PN : P <> []). { intro Z. rewrite Sn, Z in L1. cbn in L1. lia. }
  assert (NP : Forall nice P). { apply Forall_forall. intros m I. assert (I2 : In m (dots v)) by (rewrite Sn; apply in_or_app; auto). split; [apply (proj1 (Forall_forall _ _) G1 m I2)|apply G2; exact I2]. }
  assert (Nn : In n U) by (apply G2; rewrite Sn; apply in_or_app; right; left; reflexivity).
  pose proof (join_nonempty P (nice_good P NP) PN) as J. destruct (goto_ok d t q P S NP) as (d' & X & S'). unfold goto in X. destruct (join P) as [|c0 s0] eqn:JP; [congruence|]. rewrite X. cbn [bind]. destruct (is_dir t P) eqn:D.
  - rewrite (read_ok d' t P n S' Nn). cbn [bind]. rewrite <- Sn. destruct (leaf_at t (dots v)) as [x|]; [|exists d'; reflexivity].
    specialize (IH d' t P S' ltac:(intros w I; apply G; right; exact I) ltac:(intros w I; apply L; right; exact I)). destruct (all_some (map (fun v0 => leaf_at t (dots v0)) b)) as [l|].
    + destruct IH as (d2 & q2 & Y & S2). rewrite Y. exists d2, q2. split; [reflexivity|exact S2].
    + destruct IH as (d2 & Y). rewrite Y. exists d2. reflexivity.
  - assert (Z : leaf_at t (dots v) = None). { unfold leaf_at. rewrite Sn. pose proof (sim_prefix d (move_to t q) P [n] S D ltac:(discriminate)) as W. cbn [move_to ent] in W. rewrite W. reflexivity. } rewrite Z. exists d'. reflexivity.
Qed.
Lemma browse_ok : forall a b d t, sim d (move_to t []) -> good_vars U (a ++ b) -> (forall v, In v a -> List.length (dots v) = 1) -> (forall v, In v b -> List.length (dots v) > 1) ->
  match all_some (map (fun v => leaf_at t (dots v)) (a ++ b)) with
  | Some l => exists d' q', browse H d (a ++ b) = Ret (Some l, d') /\ sim d' (move_to t q')
  | None => exists d', browse H d (a ++ b) = Ret (None, d')
  end.
Proof.
  induction a as [|v a IH]; intros b d t S G A B; [apply (browse_b b d t [] S); [apply G|exact B]|]. destruct G as [G _]. cbn [app map all_some browse]. destruct (G v (or_introl eq_refl)) as [G1 G2]. specialize (A v (or_introl eq_refl)) as A1.
  rewrite split_start by exact G1. cbn [bind]. pose proof (join_dots v) as JD. destruct (dots v) as [|n [|]] eqn:X; [discriminate| |discriminate]. cbn [removelast last join bind] in *. subst n.
  rewrite (read_ok d t [] v S) by (apply G2; left; reflexivity). cbn [bind app]. destruct (leaf_at t [v]) as [x|]; [|exists d; reflexivity].
  assert (Gr : good_vars U (a ++ b)). { split; [intros w I; apply G; right; exact I|]. exists a, b. split; [reflexivity|]. split; [intros w I; apply A; right; exact I|exact B]. }
  specialize (IH b d t S Gr ltac:(intros w I; apply A; right; exact I) B). destruct (all_some (map (fun v0 => leaf_at t (dots v0)) (a ++ b))) as [l|].
  - destruct IH as (d2 & q2 & Y & S2). rewrite Y. exists d2, q2. split; [reflexivity|exact S2].
  - destruct IH as (d2 & Y). rewrite Y. exists d2. reflexivity.
Qed.
Context (text_of : value -> option string) (vars : string -> option (list string)) (is_num : string -> bool) (eval : string -> string -> list value -> option value).
Lemma expand_ok d t q out p n : sim d (move_to t q) -> Forall nice p -> In n U -> n <> "" ->
  match leaf_at t (p ++ [n]) with Some x => match text_of x with Some e => match vars e with Some vs => good_vars U vs | None => True end | None => True end | None => True end ->
  match evaluate_one text_of vars is_num eval t out p n with
  | Some t' => exists d' q', expand_expression H text_of vars is_num eval d (join p) n out = Ret (true, d') /\ sim d' (move_to t' q')
  | None => exists d', expand_expression H text_of vars is_num eval d (join p) n out = Ret (false, d')
  end.
Proof.
  intros S P N NE G. unfold evaluate_one, expand_expression. destruct (goto_ok d t q p S P) as (d1 & X1 & S1). rewrite X1. cbn [bind]. destruct (is_dir t p) eqn:D; cbn [negb].
  2:{ assert (Z : leaf_at t (p ++ [n]) = None). { unfold leaf_at. pose proof (sim_prefix d (move_to t q) p [n] S D ltac:(discriminate)) as W. cbn [move_to ent] in W. rewrite W. reflexivity. } rewrite Z. exists d1. reflexivity. }
  rewrite (read_ok d1 t p n S1 N). cbn [bind]. destruct (leaf_at t (p ++ [n])) as [x|] eqn:LA; [|exists d1; reflexivity]. destruct (text_of x) as [e|]; [|exists d1; reflexivity]. destruct (vars e) as [vs|]; [|exists d1; reflexivity].
  destruct (negb (is_num out)); [exists d1; reflexivity|]. destruct (goto_ok d1 t p [] S1 ltac:(constructor)) as (d2 & X2 & S2).
  assert (D0 : is_dir t [] = true). { destruct S as [R _]. unfold is_dir. pose proof (r_ent _ _ _ _ _ R []) as Q. cbn [move_to ent lk] in Q. rewrite Q. reflexivity. }
  rewrite D0 in X2, S2. unfold goto in X2. cbn [join] in X2. rewrite X2. cbn [bind negb]. pose proof G as G'. destruct G' as (_ & a & b & -> & A & B). pose proof (browse_ok a b d2 t S2 G A B) as Br.
  destruct (all_some (map (fun v => leaf_at t (dots v)) (a ++ b))) as [l|].
  - destruct Br as (d3 & q3 & Y & S3). rewrite Y. cbn [bind]. destruct (eval out e l) as [r|]; [|exists d3; reflexivity]. destruct (goto_ok d3 t q3 p S3 P) as (d4 & X4 & S4). rewrite D in X4, S4. rewrite X4. cbn [bind negb].
    destruct (step_ok H U inj d4 (move_to t p) (SWrite n r) S4 Logic.I ltac:(intros m [<-|[]]; exact N) Logic.I) as (d5 & X5 & S5). cbn [sstep ConfigDB_Spec.call] in X5, S5. rewrite (proj2 (String.eqb_neq n "") NE) in X5, S5. cbn [fst snd] in X5, S5. unfold call. rewrite X5. exists d5, p. split; [reflexivity|exact S5].
  - destruct Br as (d3 & Y). rewrite Y. cbn [bind]. exists d3. reflexivity.
Qed.
Definition ex_ok (x : string * path * string) : Prop := let '(_, p, n) := x in Forall nice p /\ In n U /\ n <> "".
Lemma expand_all_ok : forall l d t q, sim d (move_to t q) -> Forall ex_ok l -> clear_exprs text_of vars is_num eval U t l ->
  match evaluate text_of vars is_num eval t l with
  | Some t' => exists d' q', expand_all H text_of vars is_num eval d (map enc l) = Ret (true, d') /\ sim d' (move_to t' q')
  | None => exists d', expand_all H text_of vars is_num eval d (map enc l) = Ret (false, d')
  end.
Proof.
  induction l as [|[[out p] n] l IH]; intros d t q S F C; [cbn; exists d, q; auto|]. inversion F as [|? ? F0 F4]; subst. destruct F0 as (F1 & F2 & F3). destruct C as [C1 C2]. cbn [evaluate map enc expand_all].
  pose proof (expand_ok d t q out p n S F1 F2 F3 C1) as X. destruct (evaluate_one text_of vars is_num eval t out p n) as [t'|].
  - destruct X as (d' & q' & X & S'). rewrite X. cbn [bind]. apply (IH d' t' q' S' F4 C2).
  - destruct X as (d' & X). rewrite X. exists d'. reflexivity.
Qed.
Lemma end_ok tk (u : cst E) l t q : sim (database u) (move_to t q) -> exprs u = map enc l -> Forall ex_ok l -> clear_exprs text_of vars is_num eval U t l ->
  match evaluate text_of vars is_num eval t l with
  | Some t' => exists u', end_ H text_of vars is_num eval tk u = Ret (u', false) /\ sim (database u') (move_to t' [])
  | None => exists u', end_ H text_of vars is_num eval tk u = Ret (u', true)
  end.
Proof.
  intros S Q F C. unfold end_. rewrite Q. pose proof (expand_all_ok l (database u) t q S F C) as X. destruct (evaluate text_of vars is_num eval t l) as [t'|].
  - destruct X as (d' & q' & X & S'). rewrite X. cbn [bind]. destruct (step_ok H U inj d' (move_to t' q') SMoveToRoot S' Logic.I ltac:(intros m []) Logic.I) as (d2 & Y & S2). cbn [sstep ConfigDB_Spec.call fst snd] in Y, S2.
    unfold must, call. cbn [database with_db]. rewrite Y. eexists. split; [reflexivity|exact S2].
  - destruct X as (d' & X). rewrite X. eexists. reflexivity.
Qed.
End Db.
Lemma add_block {E} (conv : string -> string -> option E) t p n i l : add conv t p (Block n i l) = match ent t (p ++ [n]) with Some _ => None | None => add_all conv (mkdir t p n) (p ++ [n]) (i :: l) end.
Proof.
  assert (A : forall l t, (fix addl (t : tree (value E)) (l : list item) : option (tree (value E) * list (string * path * string)) :=
                   match l with [] => Some (t, []) | i :: l => match add conv t (p ++ [n]) i with None => None | Some (t, x) => match addl t l with None => None | Some (t, y) => Some (t, x ++ y) end end end) t l = add_all conv t (p ++ [n]) l).
  { clear. induction l as [|i l IH]; intro t; [reflexivity|]. cbn [add_all]. destruct (add conv t (p ++ [n]) i) as [[t1 x]|]; [|reflexivity]. rewrite IH. reflexivity. }
  specialize (A (i :: l) (mkdir t p n)). rewrite <- A. reflexivity.
Qed.
