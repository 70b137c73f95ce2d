(** The code emitted for a line does what the line means. *)
From Coq Require Import String.
From Verif Require Import Base IntArith_Model RuntimeEval_Model RuntimeEval_Spec RuntimeEval_Proofs.
Open Scope string_scope.
Open Scope Z_scope.
Open Scope list_scope.

Arguments table : simpl never.

Lemma bind_ok {A B} (x : res A) (f : A -> res B) b : bind x f = Ok b -> exists a, x = Ok a /\ f a = Ok b.
Proof. destruct x; cbn; try discriminate. eauto. Qed.
Lemma of_opt_ok {A} (x : option A) a : of_opt x = Ok a -> x = Some a.
Proof. destruct x; cbn; congruence. Qed.
Lemma u16_id z : 0 <= z <= 65535 -> u16 z = z.
Proof. intros H. unfold u16. apply uwrap_id. lia. Qed.

(** ** Variables *)
Lemma find_var_name x l v : find_var x l = Some v -> vname v = x.
Proof. intros H. apply find_some in H as [_ H]. apply String.eqb_eq. exact H. Qed.
Lemma find_update x f l y : (forall v, vname (f v) = vname v) ->
  find_var y (update_first x f l) = if x =s? y then option_map f (find_var y l) else find_var y l.
Proof.
  intros Hf. unfold find_var. induction l as [|v l IH]; cbn [update_first List.find option_map].
  - destruct (x =s? y); reflexivity.
  - destruct (vname v =s? x) eqn:E; cbn [List.find].
    + apply String.eqb_eq in E. rewrite Hf. rewrite E. destruct (x =s? y) eqn:E'; reflexivity.
    + destruct (vname v =s? y) eqn:E2.
      * apply String.eqb_eq in E2. destruct (String.eqb_spec x y) as [->|N]; [|reflexivity].
        rewrite E2, String.eqb_refl in E. discriminate.
      * exact IH.
Qed.

(** ** The layout of the data memory *)
Definition cell (v : var) : Z :=
  if vext v =? 0 then (if ty_eqb (vty v) TVoid then 2 else words (vty v)) else 2.
Lemma cell_words v : vext v = 0 -> words (vty v) <= cell v.
Proof.
  intros E. unfold cell. rewrite E, Z.eqb_refl.
  destruct (ty_eqb (vty v) TVoid) eqn:T; [|lia]. apply ty_eqb_eq in T. rewrite T. vm_compute. discriminate.
Qed.
Lemma cell_ext v : vext v <> 0 -> cell v = 2.
Proof. intros E. unfold cell. destruct (Z.eqb_spec (vext v) 0); [contradiction|reflexivity]. Qed.
Lemma cell_range v : 0 <= cell v <= 2.
Proof. unfold cell. pose proof (words_range (vty v)). destruct (vext v =? 0), (ty_eqb (vty v) TVoid); lia. Qed.

Definition disj (v w : var) : Prop := vloc v + cell v <= vloc w \/ vloc w + cell w <= vloc v.
Record LAY (vi vo : list var) (S N : Z) : Prop := {
  lay_in : forall x v, plain_name x -> find_var x vi = Some v -> S <= vloc v /\ vloc v + cell v <= N;
  lay_out : forall x v, plain_name x -> find_var x vo = Some v -> S <= vloc v /\ vloc v + cell v <= N;
  lay_ii : forall x y v w, plain_name x -> plain_name y -> x <> y ->
           find_var x vi = Some v -> find_var y vi = Some w -> disj v w;
  lay_io : forall x y v w, plain_name x -> plain_name y ->
           find_var x vi = Some v -> find_var y vo = Some w -> disj v w;
  lay_oo : forall x y v w, plain_name x -> plain_name y -> x <> y ->
           find_var x vo = Some v -> find_var y vo = Some w -> disj v w;
  lay_S : 0 <= S; lay_N : S <= N; lay_max : N <= 65534 }.

(** Changing a variable so that it keeps its place and needs no more room. *)
Lemma LAY_update vi vo S N x f : LAY vi vo S N -> (forall v, vname (f v) = vname v) ->
  (forall v, find_var x vo = Some v -> vloc (f v) = vloc v /\ cell (f v) <= cell v) ->
  LAY vi (update_first x f vo) S N.
Proof.
  intros [A B C D E F G H] Hn Hf.
  assert (K : forall y w, find_var y (update_first x f vo) = Some w ->
              exists w0, find_var y vo = Some w0 /\ vloc w = vloc w0 /\ cell w <= cell w0).
  { intros y w. rewrite find_update by assumption. destruct (String.eqb_spec x y) as [->|Ne].
    - destruct (find_var y vo) as [w0|] eqn:Ew; cbn; [|discriminate]. intros [= <-]. destruct (Hf w0 eq_refl). eauto.
    - intros Hw. exists w. repeat split; [assumption|lia]. }
  constructor; try assumption; unfold disj in *; intros.
  - destruct (K _ _ H1) as (w0 & ? & ? & ?). destruct (B _ _ H0 H2). lia.
  - destruct (K _ _ H3) as (w0 & ? & ? & ?). specialize (D _ _ _ _ H0 H1 H2 H4). lia.
  - destruct (K _ _ H3) as (v0 & ? & ? & ?). destruct (K _ _ H4) as (w0 & ? & ? & ?).
    specialize (E _ _ _ _ H0 H1 H2 H5 H8). lia.
Qed.

(** ** The stack *)
Fixpoint stack_at (m : Z -> Z) (st : list (ty * Z)) : Prop :=
  match st with [] => True | (t, v) :: r => load m (sum_words (map fst r)) t = v /\ stack_at m r end.
Lemma stack_at_ext m m' st : (forall a, 0 <= a < sum_words (map fst st) -> m a = m' a) -> stack_at m st -> stack_at m' st.
Proof.
  induction st as [|[t v] st IH]; cbn [stack_at map fst]; [auto|]. rewrite sum_words_cons. intros H [A B].
  pose proof (words_range t). pose proof (sum_words_nonneg (map fst st)). split.
  - rewrite <- A. symmetry. apply load_ext. intros b Hb. apply H. lia.
  - apply IH; [|assumption]. intros a Ha. apply H. lia.
Qed.

Section Run.
Variable L : lib.
Variable e : ev.

Lemma pop_ok m t v st : sp m = sum_words (map fst ((t, v) :: st)) -> stack_at (smem m) ((t, v) :: st) ->
  sp m <= ssize e ->
  pop e m t = Some (v, M (sum_words (map fst st)) (smem m) (dmem m) (emem m) (merr m)).
Proof.
  cbn [map fst stack_at]. rewrite sum_words_cons. intros H [A _] B. unfold pop.
  pose proof (sum_words_nonneg (map fst st)).
  replace (sp m - words t) with (sum_words (map fst st)) by lia.
  destruct (0 <=? sum_words (map fst st)) eqn:E1; [|lia]. destruct (sp m <=? ssize e) eqn:E2; [|lia].
  cbn. rewrite A. reflexivity.
Qed.
Lemma push_ok m t v st : sp m = sum_words (map fst st) -> stack_at (smem m) st -> 0 <= v < 2 ^ bits t ->
  sp m + words t <= ssize e ->
  exists m', push e m t v = Some m' /\ sp m' = sum_words (map fst ((t, v) :: st)) /\ stack_at (smem m') ((t, v) :: st) /\
             dmem m' = dmem m /\ emem m' = emem m /\ merr m' = merr m.
Proof.
  intros H A V B. pose proof (sum_words_nonneg (map fst st)). unfold push.
  destruct (0 <=? sp m) eqn:E1; [|lia]. destruct (sp m + words t <=? ssize e) eqn:E2; [|lia]. cbn [andb].
  eexists. split; [reflexivity|]. cbn [sp smem dmem emem merr map fst stack_at]. rewrite sum_words_cons.
  repeat split; [lia| |].
  - rewrite <- H, load_store. apply Z.mod_small. assumption.
  - eapply stack_at_ext; [|exact A]. intros a Ha. symmetry. apply store_frame. lia.
Qed.
Lemma pop_all_ok : forall pre m st, sp m = sum_words (map fst (pre ++ st)) -> stack_at (smem m) (pre ++ st) ->
  sp m <= ssize e ->
  pop_all e m (map fst pre) =
    Some (map snd pre, M (sum_words (map fst st)) (smem m) (dmem m) (emem m) (merr m)).
Proof.
  induction pre as [|[t v] pre IH]; intros m st H A B.
  - cbn [map pop_all]. cbn [app] in H. rewrite <- H. destruct m; reflexivity.
  - cbn [map fst snd pop_all]. rewrite (pop_ok m t v (pre ++ st)); try assumption.
    rewrite (IH _ st); cbn [sp smem dmem emem merr]; try reflexivity.
    + apply A.
    + cbn [app map fst] in H. rewrite sum_words_cons in H. pose proof (words_range t). lia.
Qed.

(** One instruction of the interpreter. *)
Lemma run_operand md k a r K togo m : nth_error (table L) (Z.to_nat k) = Some r -> operand (rbody r) = true -> 2 <= togo ->
  run L e md (k :: a :: K) togo m =
    match exec_body L e (rbody r) a m with
    | Some m' => match md with
                 | Fast => run L e md K (togo - 2) m'
                 | SafeMode => let m2 := set_err m' ((sp m' >? ssize e) || (sp m' <? 0)) in
                               if merr m2 then Some (m2, togo - 2) else run L e md K (togo - 2) m2
                 end
    | None => None
    end.
Proof.
  intros H O T. cbn [run]. destruct (togo <=? 0) eqn:E; [lia|]. rewrite H, O. reflexivity.
Qed.
Lemma run_plain md k r K togo m : nth_error (table L) (Z.to_nat k) = Some r -> operand (rbody r) = false -> 1 <= togo ->
  run L e md (k :: K) togo m =
    match exec_body L e (rbody r) 0 m with
    | Some m' => match md with
                 | Fast => run L e md K (togo - 1) m'
                 | SafeMode => let m2 := set_err m' ((sp m' >? ssize e) || (sp m' <? 0)) in
                               if merr m2 then Some (m2, togo - 1) else run L e md K (togo - 1) m2
                 end
    | None => None
    end.
Proof.
  intros H O T. cbn [run]. destruct (togo <=? 0) eqn:E; [lia|]. rewrite H, O. reflexivity.
Qed.
Lemma set_err_ok m b : b = false -> set_err m b = m.
Proof. intros ->. destruct m as [a b c d er]. unfold set_err; cbn. rewrite orb_false_r. reflexivity. Qed.
Lemma sp_ok m : 0 <= sp m <= ssize e -> (sp m >? ssize e) || (sp m <? 0) = false.
Proof. intros H. destruct (sp m >? ssize e) eqn:A, (sp m <? 0) eqn:B; lia || reflexivity. Qed.

Definition len {A} (l : list A) : Z := Z.of_nat (List.length l).
(** [cp] does one instruction: the machine goes from [m] to [m']. *)
Definition goes (cp : list Z) (m m' : mach) : Prop :=
  (merr m' = false -> forall md K togo, len cp <= togo -> run L e md (cp ++ K) togo m = run L e md K (togo - len cp) m') /\
  (merr m' = true -> forall K togo, len cp <= togo -> run L e SafeMode (cp ++ K) togo m = Some (m', togo - len cp)).
Definition fails (cp : list Z) (m : mach) : Prop :=
  forall md K togo, len cp <= togo -> run L e md (cp ++ K) togo m = None.

Definition code_of (k a : Z) (r : rfun) : list Z := if operand (rbody r) then [k; a] else [k].
Lemma goes_one k a r m m' : nth_error (table L) (Z.to_nat k) = Some r ->
  exec_body L e (rbody r) (if operand (rbody r) then a else 0) m = Some m' -> 0 <= sp m' <= ssize e ->
  goes (code_of k a r) m m'.
Proof.
  intros N X B. pose proof (sp_ok _ B) as Q. unfold goes, code_of. destruct (operand (rbody r)) eqn:O; split; intros Er.
  - intros md K togo T. cbn in T. cbn [app]. rewrite (run_operand _ _ _ _ _ _ _ N O) by lia. rewrite X.
    destruct md; [reflexivity|]. cbv zeta. rewrite Q, set_err_ok by reflexivity. rewrite Er. reflexivity.
  - intros K togo T. cbn in T. cbn [app]. rewrite (run_operand _ _ _ _ _ _ _ N O) by lia. rewrite X.
    cbv zeta. rewrite Q, set_err_ok by reflexivity. rewrite Er. reflexivity.
  - intros md K togo T. cbn in T. cbn [app]. rewrite (run_plain _ _ _ _ _ _ N O) by lia. rewrite X.
    destruct md; [reflexivity|]. cbv zeta. rewrite Q, set_err_ok by reflexivity. rewrite Er. reflexivity.
  - intros K togo T. cbn in T. cbn [app]. rewrite (run_plain _ _ _ _ _ _ N O) by lia. rewrite X.
    cbv zeta. rewrite Q, set_err_ok by reflexivity. rewrite Er. reflexivity.
Qed.
Lemma fails_one k a r m : nth_error (table L) (Z.to_nat k) = Some r ->
  exec_body L e (rbody r) (if operand (rbody r) then a else 0) m = None -> fails (code_of k a r) m.
Proof.
  intros N X md K togo. unfold code_of. destruct (operand (rbody r)) eqn:O; unfold len; cbn [List.length Z.of_nat app]; intros T.
  - rewrite (run_operand _ _ _ _ _ _ _ N O) by lia. rewrite X. reflexivity.
  - rewrite (run_plain _ _ _ _ _ _ N O) by lia. rewrite X. reflexivity.
Qed.
End Run.
