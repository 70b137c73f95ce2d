(** The layout made by ExtractVariables and Compile, and the main result. *)
From Coq Require Import String.
From Verif Require Import Base IntArith_Model RuntimeEval_Model RuntimeEval_Spec RuntimeEval_Proofs RuntimeEval_Proofs2
  RuntimeEval_Proofs3 RuntimeEval_Proofs4 RuntimeEval_Proofs5.
Open Scope string_scope.
Open Scope Z_scope.
Open Scope list_scope.

(** The number of variables without a place. *)
Fixpoint cnt (l : list var) : Z := match l with [] => 0 | v :: l' => (if vloc v =? max16 then 1 else 0) + cnt l' end.
Lemma cnt_nonneg l : 0 <= cnt l.
Proof. induction l as [|v l IH]; cbn [cnt]; [lia|]. destruct (_ =? _); lia. Qed.
Lemma cnt_app a b : cnt (a ++ b) = cnt a + cnt b.
Proof. induction a as [|v a IH]; cbn [cnt app]; lia. Qed.

Definition fresh_var (v : var) : Prop :=
  vused v = false /\ (plain_name (vname v) -> vloc v = max16).
Definition start_var (v : var) : Prop :=
  fresh_var v /\ vext v = 0 /\ (plain_name (vname v) -> vty v = TVoid).

Lemma add_var_some x t loc l l' : add_var x t loc l = Some l' -> l' = l ++ [V x t loc 0 false].
Proof. unfold add_var. destruct (find_var x l); congruence. Qed.

Lemma const_not_plain a : ~ plain_name (const_name a).
Proof. unfold plain_name, const_name. generalize (dec 5 a ""). intros s. cbn. destruct s; discriminate. Qed.

(** ** ExtractVariables *)
Record XINV (vi vo : list var) (next lines : Z) : Prop := {
  x_in : Forall start_var vi; x_out : Forall start_var vo;
  x_next : 0 <= next;
  x_room : next + 2 * cnt vi + 2 * len vo <= 2 * lines }.

Lemma extract_line_inv vi vo next lines l vi' vo' next' :
  XINV vi vo next lines -> 2 * lines <= 65532 -> plain_line l ->
  extract_line (vi, vo, next) l = Ok (vi', vo', next') ->
  XINV vi' vo' next' (lines + 1) /\ next' = next + cwords l.
Proof.
  intros [A1 A2 A3 A4] B P H. pose proof (cnt_nonneg vi) as Cv. pose proof (len_nonneg vo) as Lv.
  assert (Same : (vi', vo', next') = (vi, vo, next) -> cwords l = 0 -> XINV vi' vo' next' (lines + 1) /\ next' = next + cwords l).
  { intros [= -> -> ->] ->. split; [constructor; try assumption; lia|lia]. }
  destruct l as [|cmd params]; [apply Same; [cbn in H; congruence|reflexivity]|].
  destruct P as (P1 & P2 & P3). cbn [extract_line] in H.
  destruct (String.eqb_spec cmd "READ") as [->|N1].
  { destruct params as [|x [|? ?]]; try discriminate.
    assert (Px : plain_name x) by (specialize (P3 (or_introl eq_refl)); inversion P3; assumption).
    destruct (find_var x vo); [apply Same; [congruence|reflexivity]|].
    destruct (add_var x TVoid max16 vi) as [vi1|] eqn:E; [|apply Same; [congruence|reflexivity]].
    apply add_var_some in E. injection H as <- <- <-. subst vi1. change (cwords ["READ"; x]) with 0.
    split; [|lia]. constructor; try assumption.
    - apply Forall_app. split; [assumption|]. constructor; [|constructor]. repeat split.
    - rewrite cnt_app. cbn [cnt vloc]. rewrite Z.eqb_refl. lia. }
  destruct (String.eqb_spec cmd "WRITE") as [->|N2].
  { destruct params as [|x [|? ?]]; try discriminate.
    apply bind_ok in H as (vo1 & E & H). apply of_opt_ok, add_var_some in E. injection H as <- <- <-. subst vo1.
    change (cwords ["WRITE"; x]) with 0. split; [|lia]. constructor; try assumption.
    - apply Forall_app. split; [assumption|]. constructor; [|constructor]. repeat split.
    - rewrite len_app. change (len [V x TVoid max16 0 false]) with 1. lia. }
  destruct (String.eqb_spec cmd "CONST") as [->|N3].
  { destruct params as [|t [|v [|? ?]]]; try discriminate. destruct (numeric (ty_of_name t)) eqn:Nu; [|discriminate].
    apply bind_ok in H as (vi1 & E & H). apply of_opt_ok, add_var_some in E.
    change (cwords ["CONST"; t; v]) with (words (ty_of_name t)). pose proof (words_range (ty_of_name t)).
    rewrite u16_id in H by lia. injection H as <- <- <-. subst vi1. split; [|reflexivity].
    constructor; try assumption.
    - apply Forall_app. split; [assumption|]. constructor; [|constructor].
      repeat split; cbn [vname vloc vty]; intros Q; exfalso; exact (const_not_plain _ Q).
    - lia.
    - rewrite cnt_app. cbn [cnt vloc]. destruct (Z.eqb_spec next max16); [unfold max16 in *; lia|]. lia. }
  assert (Cw : cwords (cmd :: params) = 0).
  { unfold cwords. destruct params as [|? [|? [|? ?]]]; try reflexivity.
    destruct (String.eqb_spec cmd "CONST"); [contradiction|reflexivity]. }
  apply Same; [congruence|assumption].
Qed.

Lemma extract_lines_inv : forall p vi vo next lines vi' vo' next',
  XINV vi vo next lines -> 2 * (lines + len p) <= 65534 -> Forall plain_line p ->
  extract_lines p (vi, vo, next) = Ok (vi', vo', next') ->
  XINV vi' vo' next' (lines + len p) /\ next' = next + cw p.
Proof.
  induction p as [|l p IH]; intros vi vo next lines vi' vo' next' X B P H.
  - cbn [extract_lines] in H. injection H as <- <- <-. change (len (@nil (list string))) with 0. rewrite Z.add_0_r.
    cbn [cw]. split; [assumption|lia].
  - rewrite len_cons in *. pose proof (len_nonneg p). inversion P as [|? ? Pl Pp]; subst.
    cbn [extract_lines] in H. apply bind_ok in H as ([[vi1 vo1] n1] & H1 & H).
    destruct (extract_line_inv _ _ _ _ _ _ _ _ X ltac:(lia) Pl H1) as [X1 E1].
    destruct (IH _ _ _ _ _ _ _ X1 ltac:(lia) Pp H) as [X2 E2].
    replace (lines + 1 + len p) with (lines + (1 + len p)) in X2 by lia. split; [assumption|]. cbn [cw]. lia.
Qed.

(** ** The settings *)
Lemma Forall_update (P : var -> Prop) x f l : (forall v, P v -> P (f v)) -> Forall P l -> Forall P (update_first x f l).
Proof.
  intros Hf H. induction H as [|v l Hv Hl IH]; cbn [update_first]; [constructor|].
  destruct (_ =s? _); constructor; auto.
Qed.
Lemma cnt_update x f l : (forall v, vloc (f v) = vloc v) -> cnt (update_first x f l) = cnt l.
Proof.
  intros Hf. induction l as [|v l IH]; cbn [update_first cnt]; [reflexivity|].
  destruct (_ =s? _); cbn [cnt]; rewrite ?Hf; lia.
Qed.
Lemma len_update x f l : len (update_first x f l) = len l.
Proof.
  induction l as [|v l IH]; cbn [update_first]; [reflexivity|]. destruct (_ =s? _); rewrite !len_cons; lia.
Qed.

Record CINV (e : ev) (c : config) (lines : Z) : Prop := {
  c_fi : Forall fresh_var (ins e); c_fo : Forall fresh_var (outs e);
  c_ci : forall x v, plain_name x -> find_var x (ins e) = Some v ->
         vext v = in_mem c x /\ vty v = in_type c x /\ 0 <= vext v < 2 ^ 64;
  c_co : forall x v, plain_name x -> find_var x (outs e) = Some v ->
         vext v = out_mem c x /\ vty v = out_type c x /\ 0 <= vext v < 2 ^ 64;
  c_st : 0 <= start e;
  c_room : start e + 2 * cnt (ins e) + 2 * len (outs e) <= 2 * lines }.

Ltac upd_case H :=
  rewrite find_update in H by (intros; reflexivity);
  match type of H with context [?a =s? ?b] => destruct (String.eqb_spec a b) as [<-|] end.
Lemma set_one_inv e c lines s : CINV e c lines -> plain_setting s -> CINV (set_one e s) (set_config c s) lines.
Proof.
  intros [A1 A2 A3 A4 A5 A6] P. destruct s as [x p|x p|x t|x t]; cbn in P;
    constructor; cbn [set_one with_vars ins outs start set_config in_mem in_type out_mem out_type]; try assumption;
    try (apply Forall_update; [intros v [? ?]; split; assumption|assumption]; fail);
    try (rewrite ?cnt_update, ?len_update by (intros; reflexivity); assumption);
    intros y v Py Hv; unfold supd; upd_case Hv;
    try (destruct (String.eqb_spec x y); [contradiction|]; auto; fail); rewrite ?String.eqb_refl;
    try (destruct (find_var x (ins e)) as [w|] eqn:E; [|discriminate]);
    try (destruct (find_var x (outs e)) as [w|] eqn:E'; [|discriminate]);
    cbn [option_map] in Hv; injection Hv as <-; cbn [with_ext with_ty vext vty];
    try (destruct (A3 _ _ Py E) as (Q1 & Q2 & Q3)); try (destruct (A4 _ _ Py E') as (Q1 & Q2 & Q3)); intuition.
Qed.
Lemma configure_inv st : forall e c lines, CINV e c lines -> Forall plain_setting st ->
  CINV (configure e st) (fold_left set_config st c) lines.
Proof.
  induction st as [|s st IH]; intros e c lines I P; [exact I|]. inversion P; subst. cbn [configure fold_left].
  apply IH; [|assumption]. apply set_one_inv; assumption.
Qed.
Lemma configure_start st : forall e, start (configure e st) = start e.
Proof. induction st as [|s st IH]; intros e; [reflexivity|]. cbn [configure fold_left]. unfold configure in IH. rewrite IH. destruct s; reflexivity. Qed.

(** ** The places given by Compile *)
Definition placed (l l' : list var) (next n : Z) : Prop :=
  (forall x v, plain_name x -> find_var x l' = Some v ->
     (exists v0, find_var x l = Some v0 /\ v = with_loc (vloc v) v0) /\ next <= vloc v /\ vloc v + cell v <= n) /\
  (forall x y v w, plain_name x -> plain_name y -> x <> y -> find_var x l' = Some v -> find_var y l' = Some w -> disj v w).

Lemma numeric_not_void t : numeric t = true -> ty_eqb t TVoid = false.
Proof. destruct t; intros H; try discriminate; reflexivity. Qed.

Lemma find_cons x v l : find_var x (v :: l) = if vname v =s? x then Some v else find_var x l.
Proof. reflexivity. Qed.

Lemma place_ins_inv : forall l next l' n, Forall fresh_var l -> 0 <= next -> next + 2 * cnt l <= 65534 ->
  place_ins l next = Ok (l', n) -> next <= n <= next + 2 * cnt l /\ placed l l' next n.
Proof.
  induction l as [|v l IH]; intros next l' n F Hn B H; cbn [place_ins cnt] in *.
  - injection H as <- <-. split; [lia|]. split; intros; discriminate.
  - inversion F as [|? ? [Fu Fv] Fl]; subst. destruct (numeric (vty v)) eqn:Nu; [|discriminate].
    pose proof (cnt_nonneg l) as Cl. pose proof (words_range (vty v)) as Wr.
    destruct (Z.eqb_spec (vloc v) max16) as [E|E].
    + assert (Cc : (if vext v =? 0 then words (vty v) else 2) = cell v).
      { unfold cell. rewrite (numeric_not_void _ Nu). reflexivity. }
      pose proof (cell_range v) as Cr.
      rewrite Cc in H. rewrite u16_id in H by lia.
      apply bind_ok in H as ([r n0] & H & H2). injection H2 as <- <-.
      destruct (fun A B => IH _ _ _ Fl A B H) as [Bn [Q1 Q2]]; [lia|lia|]. split; [lia|].
      assert (Cw : cell (with_loc next v) = cell v) by reflexivity.
      split.
      * intros x w Px. rewrite !find_cons. cbn [with_loc vname]. destruct (vname v =s? x).
        -- intros [= <-]. split; [exists v; split; reflexivity|]. rewrite Cw. cbn [vloc with_loc]. lia.
        -- intros Hw. destruct (Q1 _ _ Px Hw) as (Q3 & Q4 & Q5). split; [assumption|lia].
      * intros x y w u Px Py Ne. rewrite !find_cons. cbn [with_loc vname].
        destruct (String.eqb_spec (vname v) x) as [Ex|Ex], (String.eqb_spec (vname v) y) as [Ey|Ey]; try congruence.
        -- intros [= <-] Hu. destruct (Q1 _ _ Py Hu) as (_ & Q4 & _). left. change (vloc (with_loc next v)) with next. rewrite Cw. lia.
        -- intros Hw [= <-]. destruct (Q1 _ _ Px Hw) as (_ & Q4 & _). right. change (vloc (with_loc next v)) with next. rewrite Cw. lia.
        -- intros Hw Hu. eapply (Q2 x y); eassumption.
    + apply bind_ok in H as ([r n0] & H & H2). injection H2 as <- <-.
      destruct (fun A B => IH _ _ _ Fl A B H) as [Bn [Q1 Q2]]; [lia|lia|]. split; [lia|].
      assert (Np : ~ plain_name (vname v)) by auto.
      split.
      * intros x w Px. rewrite !find_cons. destruct (String.eqb_spec (vname v) x) as [<-|]; [contradiction|]. apply Q1. assumption.
      * intros x y w u Px Py Ne. rewrite !find_cons.
        destruct (String.eqb_spec (vname v) x) as [<-|]; [contradiction|]. destruct (String.eqb_spec (vname v) y) as [<-|]; [contradiction|].
        apply Q2; assumption.
Qed.
Lemma place_outs_inv : forall l next l' n, 0 <= next -> next + 2 * len l <= 65534 ->
  place_outs l next = Ok (l', n) -> next <= n <= next + 2 * len l /\ placed l l' next n.
Proof.
  induction l as [|v l IH]; intros next l' n Hn B H.
  - cbn [place_outs] in H. injection H as <- <-. change (len (@nil var)) with 0. split; [lia|]. split; intros; discriminate.
  - rewrite len_cons in *. pose proof (len_nonneg l) as Ll. pose proof (cell_range v) as Cr.
    assert (H' : exists r, place_outs l (next + cell v) = Ok (r, n) /\ l' = with_loc next v :: r).
    { cbn [place_outs] in H. unfold cell in *. destruct (ty_eqb (vty v) TVoid) eqn:T; cbn [andb] in H.
      - destruct (vext v =? 0).
        + rewrite u16_id in H by lia. apply bind_ok in H as ([r n0] & H & H2). injection H2 as <- <-. eauto.
        + apply ty_eqb_eq in T. rewrite T in H. discriminate.
      - destruct (numeric (vty v)); [|discriminate]. rewrite u16_id in H by lia.
        apply bind_ok in H as ([r n0] & H & H2). injection H2 as <- <-. eauto. }
    clear H. destruct H' as (r & H & ->).
    destruct (fun A B => IH _ _ _ A B H) as [Bn [Q1 Q2]]; [lia|lia|]. split; [lia|].
    assert (Cw : cell (with_loc next v) = cell v) by reflexivity.
    split.
    + intros x w Px. rewrite !find_cons. cbn [with_loc vname]. destruct (vname v =s? x).
      * intros [= <-]. split; [exists v; split; reflexivity|]. rewrite Cw. cbn [vloc with_loc]. lia.
      * intros Hw. destruct (Q1 _ _ Px Hw) as (Q3 & Q4 & Q5). split; [assumption|lia].
    + intros x y w u Px Py Ne. rewrite !find_cons. cbn [with_loc vname].
      destruct (String.eqb_spec (vname v) x) as [Ex|Ex], (String.eqb_spec (vname v) y) as [Ey|Ey]; try congruence.
      * intros [= <-] Hu. destruct (Q1 _ _ Py Hu) as (_ & Q4 & _). left. change (vloc (with_loc next v)) with next. rewrite Cw. lia.
      * intros Hw [= <-]. destruct (Q1 _ _ Px Hw) as (_ & Q4 & _). right. change (vloc (with_loc next v)) with next. rewrite Cw. lia.
      * intros Hw Hu. eapply (Q2 x y); eassumption.
Qed.
Lemma place_ins_defined l : forall next, place_ins l next <> Undef.
Proof.
  induction l as [|v l IH]; intros next; cbn [place_ins]; [discriminate|]. destruct (numeric _); [|discriminate].
  destruct (vloc v =? max16); (apply bind_defined; [apply IH|]; intros [? ?] _; discriminate).
Qed.
Lemma place_outs_defined l : forall next, place_outs l next <> Undef.
Proof.
  induction l as [|v l IH]; intros next; cbn [place_outs]; [discriminate|].
  destruct (_ && _); [apply bind_defined; [apply IH|]; intros [? ?] _; discriminate|].
  destruct (numeric _); [|discriminate]. apply bind_defined; [apply IH|]. intros [? ?] _. discriminate.
Qed.
Lemma fresh_find l x v : Forall fresh_var l -> find_var x l = Some v -> vused v = false.
Proof. intros F H. apply find_some in H as [H _]. rewrite Forall_forall in F. apply (F _ H). Qed.

(** The state in which Compile starts on the lines. *)
Lemma start_INV e c lines d0 vi vo n1 n2 :
  CINV e c lines -> 2 * lines <= 65534 -> place_ins (ins e) (start e) = Ok (vi, n1) -> place_outs (outs e) n1 = Ok (vo, n2) ->
  INV c (start e) n2 (C vi vo [] 0 0 0 [] d0 n2) /\
  (forall x v, plain_name x -> find_var x vo = Some v -> vused v = false).
Proof.
  intros [A1 A2 A3 A4 A5 A6] B H1 H2. pose proof (cnt_nonneg (ins e)). pose proof (len_nonneg (outs e)).
  destruct (fun A => place_ins_inv _ _ _ _ A1 A5 A H1) as [B1 [P1 P2]]; [lia|].
  destruct (fun A B => place_outs_inv _ _ _ _ A B H2) as [B2 [P3 P4]]; [lia|lia|].
  split.
  - constructor; cbn [c_size c_ts c_max c_dsize c_in c_out c_next]; try reflexivity; try lia.
    + constructor.
      * intros x v Px Hv. destruct (P1 _ _ Px Hv) as (_ & Q1 & Q2). lia.
      * intros x v Px Hv. destruct (P3 _ _ Px Hv) as (_ & Q1 & Q2). lia.
      * exact P2.
      * intros x y v w Px Py Hv Hw. destruct (P1 _ _ Px Hv) as (_ & Q1 & Q2). destruct (P3 _ _ Py Hw) as (_ & Q3 & Q4). left. lia.
      * exact P4.
      * lia.
      * lia.
      * lia.
    + intros x v Px Hv. destruct (P1 _ _ Px Hv) as ((v0 & F0 & ->) & _). cbn [with_loc vext vty]. apply A3; assumption.
    + intros x v Px Hv. destruct (P3 _ _ Px Hv) as ((v0 & F0 & ->) & _). cbn [with_loc vext vty vused].
      destruct (A4 _ _ Px F0) as (Q1 & Q2 & Q3). rewrite (fresh_find _ _ _ A2 F0). repeat split; try assumption; try discriminate; try lia.
      intros _. exact Q2.
  - intros x v Px Hv. destruct (P3 _ _ Px Hv) as ((v0 & F0 & ->) & _). cbn [with_loc vused]. exact (fresh_find _ _ _ A2 F0).
Qed.

Lemma extract_CINV p st e0 : plain p st -> extract p = Ok e0 ->
  CINV (configure e0 st) (config_of st) (len p) /\ start (configure e0 st) = cw p.
Proof.
  intros (P1 & P2 & P3) H. unfold extract in H. apply bind_ok in H as ([[vi vo] next] & H & H2). injection H2 as <-.
  destruct (extract_lines_inv p [] [] 0 0 vi vo next) as [X Xn]; try assumption.
  { constructor; try constructor; try lia. vm_compute. discriminate. }
  { fold (len p) in P1. lia. }
  destruct X as [X1 X2 X3 X4]. rewrite Z.add_0_l in *. split; [|rewrite configure_start; exact Xn].
  apply configure_inv; [|assumption].
  assert (Q : forall l x v, Forall start_var l -> plain_name x -> find_var x l = Some v -> vext v = 0 /\ vty v = TVoid).
  { intros l x v F Px Hv. pose proof (find_var_name _ _ _ Hv) as Nm. apply find_some in Hv as [Hv _].
    rewrite Forall_forall in F. destruct (F _ Hv) as (_ & Q1 & Q2). split; [assumption|]. apply Q2. rewrite Nm. assumption. }
  constructor; cbn [ins outs start no_config in_mem in_type out_mem out_type]; try assumption.
  - eapply Forall_impl; [|exact X1]. intros v Hv. apply Hv.
  - eapply Forall_impl; [|exact X2]. intros v Hv. apply Hv.
  - intros x v Px Hv. destruct (Q _ _ _ X1 Px Hv) as [-> ->]. repeat split; lia.
  - intros x v Px Hv. destruct (Q _ _ _ X2 Px Hv) as [-> ->]. repeat split; lia.
Qed.

(** ** The main result *)
Section Main.
Variable L : lib.

Lemma compile_defined p st e0 d0 : plain p st -> extract p = Ok e0 -> compile L p (configure e0 st) d0 <> Undef.
Proof.
  intros P X. destruct (extract_CINV _ _ _ P X) as [CI Cs]. destruct P as (P1 & P2 & P3). fold (len p) in P1.
  unfold compile. apply bind_defined; [apply place_ins_defined|]. intros [vi n1] H1.
  apply bind_defined; [apply place_outs_defined|]. intros [vo n2] H2.
  destruct (start_INV _ _ _ d0 _ _ _ _ CI ltac:(lia) H1 H2) as [I _].
  apply bind_defined.
  - eapply lines_defined; try eassumption; cbn [c_size c_next]; lia.
  - intros c _. destruct (c_ts c); discriminate.
Qed.

(** After an execution. *)

Lemma R0_after c e cfg S N D d s m c' c1 :
  INV cfg S N c1 -> R0 S D d c1 s m -> grows c1 c' -> ins e = c_in c' -> outs e = c_out c' -> c = cfg -> after_exec e c d s m.
Proof.
  intros I R (G1 & G2 & G3) Ei Eo ->. split.
  - split; [|split; [|apply (r_ext _ _ _ _ _ _ R)]].
    + intros x t Hx. assert (Px : plain_name x) by (apply (r_plain _ _ _ _ _ _ R); congruence).
      destruct (find_var x (c_out c1)) as [v|] eqn:Fx; [|rewrite (r_wr' _ _ _ _ _ _ R _ Px Fx) in Hx; discriminate].
      pose proof (r_wr _ _ _ _ _ _ R _ _ Px Fx) as Hw. rewrite Hx in Hw.
      destruct (vused v) eqn:U; [|discriminate]. injection Hw as ->.
      destruct (G2 _ _ Fx) as (w & Fw & El & Ee). destruct (inv_cout _ _ _ _ I _ _ Px Fx) as (Co1 & _).
      unfold memory_of, out_place. rewrite Eo, Fw, Ee, El, <- Co1. destruct (Z.eqb_spec (vext v) 0) as [E0|E0]; cbn [value_at].
      * apply (r_out _ _ _ _ _ _ R); assumption.
      * rewrite (r_ext _ _ _ _ _ _ R). reflexivity.
    + intros x v Hv Px. rewrite Ei, G1 in Hv. destruct (inv_cin _ _ _ _ I _ _ Px Hv) as (Ci1 & _).
      unfold memory_of, in_place. rewrite Ei, G1, Hv, <- Ci1. destruct (Z.eqb_spec (vext v) 0) as [E0|E0]; cbn [value_at].
      * apply (r_in _ _ _ _ _ _ R); assumption.
      * rewrite (r_ext _ _ _ _ _ _ R). reflexivity.
  - intros a Ha. apply (r_frame _ _ _ _ _ _ R). intros Q. apply Ha. rewrite Eo. apply G3. exact Q.
Qed.

Lemma execution p st e0 d0 e s0 d x0 : plain p st -> extract p = Ok e0 -> compile L p (configure e0 st) d0 = Ok e ->
  user_changed e d ->
  match srun L (config_of st) p (initial e d x0) with
  | SDone s => forall md, exists m, execute L md e s0 d x0 = Some (false, m) /\ after_exec e (config_of st) d s m
  | SError s => exists m, execute L SafeMode e s0 d x0 = Some (true, m) /\ after_exec e (config_of st) d s m
  | SUndef => forall md, execute L md e s0 d x0 = None
  | SStuck => False
  end.
Proof.
  intros P X H U. destruct (extract_CINV _ _ _ P X) as [CI Cs]. destruct P as (P1 & P2 & P3). fold (len p) in P1.
  unfold compile in H. apply bind_ok in H as ([vi n1] & H1 & H). apply bind_ok in H as ([vo n2] & H2 & H).
  apply bind_ok in H as (c' & H3 & H). destruct (c_ts c') as [|? ?] eqn:Ts; [|discriminate]. injection H as <-.
  set (e := EV _ _ _ _ _ _ _) in *.
  destruct (start_INV _ _ _ d0 _ _ _ _ CI ltac:(lia) H1 H2) as [I Un].
  set (cst0 := C vi vo [] 0 0 0 [] d0 n2) in *.
  set (S := start (configure e0 st)) in *. set (cfg := config_of st) in *.
  assert (Bs : c_size cst0 + 2 * len p <= 65534) by (cbn [cst0 c_size]; lia).
  assert (Bn : c_next cst0 + cw p <= S) by (cbn [cst0 c_next]; lia).
  destruct (lines_inv L cfg S n2 p cst0 c' I P2 Bs Bn H3) as (I' & _ & Gr & Nx & Kp).
  assert (HN : dsize e = n2) by exact (inv_ds _ _ _ _ I').
  assert (K : kept (c_data c') c').
  { split; [reflexivity|]. intros v _ _ Q. exact Q. }
  pose proof (inv_lay _ _ _ _ I') as Ly. destruct Gr as (G1 & G2 & G3). cbn [cst0 c_in c_out] in G1, G2.
  assert (NIn : forall a, 0 <= a < S -> ~ in_variable (ins e) a /\ ~ in_variable (outs e) a).
  { intros a Ha. split; intros (x & v & Hv & Px & _ & B).
    - destruct (lay_in _ _ _ _ Ly _ _ Px Hv). lia.
    - destruct (lay_out _ _ _ _ Ly _ _ Px Hv). lia. }
  assert (Ptr : forall v, is_var c' v -> vext v <> 0 -> load d (vloc v) U64 = load (c_data c') (vloc v) U64).
  { intros v (x & Px & Hx) Ev. apply load_ext. intros b Hb. change (words U64) with 2 in Hb. pose proof (cell_ext _ Ev).
    apply U; intros (y & w & Hw & Py & Ew & B); pose proof (cell_words _ Ew); cbn [e ins outs] in Hw; destruct Hx as [Hx|Hx].
    - destruct (string_dec x y) as [->|Ne]; [congruence|]. pose proof (lay_ii _ _ _ _ Ly x y v w Px Py Ne Hx Hw) as Q. unfold disj in Q. lia.
    - pose proof (lay_io _ _ _ _ Ly y x w v Py Px Hw Hx) as Q. unfold disj in Q. lia.
    - pose proof (lay_io _ _ _ _ Ly x y v w Px Py Hx Hw) as Q. unfold disj in Q. lia.
    - destruct (string_dec x y) as [->|Ne]; [congruence|]. pose proof (lay_oo _ _ _ _ Ly x y v w Px Py Ne Hx Hw) as Q. unfold disj in Q. lia. }
  assert (R : R0 S (c_data c') d cst0 (initial e d x0) (M 0 s0 d x0 false)).
  { constructor; cbn [initial stk mem wr sp smem dmem emem cst0 c_ts c_size c_in c_out]; try reflexivity; try (intros; discriminate).
    - intros a Ha. destruct (NIn a Ha). apply U; assumption.
    - intros v (x & Px & Hx) Ev. cbn [cst0 c_in c_out] in Hx. destruct Hx as [Hx|Hx].
      + apply Ptr; [|assumption]. exists x. rewrite G1. auto.
      + destruct (G2 _ _ Hx) as (w & Hw & El & Ee). rewrite <- El. apply Ptr; [|congruence]. exists x. auto.
    - intros x v Px Hv Ev. cbn [e ins]. rewrite G1, Hv. symmetry. apply Z.mod_small, load_range.
    - intros x v Px Hv Ev Us. rewrite (Un _ _ Px Hv) in Us. discriminate.
    - intros x v Px Hv. rewrite (Un _ _ Px Hv). reflexivity.
    - intros x Q. exfalso. apply Q. reflexivity. }
  destruct (lines_sim L cfg S n2 e (c_data c') d HN p cst0 c' (initial e d x0) (M 0 s0 d x0 false) I P2 Bs Bn H3 K) as (cp & Cd & Lc & Sm);
    [cbn [e ssize]; lia | exact R | reflexivity |].
  cbn [cst0 c_code] in Cd. rewrite app_nil_r in Cd.
  assert (Ec : code e = cp) by (cbn [e code]; rewrite Cd; apply rev_involutive).
  assert (Tg : u16 (Z.of_nat (List.length (code e))) = len cp).
  { rewrite Ec. fold (len cp). apply u16_id. pose proof (len_nonneg cp). lia. }
  unfold execute. rewrite Tg, Ec. destruct (srun L cfg p (initial e d x0)) as [s|s| |]; cbn [sims] in Sm.
  - destruct Sm as (m' & R' & Me & Run). intros md. specialize (Run md [] (len cp) ltac:(lia)).
    rewrite app_nil_r in Run. rewrite Run, Z.sub_diag. replace (run L e md [] 0 m') with (Some (m', 0)) by reflexivity. exists m'. split.
    + assert (Sp0 : sp m' = 0). { rewrite (r_sp _ _ _ _ _ _ R'), (inv_size _ _ _ _ I'), Ts. reflexivity. }
      rewrite Me, Sp0. destruct md; reflexivity.
    + eapply R0_after; try eassumption; try reflexivity. apply grows_refl.
  - destruct Sm as (m' & c1 & R' & I1 & Gr1 & Me & Run). destruct (Run [] (len cp) ltac:(lia)) as (togo' & Rn).
    rewrite app_nil_r in Rn. rewrite Rn. exists m'. split.
    + rewrite Me. reflexivity.
    + eapply R0_after; try eassumption; try reflexivity.
  - intros md. specialize (Sm md [] (len cp) ltac:(lia)). rewrite app_nil_r in Sm. rewrite Sm. reflexivity.
  - exact Sm.
Qed.
End Main.
