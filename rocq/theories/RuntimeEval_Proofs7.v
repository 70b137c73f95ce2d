(** The integer operators of the table are exact or report an error. *)
From Coq Require Import String.
From Verif Require Import Base BitsBase IntText_Model IntText_Spec IntArith_Model IntArith_Spec IntArith_Proofs IntArith_Proofs2 RuntimeEval_Model RuntimeEval_Spec
  RuntimeEval_Proofs.
Open Scope string_scope.
Open Scope Z_scope.
Open Scope list_scope.

Lemma ity_bits t : integer t = true -> ibits (ity_of t) = bits t /\ std_ty (ity_of t).
Proof. destruct t; intros H; try discriminate H; vm_compute; auto. Qed.
Lemma ity_range t : integer t = true -> imin (ity_of t) = least t /\ imax (ity_of t) = greatest t.
Proof. destruct t; intros H; try discriminate H; vm_compute; auto. Qed.
Lemma in_range_in_ty t z : integer t = true -> in_range t z = true <-> in_ty (ity_of t) z.
Proof.
  intros H. destruct (ity_range t H) as [A B]. unfold in_range, in_ty. rewrite A, B, andb_true_iff. lia.
Qed.
Lemma std_pos t : std_ty t -> 0 < ibits t /\ 1 < ibits t.
Proof. unfold std_ty. lia. Qed.
Lemma val_in t p : integer t = true -> in_ty (ity_of t) (val t p).
Proof. intros H. destruct (ity_bits t H) as [_ S]. apply cast_range. apply std_pos, S. Qed.
Lemma cast_uwrap t z : 0 < ibits t -> cast t (uwrap (ibits t) z) = cast t z.
Proof.
  intros H. unfold cast, swrap, uwrap. destruct (isgn t).
  - rewrite Zdiv.Zplus_mod_idemp_l. reflexivity.
  - apply Z.mod_mod. apply Z.pow_nonzero; lia.
Qed.
Lemma val_pat t z : integer t = true -> val t (pat t z) = cast (ity_of t) z.
Proof. intros H. destruct (ity_bits t H) as [E S]. unfold val, pat. rewrite <- E. apply cast_uwrap. apply std_pos, S. Qed.
Lemma val_pat_id t z : integer t = true -> in_ty (ity_of t) z -> val t (pat t z) = z.
Proof. intros H R. rewrite val_pat by assumption. apply cast_id; [|assumption]. apply std_pos, ity_bits, H. Qed.

Lemma n2n_exact L ti to_ p : integer ti = true -> integer to_ = true ->
  fst (n2n L ti to_ p) = in_range to_ (val ti p) /\
  val to_ (snd (n2n L ti to_ p)) = Z.max (least to_) (Z.min (greatest to_) (val ti p)).
Proof.
  intros Hi Ho. pose proof (val_in ti p Hi) as Vi. unfold n2n.
  assert (is_float ti = false) as -> by (destruct ti; try discriminate Hi; reflexivity).
  assert (is_float to_ = false) as -> by (destruct to_; try discriminate Ho; reflexivity). cbn [orb].
  rewrite safe_number_exact; try (apply ity_bits; assumption); [|assumption]. cbn [fst snd].
  destruct (ity_range to_ Ho) as [A B]. unfold in_range. rewrite A, B.
  assert (LG : least to_ <= greatest to_) by (destruct to_; vm_compute; discriminate).
  assert (Cl : clamp (least to_) (greatest to_) (val ti p) = Z.max (least to_) (Z.min (greatest to_) (val ti p))).
  { unfold clamp. rewrite Z.gtb_ltb. destruct (Z.ltb_spec (val ti p) (least to_)); [lia|].
    destruct (Z.ltb_spec (greatest to_) (val ti p)); lia. }
  split; [reflexivity|]. rewrite Cl. apply val_pat_id; [assumption|]. unfold in_ty. rewrite A, B.
  lia.
Qed.
Lemma n2n_ok L ti to_ p x : integer ti = true -> integer to_ = true -> n2n L ti to_ p = (true, x) ->
  val to_ x = val ti p /\ in_range to_ (val ti p) = true.
Proof.
  intros Hi Ho E. destruct (n2n_exact L ti to_ p Hi Ho) as [A B]. rewrite E in A, B. cbn [fst snd] in *. split; [|auto].
  rewrite B. symmetry in A. unfold in_range in A. apply andb_true_iff in A as [? ?]. lia.
Qed.
Lemma n2n_bad L ti to_ p x : integer ti = true -> integer to_ = true -> n2n L ti to_ p = (false, x) ->
  in_range to_ (val ti p) = false.
Proof. intros Hi Ho E. destruct (n2n_exact L ti to_ p Hi Ho) as [A B]. rewrite E in A. symmetry; exact A. Qed.

Lemma val_range t p : integer t = true -> least t <= val t p <= greatest t.
Proof. intros H. pose proof (val_in t p H) as V. destruct (ity_range t H) as [A B]. unfold in_ty in V. lia. Qed.
Lemma widens_in t u p : integer t = true -> integer u = true -> widens t u = true -> in_range u (val t p) = true.
Proof.
  intros Ht Hu W. pose proof (val_range t p Ht). unfold widens, in_range in *.
  rewrite !andb_true_iff in *. lia.
Qed.
Lemma widens_cast t u p : integer t = true -> integer u = true -> widens t u = true -> cast (ity_of u) (val t p) = val t p.
Proof.
  intros Ht Hu W. apply cast_id; [apply std_pos, ity_bits, Hu|]. apply in_range_in_ty; [assumption|].
  apply widens_in; assumption.
Qed.

(** The operators that must be right. *)
Definition exact_op (r : rfun) : Prop := forall g t1 t2 out f,
  rbody r = BFun g [t1; t2] out f -> integer t1 = true -> integer t2 = true -> integer out = true ->
  arithmetic (rname r) || comparison (rname r) = true -> forall x1 x2,
  match f [x1; x2] with
  | Some (v, false) => int_result (rname r) (val t2 x2) (val t1 x1) = Some (val out v)
  | Some (v, true) =>
      (if arithmetic (rname r) then widens t1 out && widens t2 out else widens t1 t2 || widens t2 t1) = true ->
      forall z, int_result (rname r) (val t2 x2) (val t1 x1) = Some z -> in_range out z = false
  | None => rname r = "DIV" /\ forall z, int_result (rname r) (val t2 x2) (val t1 x1) = Some z -> in_range out z = false
  end.

Section Ops.
Variable L : lib.

Definition op_of (name : string) : Z -> Z -> Z := if name =s? "ADD" then Z.add else if name =s? "SUB" then Z.sub else Z.mul.
Definition plain_ok (name : string) (t1 t2 out : ty) : bool :=
  widens t1 out && widens t2 out &&
  if name =s? "ADD" then in_range out (least t2 + least t1) && in_range out (greatest t2 + greatest t1)
  else if name =s? "SUB" then in_range out (least t2 - greatest t1) && in_range out (greatest t2 - least t1)
  else in_range out (least t2 * least t1) && in_range out (greatest t2 * greatest t1) &&
       in_range out (least t2 * greatest t1) && in_range out (greatest t2 * least t1).
Lemma mul_corners a b c d x y lo hi : a <= x <= b -> c <= y <= d ->
  lo <= a * c <= hi -> lo <= b * d <= hi -> lo <= a * d <= hi -> lo <= b * c <= hi -> lo <= x * y <= hi.
Proof.
  intros X Y. intros. destruct (Z.le_gt_cases 0 y).
  - assert (a * y <= x * y <= b * y) by nia. assert (lo <= a * y <= hi).
    { destruct (Z.le_gt_cases 0 a); nia. } assert (lo <= b * y <= hi). { destruct (Z.le_gt_cases 0 b); nia. } lia.
  - assert (b * y <= x * y <= a * y) by nia. assert (lo <= a * y <= hi).
    { destruct (Z.le_gt_cases 0 a); nia. } assert (lo <= b * y <= hi). { destruct (Z.le_gt_cases 0 b); nia. } lia.
Qed.

Lemma is3 name : name = "ADD" \/ name = "SUB" \/ name = "MUL" ->
  forall a b, int_result name a b = Some (op_of name a b) /\ arithmetic name = true.
Proof. intros [-> | [-> | ->]] a b; split; reflexivity. Qed.

Lemma outside lo hi z : ((z >? hi) || (z <? lo))%bool = negb ((lo <=? z) && (z <=? hi)).
Proof.
  rewrite Z.gtb_ltb. destruct (Z.ltb_spec hi z), (Z.ltb_spec z lo), (Z.leb_spec lo z), (Z.leb_spec z hi); cbn; lia.
Qed.
Lemma safe_op_exact name t a b : name = "ADD" \/ name = "SUB" \/ name = "MUL" -> std_ty t -> in_ty t a -> in_ty t b ->
  safe_op name t a b = (cast t (op_of name a b), negb ((imin t <=? op_of name a b) && (op_of name a b <=? imax t))).
Proof.
  intros N St A B. destruct (std_pos t St) as [P0 P1].
  destruct N as [-> | [-> | ->]]; unfold safe_op, op_of; cbn [String.eqb Ascii.eqb Bool.eqb]; rewrite <- outside.
  - rewrite sm_add_exact by assumption. unfold classify. f_equal. destruct (_ >? _); [reflexivity|]. destruct (_ <? _); reflexivity.
  - rewrite sm_sub_exact by assumption. unfold classify. f_equal. destruct (_ >? _); [reflexivity|]. destruct (_ <? _); reflexivity.
  - rewrite sm_mul_exact by assumption. reflexivity.
Qed.

Lemma plain_exact name t1 t2 out : name = "ADD" \/ name = "SUB" \/ name = "MUL" -> plain_ok name t1 t2 out = true ->
  exact_op (arith L name Plain t1 t2 out).
Proof.
  intros N P g t1' t2' out' f [= <- <- <- <- <-] H1 H2 Ho _ x1 x2. cbn [rname arith binary].
  unfold f_plain. fold (op_of name).
  unfold plain_ok in P. apply andb_true_iff in P as [W P]. apply andb_true_iff in W as [W1 W2].
  rewrite !widens_cast by assumption. destruct (is3 name N (val t2 x2) (val t1 x1)) as [-> _]. f_equal. symmetry.
  apply val_pat_id; [assumption|]. apply in_range_in_ty; [assumption|].
  pose proof (val_range t1 x1 H1). pose proof (val_range t2 x2 H2).
  unfold in_range in *. destruct N as [-> | [-> | ->]]; unfold op_of in *; cbn [String.eqb Ascii.eqb Bool.eqb] in *;
    rewrite !andb_true_iff in *.
  - lia.
  - lia.
  - pose proof (mul_corners (least t2) (greatest t2) (least t1) (greatest t1) (val t2 x2) (val t1 x1) (least out) (greatest out)). lia.
Qed.
Lemma safe_result name t1 t2 out a b : name = "ADD" \/ name = "SUB" \/ name = "MUL" -> integer out = true ->
  integer t1 = true -> integer t2 = true -> in_range out a = true -> in_range out b = true ->
  let '(x3, e) := safe_op name (ity_of out) a b in
  if e then forall z, int_result name a b = Some z -> in_range out z = false
  else int_result name a b = Some (val out (pat out x3)).
Proof.
  intros N Ho H1 H2 A B. apply in_range_in_ty in A; [|assumption]. apply in_range_in_ty in B; [|assumption].
  rewrite safe_op_exact; [|assumption|apply ity_bits; assumption|assumption|assumption].
  destruct (is3 name N a b) as [-> _]. destruct (ity_range out Ho) as [Rl Rg]. rewrite Rl, Rg.
  fold (in_range out (op_of name a b)). destruct (in_range out (op_of name a b)) eqn:E; cbn [negb].
  - f_equal. rewrite val_pat by assumption. apply in_range_in_ty in E; [|assumption].
    rewrite !cast_id; try reflexivity; try assumption; try (apply std_pos, ity_bits; assumption).
    rewrite cast_id; try assumption. apply std_pos, ity_bits; assumption.
  - intros z [= <-]. exact E.
Qed.
Lemma safe_exact name t1 t2 out : name = "ADD" \/ name = "SUB" \/ name = "MUL" -> widens t1 out && widens t2 out = true ->
  exact_op (arith L name Safe t1 t2 out).
Proof.
  intros N P g t1' t2' out' f [= <- <- <- <- <-] H1 H2 Ho _ x1 x2. cbn [rname arith binary].
  apply andb_true_iff in P as [W1 W2]. unfold f_safe. rewrite !widens_cast by assumption.
  pose proof (safe_result name t1 t2 out (val t2 x2) (val t1 x1) N Ho H1 H2
                (widens_in _ _ _ H2 Ho W2) (widens_in _ _ _ H1 Ho W1)) as Q.
  destruct (safe_op _ _ _ _) as [x3 e]. destruct e; [intros _; exact Q|exact Q].
Qed.
Lemma ssafe_exact name t1 t2 out : name = "ADD" \/ name = "SUB" \/ name = "MUL" -> exact_op (arith L name SSafe t1 t2 out).
Proof.
  intros N g t1' t2' out' f [= <- <- <- <- <-] H1 H2 Ho _ x1 x2. cbn [rname arith binary].
  unfold f_ssafe. destruct (n2n L t1 out x1) as [s1 y1] eqn:E1. destruct (n2n L t2 out x2) as [s2 y2] eqn:E2.
  destruct (is3 name N (val t2 x2) (val t1 x1)) as [_ ->].
  destruct s1; [|cbn [andb]; intros W; exfalso; apply n2n_bad in E1; try assumption; apply andb_true_iff in W as [W _]; rewrite (widens_in t1 out) in E1; auto; discriminate].
  destruct s2; [|cbn [andb]; intros W; exfalso; apply n2n_bad in E2; try assumption; apply andb_true_iff in W as [_ W]; rewrite (widens_in t2 out) in E2; auto; discriminate].
  cbn [andb]. apply n2n_ok in E1; try assumption. apply n2n_ok in E2; try assumption.
  destruct E1 as [-> R1], E2 as [-> R2].
  pose proof (safe_result name t1 t2 out (val t2 x2) (val t1 x1) N Ho H1 H2 R2 R1) as Q.
  destruct (safe_op _ _ _ _) as [x3 e]. destruct e; [intros _; exact Q|exact Q].
Qed.

Lemma quot_result out a b : integer out = true -> in_range out a = true -> in_range out b = true -> b <> 0 ->
  match quot out a b with
  | Some v => Z.quot a b = val out v
  | None => in_range out (Z.quot a b) = false
  end.
Proof.
  intros Ho A B B0. unfold quot. destruct (ity_range out Ho) as [Rl Rg]. rewrite Rl.
  unfold in_range in A, B. rewrite andb_true_iff in A, B.
  destruct (isgn (ity_of out)) eqn:Sg; cbn [andb].
  - assert (Sy : least out = - (greatest out + 1) /\ 0 <= greatest out) by (destruct out; try discriminate Ho; try discriminate Sg; vm_compute; split; [reflexivity|discriminate|reflexivity|discriminate|reflexivity|discriminate|reflexivity|discriminate] || (split; [reflexivity|discriminate])).
    destruct (Z.eqb_spec b (-1)) as [->|Nb]; cbn [andb].
    + destruct (Z.eqb_spec a (least out)) as [->|Na].
      * unfold in_range. replace (Z.quot (least out) (-1)) with (- least out).
        2:{ change (-1) with (-(1)). rewrite Z.quot_opp_r by lia. rewrite Z.quot_1_r. reflexivity. }
        apply andb_false_iff. right. lia.
      * symmetry. apply val_pat_id; [assumption|]. apply in_range_in_ty; [assumption|]. unfold in_range.
        replace (Z.quot a (-1)) with (- a). 2:{ change (-1) with (-(1)). rewrite Z.quot_opp_r by lia. rewrite Z.quot_1_r. reflexivity. }
        apply andb_true_iff. lia.
    + symmetry. apply val_pat_id; [assumption|]. apply in_range_in_ty; [assumption|]. unfold in_range.
      destruct (Z.eq_dec b 1) as [->|N1]; [rewrite Z.quot_1_r; apply andb_true_iff; lia|].
      assert (Z.abs (Z.quot a b) <= greatest out).
      { rewrite <- Z.quot_abs by assumption. rewrite Z.quot_div_nonneg by lia.
        destruct (Z.eq_dec a 0) as [->|Na0]; [rewrite Z.div_0_l by lia; lia|].
        pose proof (Z.div_lt (Z.abs a) (Z.abs b) ltac:(lia) ltac:(lia)). lia. }
      apply andb_true_iff. lia.
  - assert (Sy : least out = 0) by (destruct out; try discriminate Ho; try discriminate Sg; reflexivity).
    symmetry. apply val_pat_id; [assumption|]. apply in_range_in_ty; [assumption|]. unfold in_range.
    rewrite Z.quot_div_nonneg by lia. pose proof (Z.div_pos a b ltac:(lia) ltac:(lia)).
    pose proof (Z.div_le_upper_bound a b a ltac:(lia) ltac:(nia)). apply andb_true_iff. lia.
Qed.

Lemma div_exact t1 t2 out : widens t1 out && widens t2 out = true -> exact_op (arith L "DIV" Div t1 t2 out).
Proof.
  intros P g t1' t2' out' f [= <- <- <- <- <-] H1 H2 Ho _ x1 x2. cbn [rname arith binary].
  apply andb_true_iff in P as [W1 W2]. unfold f_div. rewrite !widens_cast by assumption.
  unfold int_result. cbn [String.eqb Ascii.eqb Bool.eqb]. destruct (Z.eqb_spec (val t1 x1) 0) as [E|E]; cbn [negb].
  - discriminate.
  - pose proof (quot_result out (val t2 x2) (val t1 x1) Ho (widens_in _ _ _ H2 Ho W2) (widens_in _ _ _ H1 Ho W1) E) as Q.
    destruct (quot _ _ _); [f_equal; exact Q|]. split; [reflexivity|]. intros z [= <-]. exact Q.
Qed.
Lemma sdiv_exact t1 t2 out : exact_op (arith L "DIV" SDiv t1 t2 out).
Proof.
  intros g t1' t2' out' f [= <- <- <- <- <-] H1 H2 Ho _ x1 x2. cbn [rname arith binary].
  unfold f_sdiv. destruct (n2n L t1 out x1) as [s1 y1] eqn:E1. destruct (n2n L t2 out x2) as [s2 y2] eqn:E2.
  unfold int_result, arithmetic. cbn [String.eqb Ascii.eqb Bool.eqb orb].
  destruct (Z.eqb_spec (val t1 x1) 0) as [E|E]; cbn [negb andb]; [discriminate|].
  destruct s1; [|cbn [andb]; intros W; exfalso; apply n2n_bad in E1; try assumption; apply andb_true_iff in W as [W _]; rewrite (widens_in t1 out) in E1; auto; discriminate].
  destruct s2; [|cbn [andb]; intros W; exfalso; apply n2n_bad in E2; try assumption; apply andb_true_iff in W as [_ W]; rewrite (widens_in t2 out) in E2; auto; discriminate].
  cbn [andb]. apply n2n_ok in E1; try assumption. apply n2n_ok in E2; try assumption.
  destruct E1 as [-> R1], E2 as [-> R2]. pose proof (quot_result out (val t2 x2) (val t1 x1) Ho R2 R1 E) as Q.
  destruct (quot _ _ _); [f_equal; exact Q|]. split; [reflexivity|]. intros z [= <-]. exact Q.
Qed.

Definition is_cmp (n : string) : Prop := n = "GT" \/ n = "LT" \/ n = "GTE" \/ n = "LTE" \/ n = "EQ" \/ n = "NEQ".
Lemma cmp_value n a b : is_cmp n -> int_result n a b = Some (val U8 (of_bool (cmp_op n a b))) /\ arithmetic n = false.
Proof.
  intros [-> | [-> | [-> | [-> | [-> | ->]]]]]; (split; [|reflexivity]); unfold int_result, cmp_op;
    cbn [String.eqb Ascii.eqb Bool.eqb]; f_equal; unfold truth, of_bool;
    match goal with |- (if ?c then _ else _) = val U8 (if ?d then _ else _) =>
      replace d with c by (rewrite ?Z.gtb_ltb, ?Z.geb_leb; reflexivity); destruct c; reflexivity end.
Qed.
Lemma cmp_exact n t : is_cmp n -> exact_op (binary n false t t U8 (f_cmp L n t)).
Proof.
  intros N g t1' t2' out' f [= <- <- <- <- <-] H1 _ Ho _ x1 x2. cbn [rname binary]. unfold f_cmp.
  assert (is_float t = false) as -> by (destruct t; try discriminate H1; reflexivity).
  apply cmp_value. assumption.
Qed.
Definition cmp_ok (t1 t2 tq : ty) : bool :=
  integer tq && implb (widens t1 t2 || widens t2 t1) (widens t1 tq && widens t2 tq).
Lemma cmp3_exact n t1 t2 tq : is_cmp n -> cmp_ok t1 t2 tq = true -> exact_op (binary n false t1 t2 U8 (f_cmp3 L n t1 t2 tq)).
Proof.
  intros N Q g t1' t2' out' f [= <- <- <- <- <-] H1 H2 Ho _ x1 x2. cbn [rname binary]. unfold f_cmp3.
  destruct (cmp_value n (val t2 x2) (val t1 x1) N) as [V ->].
  apply andb_true_iff in Q as [Iq Q].
  destruct (n2n L t1 tq x1) as [s1 y1] eqn:E1. destruct (n2n L t2 tq x2) as [s2 y2] eqn:E2.
  destruct s1, s2; cbn [andb].
  1:{ apply n2n_ok in E1; try assumption. apply n2n_ok in E2; try assumption.
      destruct E1 as [-> _], E2 as [-> _]. exact V. }
  all: intros W z Z; exfalso; rewrite W in Q; cbn [implb] in Q; apply andb_true_iff in Q as [Q1 Q2];
    apply (widens_in t1 tq x1) in Q1; try assumption; apply (widens_in t2 tq x2) in Q2; try assumption.
  - apply n2n_bad in E2; try assumption. congruence.
  - apply n2n_bad in E1; try assumption. congruence.
  - apply n2n_bad in E1; try assumption. congruence.
Qed.

Definition arith_ok (n : string) (k : tmpl) (t1 t2 out : ty) : bool :=
  match k with
  | Plain => plain_ok n t1 t2 out
  | Safe | Div => widens t1 out && widens t2 out
  | SSafe | SDiv => true
  end &&
  match k with
  | Plain | Safe | SSafe => (n =s? "ADD") || (n =s? "SUB") || (n =s? "MUL")
  | Div | SDiv => n =s? "DIV"
  end.
Lemma arith_exact n k t1 t2 out : arith_ok n k t1 t2 out = true -> exact_op (arith L n k t1 t2 out).
Proof.
  unfold arith_ok. intros H. apply andb_true_iff in H as [A B].
  destruct k; try (assert (N : n = "ADD" \/ n = "SUB" \/ n = "MUL")
    by (rewrite !orb_true_iff, !String.eqb_eq in B; tauto)); try (apply String.eqb_eq in B; subst n).
  - apply plain_exact; assumption.
  - apply safe_exact; assumption.
  - apply ssafe_exact; assumption.
  - apply div_exact; assumption.
  - apply sdiv_exact.
Qed.
Lemma not_exact r : arithmetic (rname r) || comparison (rname r) = false -> exact_op r.
Proof. intros H g t1 t2 out f _ _ _ _ E. congruence. Qed.
Lemma one_exact r : (forall g t1 t2 out f, rbody r <> BFun g [t1; t2] out f) -> exact_op r.
Proof. intros H g t1 t2 out f E. destruct (H _ _ _ _ _ E). Qed.
Lemma float_exact n g t f : integer t = false -> exact_op (binary n g t t t f).
Proof. intros H g' t1 t2 out f' [= <- <- <- <- <-] I. congruence. Qed.

Lemma table_exact : Forall exact_op (table L).
Proof.
  unfold table.
  repeat match goal with
  | |- Forall exact_op (op2 _ _ _ _ _ ++ _) => apply Forall_app; split; [constructor; [apply arith_exact; vm_compute; reflexivity|constructor]|]
  | |- Forall exact_op (op3 _ _ _ _ _ _ ++ _) => apply Forall_app; split;
      [constructor; [apply arith_exact; vm_compute; reflexivity|constructor; [apply arith_exact; vm_compute; reflexivity|constructor]]|]
  | |- Forall exact_op (_ ++ _) => apply Forall_app; split
  end.
  - apply Forall_map_all. intros; apply one_exact; discriminate.
  - apply Forall_map_all. intros; apply one_exact; discriminate.
  - apply Forall_flat_map_all. intros; apply Forall_map_all. intros; apply one_exact; discriminate.
  - apply Forall_flat_map_all. intros; apply Forall_map_all. intros; apply one_exact; discriminate.
  - apply Forall_map_all. intros; apply not_exact; reflexivity.
  - apply Forall_flat_map_all. intros n Hn. apply Forall_map_all. intros t _. apply cmp_exact.
    cbn in Hn. unfold is_cmp. intuition congruence.
  - apply Forall_map_all. intros n Hn. apply not_exact. cbn in Hn. intuition subst; reflexivity.
  - constructor; [|constructor]. apply one_exact; discriminate.
  - apply Forall_flat_map_all. intros n _. apply Forall_map_all. intros t Ht. apply float_exact. cbn in Ht. intuition subst; reflexivity.
  - apply Forall_map_all. intros; apply one_exact; discriminate.
  - apply Forall_flat_map_all. intros n Hn. apply Forall_flat_map_all. intros [t tq] Hp.
    assert (N : is_cmp n) by (cbn in Hn; unfold is_cmp; intuition congruence).
    assert (K : cmp_ok t tq tq = true /\ cmp_ok tq t tq = true).
    { unfold comp_block in Hp. cbn [In] in Hp.
      repeat (destruct Hp as [[= <- <-]|Hp]; [vm_compute; split; reflexivity|]). destruct Hp. }
    constructor; [|constructor; [|constructor]]; apply cmp3_exact; try assumption; apply K.
  - apply Forall_map_all. intros; apply one_exact; discriminate.
  - apply Forall_map_all. intros; apply one_exact; discriminate.
  - apply Forall_map_all. intros; apply one_exact; discriminate.
  - apply Forall_map_all. intros; apply one_exact; discriminate.
Qed.

(** The conversion: saturated, and an error exactly when the number does not fit. *)
Definition exact_cast (r : rfun) : Prop := forall g t out f,
  rname r = "CAST" -> rbody r = BFun g [t] out f -> integer t = true -> integer out = true -> forall x, exists v,
  f [x] = Some (v, negb (in_range out (val t x))) /\ val out v = Z.max (least out) (Z.min (greatest out) (val t x)).
Definition exact_neg (r : rfun) : Prop := forall g t out f,
  rname r = "NEG" -> rbody r = BFun g [t] out f -> integer t = true -> integer out = true -> forall x,
  match f [x] with
  | Some (v, false) => val t x <> least out -> val out v = - val t x
  | Some (v, true) => in_range out (val t x) = false
  | None => val t x = least out
  end.
Lemma cast_exact t1 t2 : exact_cast (unary "CAST" t1 t2 (f_cast L t1 t2)).
Proof.
  intros g t out f _ [= <- <- <- <-] Ht Ho x. unfold f_cast. destruct (n2n_exact L t1 t2 x Ht Ho) as [A B].
  destruct (n2n L t1 t2 x) as [ok v]. cbn [fst snd] in *. exists v. subst ok. auto.
Qed.
Definition neg_ok (t2 : ty) : bool := negb (integer t2) || (least t2 =? - greatest t2 - 1).
Lemma neg_exact t1 t2 n : neg_ok t2 = true -> exact_neg (unary n t1 t2 (f_neg L t1 t2)).
Proof.
  intros K g t out f _ [= <- <- <- <-] Ht Ho x. unfold f_neg.
  unfold neg_ok in K. rewrite Ho in K. cbn [negb orb] in K. apply Z.eqb_eq in K.
  assert (is_float t1 = false) as -> by (destruct t1; try discriminate Ht; reflexivity).
  destruct (n2n L t1 t2 x) as [sat x1] eqn:E. destruct sat; [|apply n2n_bad in E; assumption].
  apply n2n_ok in E as [E R]; try assumption. rewrite E. unfold signed_ub. destruct (ity_range t2 Ho) as [A B].
  rewrite A, B. unfold in_range in R. apply andb_true_iff in R.
  destruct (_ && negb _) eqn:S.
  - apply andb_true_iff in S as [_ S]. apply negb_true_iff, andb_false_iff in S. lia.
  - intros NL. rewrite val_pat_id; [reflexivity|assumption|]. unfold in_ty. rewrite A, B. lia.
Qed.

Lemma not_named (P : rfun -> Prop) (n : string) (l : list rfun) :
  (forall r, rname r <> n -> P r) -> forallb (fun r => negb (rname r =s? n)) l = true -> Forall P l.
Proof.
  intros H F. rewrite forallb_forall in F. apply Forall_forall. intros r Hr. apply H. specialize (F r Hr).
  apply negb_true_iff, String.eqb_neq in F. exact F.
Qed.
Lemma table_cast : Forall exact_cast (table L).
Proof.
  assert (O : forall r, rname r <> "CAST" -> exact_cast r) by (intros r N g t out f E; congruence).
  unfold table. apply Forall_app; split; [apply (not_named _ _ _ O); vm_compute; reflexivity|].
  apply Forall_app; split; [apply (not_named _ _ _ O); vm_compute; reflexivity|].
  apply Forall_app; split; [|apply (not_named _ _ _ O); vm_compute; reflexivity].
  apply Forall_flat_map_all. intros t1 _. apply Forall_map_all. intros t2 _. apply cast_exact.
Qed.
Lemma table_neg : Forall exact_neg (table L).
Proof.
  assert (O : forall r, rname r <> "NEG" -> exact_neg r) by (intros r N g t out f E; congruence).
  unfold table. do 9 (apply Forall_app; split; [apply (not_named _ _ _ O); vm_compute; reflexivity|]).
  apply Forall_app; split; [|apply (not_named _ _ _ O); vm_compute; reflexivity].
  apply Forall_map_all. intros [a b] Hp. cbn [fst snd]. apply neg_exact. cbn [In] in Hp.
  repeat (destruct Hp as [[= <- <-]|Hp]; [vm_compute; reflexivity|]). destruct Hp.
Qed.
End Ops.
