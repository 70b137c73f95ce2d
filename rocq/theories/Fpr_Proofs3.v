(** The digits of a number below ten. *)
From Verif Require Import Base Flt_Model Flt_Spec Flt_Proofs Flt_Proofs2 Ftx_Model Ftx_Spec Ftx_Proofs Ftx_Proofs2 Ftx_Proofs3 Ftx_Proofs4 Ftx_Proofs5 Ftx_Proofs6 Fpr_Model Fpr_Proofs Fpr_Proofs2.
From Coq Require Import Lia ZArith Bool List.
Import ListNotations.
Open Scope Z_scope.

Section Digits.
Variables (f : fmt) (c : Z).
Hypothesis (Hf : is_format f) (Hl : low f c).
Let P := 2 ^ prec f.
Let U := 2 ^ (- c).
(** the part before the point *)
Lemma to_int_floor x X : isv f c x X -> 0 <= X -> X < 10 * U -> to_int int8 x = Some (X / U) /\ 0 <= X / U <= 9.
Proof.
  intros [m [e [-> [[Fm [Fe Fb]] V]]]] H0 H1. destruct (PUf f c Hf Hl) as [PB PU]. fold U in PU. destruct (low_facts f c Hf Hl) as [L1 [L2 _]].
  assert (m0 : 0 <= m) by (unfold at_unit in V; pose proof (p2pos (e - c) ltac:(lia)); destruct (Z.leb_spec 0 m); [assumption|]; assert (m * 2 ^ (e - c) < 0) by (apply Z.mul_neg_pos; lia); lia).
  assert (T : trunc m e = X / U).
  { rewrite <- V. unfold at_unit, trunc, U. destruct (Z.leb_spec 0 e).
    - replace (e - c) with (e + - c) by lia. rewrite p2add by lia. rewrite Z.mul_assoc, Z.div_mul by (apply Z.pow_nonzero; lia). reflexivity.
    - rewrite Z.quot_div_nonneg by (try apply p2pos; lia). replace (- c) with (- e + (e - c)) by lia. rewrite p2add by lia. rewrite Z.div_mul_cancel_r; [reflexivity|apply Z.pow_nonzero; lia|apply Z.pow_nonzero; lia]. }
  assert (D : 0 <= X / U <= 9) by (split; [apply Z.div_pos; lia|]; assert (X / U < 10) by (apply Z.div_lt_upper_bound; lia); lia).
  split; [|exact D]. cbn [to_int]. rewrite T. unfold imin, imax, int8. cbn [sgn wid]. change (- 2 ^ (8 - 1)) with (-128). change (2 ^ (8 - 1) - 1) with 127.
  destruct (Z.leb_spec (-128) (X / U)); [|lia]. destruct (Z.leb_spec (X / U) 127); [reflexivity|lia].
Qed.
(** what is left is a number of the format, at most 1 - 2^(-prec) *)
Lemma rest_isv x X : isv f c x X -> 0 <= X -> X < 10 * U -> exists y, isv f c y (X mod U) /\ P * (X mod U) <= (P - 1) * U.
Proof.
  intros [m [e [-> [[Fm [Fe Fb]] V]]]] H0 H1. destruct (PUf f c Hf Hl) as [PB PU]. fold U in PU. fold P in PB. destruct (low_facts f c Hf Hl) as [L1 [L2 _]]. destruct (format_emax f Hf) as [P1 [P2 P3]].
  assert (m0 : 0 <= m) by (unfold at_unit in V; pose proof (p2pos (e - c) ltac:(lia)); destruct (Z.leb_spec 0 m); [assumption|]; assert (m * 2 ^ (e - c) < 0) by (apply Z.mul_neg_pos; lia); lia).
  rewrite Z.abs_eq in Fm by exact m0. fold P in Fm.
  destruct (Z.leb_spec 0 e) as [He|He].
  - assert (X mod U = 0).
    { rewrite <- V. unfold at_unit, U. replace (e - c) with (e + - c) by lia. rewrite p2add by lia. rewrite Z.mul_assoc. apply Z.mod_mul. apply Z.pow_nonzero; lia. }
    rewrite H. exists zero. split; [apply zero_isv; exact Hf|]. rewrite Z.mul_0_r. apply Z.mul_nonneg_nonneg; lia.
  - set (q := m mod 2 ^ (- e)). pose proof (p2pos (- e) ltac:(lia)) as Pe. pose proof (Z.mod_pos_bound m (2 ^ (- e)) Pe) as Bq. fold q in Bq.
    assert (Q : X mod U = q * 2 ^ (e - c)).
    { rewrite <- V. unfold at_unit, U. replace (- c) with (- e + (e - c)) by lia. rewrite p2add by lia. rewrite Zmult_mod_distr_r. reflexivity. }
    assert (qm : q <= m) by (apply Z.mod_le; lia).
    exists (Fin q e). split.
    + rewrite Q. exists q, e. split; [reflexivity|]. split; [|reflexivity]. split; [rewrite Z.abs_eq by lia; fold P; lia|]. split; [exact Fe|].
      destruct (Z.eq_dec q 0) as [Hq|Hq]; [left; exact Hq|right]. assert (bits q <= - e) by (apply bits_le; [lia|rewrite Z.abs_eq by lia; lia]). lia.
    + rewrite Q. destruct (Z.leb_spec (- prec f) e) as [L|L].
      * replace U with (2 ^ (- e) * 2 ^ (e - c)) by (unfold U; rewrite <- p2add by lia; f_equal; lia). rewrite !Z.mul_assoc. apply Z.mul_le_mono_nonneg_r; [apply Z.lt_le_incl, p2pos; lia|].
        assert (P * q <= P * (2 ^ (- e) - 1)) by (apply Z.mul_le_mono_nonneg_l; lia). rewrite Z.mul_sub_distr_l in H. rewrite Z.mul_sub_distr_r.
        assert (2 ^ (- e) <= P) by (unfold P; apply p2le; lia). lia.
      * replace U with (2 ^ (- e) * 2 ^ (e - c)) by (unfold U; rewrite <- p2add by lia; f_equal; lia). rewrite !Z.mul_assoc. apply Z.mul_le_mono_nonneg_r; [apply Z.lt_le_incl, p2pos; lia|].
        assert (2 * P <= 2 ^ (- e)) by (unfold P; rewrite <- Z.pow_succ_r by lia; apply p2le; lia).
        apply Z.le_trans with (P * P); [apply Z.mul_le_mono_nonneg_l; lia|]. apply Z.le_trans with ((P - 1) * (2 * P)); [|apply Z.mul_le_mono_nonneg_l; lia].
        rewrite Z.mul_sub_distr_r. assert (16777216 * P <= P * P) by (apply Z.mul_le_mono_nonneg_r; lia). lia.
Qed.
Definition next (x : fl) (d : Z) : fl := fmul f (fsub f x (of_int f d)) (ten f).
Lemma fsub_exact x y X Y : isv f c x X -> isv f c y Y -> exists m e, fsub f x y = rnd f m e /\ c <= e /\ at_unit c m e = X - Y.
Proof.
  intros [m [e [-> [[_ [Fe _]] V]]]] [m' [e' [-> [[_ [Fe' _]] V']]]]. destruct (low_facts f c Hf Hl) as [L1 _]. cbn [fsub]. eexists; eexists. split; [reflexivity|]. split; [lia|].
  rewrite <- V, <- V'. unfold at_unit. rewrite Z.mul_sub_distr_r, <- !Z.mul_assoc, <- !p2add by lia. f_equal; do 2 f_equal; lia.
Qed.
Lemma next_ok x X : isv f c x X -> 0 <= X -> X < 10 * U ->
  exists Y, isv f c (next x (X / U)) Y /\ 0 <= Y < 10 * U /\ P * Z.abs (Y - 10 * (X mod U)) <= 8 * U.
Proof.
  intros Ix H0 H1. destruct (PUf f c Hf Hl) as [PB PU]. fold U in PU. fold P in PB. destruct (to_int_floor x X Ix H0 H1) as [_ D]. destruct (rest_isv x X Ix H0 H1) as [y [Iy By]].
  pose proof (Z.mod_pos_bound X U PU) as BM. unfold next. rewrite (digit_eq f _ Hf D).
  assert (Id : isv f c (Fin (X / U) 0) (X / U * U)) by (apply int_isv; [exact Hf|rewrite Z.abs_eq by lia; fold P; lia]).
  destruct (fsub_exact x _ _ _ Ix Id) as [m [e [E [He W]]]]. assert (R : X - X / U * U = X mod U) by (pose proof (Z.div_mod X U ltac:(lia)); lia). rewrite R in W.
  assert (Is : isv f c (fsub f x (Fin (X / U) 0)) (X mod U)) by (rewrite E, <- W; apply (rnd_same f c m e y Hf Hl He); rewrite W; exact Iy).
  destruct (times_ten f c _ _ Hf Hl Is) as [m2 [e2 [E2 [He2 W2]]]]. rewrite E2.
  destruct (rnd_abs f c Hf Hl m2 e2 4 He2 ltac:(lia)) as [v [Iv [Bv Ev]]]; [rewrite W2; fold U; change (2 ^ 4) with 16; lia|]. fold U P in Ev, Bv. rewrite W2 in Ev. change (2 ^ 4) with 16 in *.
  exists v. split; [exact Iv|]. split; [|lia]. split; [lia|]. apply Z.lt_nge. intros HV.
  assert (A : 2 * (P * (v - 10 * (X mod U))) <= 16 * U) by (apply Z.le_trans with (2 * P * Z.abs (v - 10 * (X mod U))); [rewrite <- Z.mul_assoc; apply Z.mul_le_mono_nonneg_l; [lia|apply Z.mul_le_mono_nonneg_l; lia]|exact Ev]).
  assert (B : P * (10 * U) <= P * v) by (apply Z.mul_le_mono_nonneg_l; lia). rewrite Z.mul_sub_distr_l in A. replace (P * (10 * (X mod U))) with (10 * (P * (X mod U))) in A by ring. replace (P * (10 * U)) with (10 * (P * U)) in B by ring. rewrite Z.mul_sub_distr_r in By. lia.
Qed.

(** ** All the digits *)
Fixpoint digs (k : nat) (x : fl) : list Z :=
  match k with O => [] | S k => match to_int int8 x with Some d => 48 + d :: digs k (next x d) | None => [] end end.
Lemma follow_cons n d ds : follow n (d :: ds) = follow (n * 10 + (d - 48)) ds.
Proof. reflexivity. Qed.
Lemma digs_ok k : forall x X, isv f c x X -> 0 <= X -> X < 10 * U ->
  length (digs k x) = k /\ digits (digs k x)
  /\ forall n, exists Y, 0 <= Y < 10 * U /\ P * Z.abs ((10 * n * U + X) * 10 ^ Z.of_nat k - (10 * follow n (digs k x) * U + Y)) <= (10 ^ Z.of_nat k - 1) * U.
Proof.
  destruct (PUf f c Hf Hl) as [PB PU]. fold U in PU. fold P in PB. induction k as [|k IH]; intros x X Ix H0 H1.
  - split; [reflexivity|]. split; [constructor|]. intros n. exists X. split; [lia|]. cbn [digs follow fold_left Z.of_nat]. change (10 ^ 0) with 1. rewrite Z.mul_1_r, Z.sub_diag. cbn [Z.abs]. lia.
  - destruct (to_int_floor x X Ix H0 H1) as [E D]. destruct (next_ok x X Ix H0 H1) as [Y [Iy [[Y0 Y1] NY]]]. cbn [digs]. rewrite E. destruct (IH _ _ Iy Y0 Y1) as [A1 [A2 A3]].
    split; [cbn [length]; rewrite A1; reflexivity|]. split; [constructor; [lia|exact A2]|]. intros n. rewrite follow_cons. replace (48 + X / U - 48) with (X / U) by lia.
    destruct (A3 (n * 10 + X / U)) as [Z' [BZ NZ]]. exists Z'. split; [exact BZ|]. rewrite Nat2Z.inj_succ, Z.pow_succ_r by lia. pose proof (ten_ge (Z.of_nat k) ltac:(lia)) as HT. set (T := 10 ^ Z.of_nat k) in *.
    set (N := follow (n * 10 + X / U) (digs k (next x (X / U)))) in *.
    assert (R : X = X / U * U + X mod U) by (pose proof (Z.div_mod X U ltac:(lia)); lia). set (d := X / U) in *. set (M := X mod U) in *.
    replace ((10 * n * U + X) * (10 * T)) with ((10 * (n * 10 + d) * U + 10 * M) * T) by (rewrite R; ring).
    assert (G : P * Z.abs ((10 * (n * 10 + d) * U + 10 * M) * T - (10 * (n * 10 + d) * U + Y) * T) <= 8 * (U * T)).
    { rewrite <- Z.mul_sub_distr_r, <- abs_mul_r by lia. replace (10 * (n * 10 + d) * U + 10 * M - (10 * (n * 10 + d) * U + Y)) with (10 * M - Y) by ring. replace (Z.abs (10 * M - Y)) with (Z.abs (Y - 10 * M)) by (clear; lia). rewrite Z.mul_assoc.
      replace (8 * (U * T)) with (8 * U * T) by ring. apply Z.mul_le_mono_nonneg_r; [lia|exact NY]. }
    pose proof (abs_tri ((10 * (n * 10 + d) * U + 10 * M) * T) ((10 * (n * 10 + d) * U + Y) * T) (10 * N * U + Z')) as TR.
    apply (Z.mul_le_mono_nonneg_l _ _ P) in TR; [|lia].
    apply Z.le_trans with (8 * (U * T) + (T - 1) * U); [|rewrite !Z.mul_sub_distr_r; replace (10 * T * U) with (10 * (U * T)) by ring; replace (T * U) with (U * T) by ring; assert (0 <= U * T) by (apply Z.mul_nonneg_nonneg; lia); lia].
    apply (Z.le_trans _ _ _ TR). rewrite (Z.mul_add_distr_l P (Z.abs _)). apply Z.add_le_mono; [exact G|exact NZ].
Qed.
(** ** The loop *)
Fixpoint lay (k p : nat) (x : fl) : list Z :=
  match k with
  | O => match p with O => [] | S _ => 46 :: digs p x end
  | S k => match p with O => 48 :: lay k O x | S p => match to_int int8 x with Some d => 48 + d :: lay k p (next x d) | None => [] end end
  end.
Lemma loop_dec p : forall n x X e, isv f c x X -> 0 <= X -> X < 10 * U -> e <= -2 -> (p <= n)%nat -> digit_loop f n x e (Z.of_nat p) = Some (digs p x).
Proof.
  induction p as [|p IH]; intros n x X e Ix H0 H1 He Hn.
  - destruct n; cbn [digit_loop]; destruct (Z.leb_spec 0 e); try lia; reflexivity.
  - destruct n as [|n]; [lia|]. cbn [digit_loop digs]. destruct (Z.leb_spec 0 e); [lia|]. destruct (Z.ltb_spec 0 (Z.of_nat (S p))); [|lia]. cbn [orb].
    destruct (Z.eqb_spec e (-1)); [lia|]. destruct (Z.eqb_spec (Z.of_nat (S p)) 0); [lia|]. destruct (to_int_floor x X Ix H0 H1) as [E D]. rewrite E. change (fmul f (fsub f x (of_int f (X / U))) (ten f)) with (next x (X / U)).
    destruct (next_ok x X Ix H0 H1) as [Y [Iy [[Y0 Y1] _]]]. replace (Z.of_nat (S p) - 1) with (Z.of_nat p) by lia. rewrite (IH n _ Y (e - 1) Iy Y0 Y1) by lia. reflexivity.
Qed.
Lemma loop_lay k : forall p n x X, isv f c x X -> 0 <= X -> X < 10 * U -> (Nat.max k p <= n)%nat -> digit_loop f n x (Z.of_nat k - 1) (Z.of_nat p) = Some (lay k p x).
Proof.
  induction k as [|k IH]; intros p n x X Ix H0 H1 Hn.
  - cbn [lay Z.of_nat]. change (0 - 1) with (-1). destruct p as [|p]; [destruct n; reflexivity|]. destruct n as [|n]; [lia|]. cbn [digit_loop digs]. destruct (Z.ltb_spec 0 (Z.of_nat (S p))); [|lia].
    change (0 <=? -1) with false. change (-1 =? -1) with true. cbn [orb]. destruct (Z.eqb_spec (Z.of_nat (S p)) 0); [lia|]. destruct (to_int_floor x X Ix H0 H1) as [E D]. rewrite E. change (fmul f (fsub f x (of_int f (X / U))) (ten f)) with (next x (X / U)).
    destruct (next_ok x X Ix H0 H1) as [Y [Iy [[Y0 Y1] _]]]. replace (Z.of_nat (S p) - 1) with (Z.of_nat p) by lia. change (-1 - 1) with (-2). rewrite (loop_dec p n _ Y (-2) Iy Y0 Y1) by lia. reflexivity.
  - destruct n as [|n]; [lia|]. cbn [digit_loop lay]. destruct (Z.leb_spec 0 (Z.of_nat (S k) - 1)); [|lia]. cbn [orb]. destruct (Z.eqb_spec (Z.of_nat (S k) - 1) (-1)); [lia|].
    replace (Z.of_nat (S k) - 1 - 1) with (Z.of_nat k - 1) by lia. destruct p as [|p].
    + cbn [Z.of_nat]. change (0 =? 0) with true. cbv iota. change (0 <? 0) with false. cbv iota. pose proof (IH O n x X Ix H0 H1 ltac:(lia)) as Q. change (Z.of_nat 0) with 0 in Q. rewrite Q. reflexivity.
    + destruct (Z.ltb_spec 0 (Z.of_nat (S p))); [|lia]. destruct (Z.eqb_spec (Z.of_nat (S p)) 0); [lia|]. destruct (to_int_floor x X Ix H0 H1) as [E D]. rewrite E. change (fmul f (fsub f x (of_int f (X / U))) (ten f)) with (next x (X / U)).
      destruct (next_ok x X Ix H0 H1) as [Y [Iy [[Y0 Y1] _]]]. replace (Z.of_nat (S p) - 1) with (Z.of_nat p) by lia. rewrite (IH p n _ Y Iy Y0 Y1) by lia. reflexivity.
Qed.
(** the digits, the point after the first k of them *)
Definition zeros (n : nat) : list Z := repeat 48 n.
Lemma lay_eq k : forall p x X, isv f c x X -> 0 <= X -> X < 10 * U ->
  lay k p x = firstn k (digs p x) ++ zeros (k - p) ++ (if (k <? p)%nat then 46 :: skipn k (digs p x) else []).
Proof.
  induction k as [|k IH]; intros p x X Ix H0 H1.
  - cbn [lay firstn skipn app zeros Nat.sub repeat]. destruct p; reflexivity.
  - destruct p as [|p].
    + cbn [lay digs firstn app]. rewrite (IH O x X Ix H0 H1). cbn [digs]. rewrite firstn_nil, Nat.sub_0_r. reflexivity.
    + cbn [lay digs]. destruct (to_int_floor x X Ix H0 H1) as [E D]. rewrite E. destruct (next_ok x X Ix H0 H1) as [Y [Iy [[Y0 Y1] _]]]. rewrite (IH p _ Y Iy Y0 Y1). reflexivity.
Qed.
(** FloatToFixedPrivate *)
Definition fixed_int (e : Z) (p : nat) (x : fl) : list Z := if e <? 0 then [48] else firstn (Z.to_nat (e + 1)) (digs p x) ++ zeros (Z.to_nat (e + 1) - p).
Definition fixed_dec (e : Z) (p : nat) (x : fl) : option (list Z) :=
  if e <? 0 then Some (zeros (Z.to_nat (- (e + 1))) ++ digs p x) else if (Z.to_nat (e + 1) <? p)%nat then Some (skipn (Z.to_nat (e + 1)) (digs p x)) else None.
Definition point (d : option (list Z)) : list Z := match d with Some ds => 46 :: ds | None => [] end.
Lemma to_fixed_eq x X e p : isv f c x X -> 0 <= X -> X < 10 * U -> 0 <= p ->
  to_fixed f x e p = Some (fixed_int e (Z.to_nat p) x ++ point (fixed_dec e (Z.to_nat p) x), true).
Proof.
  intros Ix H0 H1 Hp. unfold to_fixed. rewrite (fgt_isv f c zero x 0 X Hf Hl (zero_isv f c Hf) Ix). rewrite (fge_isv f c x _ X _ Hf Hl Ix (tenc_isv f c Hf)). fold U.
  destruct (Z.ltb_spec X 0); [lia|]. destruct (Z.leb_spec (10 * U) X); [lia|]. cbn [orb]. unfold fixed_int, fixed_dec. destruct (Z.ltb_spec e 0) as [E|E].
  - rewrite <- (Z2Nat.id p) at 2 by exact Hp. rewrite (loop_dec (Z.to_nat p) _ x X (e - 1) Ix H0 H1) by lia. cbn [point app]. rewrite <- ?app_assoc. reflexivity.
  - rewrite <- (Z2Nat.id p) at 2 by exact Hp. replace e with (Z.of_nat (Z.to_nat (e + 1)) - 1) at 2 by lia. rewrite (loop_lay _ _ _ x X Ix H0 H1) by lia. rewrite (lay_eq _ _ x X Ix H0 H1). cbn [app].
    rewrite <- app_assoc. destruct (Z.to_nat (e + 1) <? Z.to_nat p)%nat; reflexivity.
Qed.
End Digits.
