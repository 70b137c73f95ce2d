(** The digits of a text. *)
From Verif Require Import Base Flt_Model Flt_Spec Flt_Proofs Flt_Proofs2 Ftx_Model Ftx_Spec Ftx_Proofs.
From Verif Require IntText_Spec.
From Coq Require Import Lia ZArith Bool List.
Import ListNotations.
Open Scope Z_scope.

Lemma digit_of_spec c : 0 < c < 256 -> digit_of c = if (48 <=? c) && (c <=? 57) then Some (c - 48) else None.
Proof.
  intros H.
  assert (A : forallb (fun n => let c := Z.of_nat n in
    match digit_of c, (if (48 <=? c) && (c <=? 57) then Some (c - 48) else None) with Some a, Some b => a =? b | None, None => true | _, _ => false end) (seq 0 256) = true)
    by (vm_compute; reflexivity).
  rewrite forallb_forall in A. specialize (A (Z.to_nat c) ltac:(apply in_seq; lia)). cbv zeta in A. rewrite Z2Nat.id in A by lia.
  destruct (digit_of c), ((48 <=? c) && (c <=? 57)); try congruence. apply Z.eqb_eq in A. congruence.
Qed.
Lemma digit_yes c : 48 <= c <= 57 -> digit_of c = Some (c - 48).
Proof. intros H. rewrite digit_of_spec by lia. rewrite (proj2 (Z.leb_le 48 c)), (proj2 (Z.leb_le c 57)) by lia. reflexivity. Qed.
Lemma digit_no c : 0 < c < 256 -> ~ 48 <= c <= 57 -> digit_of c = None.
Proof. intros H N. rewrite digit_of_spec by lia. destruct (Z.leb_spec 48 c), (Z.leb_spec c 57); cbn [andb]; try reflexivity; lia. Qed.

(** the value of n followed by digits *)
Definition follow (n : Z) (ds : list Z) : Z := fold_left (fun a c => a * 10 + (c - 48)) ds n.
Lemma follow_value ds : digits ds -> forall n, fold_left (fun a c => a * 10 + IntText_Spec.digit_val c) ds n = follow n ds.
Proof.
  intros H. induction H as [|c r Hc Hr IH]; intros n; [reflexivity|]. unfold follow in *. cbn [fold_left].
  replace (IntText_Spec.digit_val c) with (c - 48); [apply IH|]. unfold IntText_Spec.digit_val.
  rewrite (proj2 (Z.leb_le 48 c)), (proj2 (Z.leb_le c 57)) by lia. reflexivity.
Qed.
Lemma number_follow ds : digits ds -> number ds = follow 0 ds.
Proof. intros H. unfold number, IntText_Spec.value. apply follow_value. exact H. Qed.
Lemma follow_ge ds : digits ds -> forall n, 0 <= n -> n <= follow n ds.
Proof. intros H. induction H as [|c r Hc Hr IH]; intros n Hn; [cbn; lia|]. unfold follow in *. cbn [fold_left]. specialize (IH (n * 10 + (c - 48)) ltac:(lia)). lia. Qed.

Definition zlen (l : list Z) : Z := Z.of_nat (length l).
(** one more digit *)
Lemma step_digit f c x X b d : is_format f -> low f c -> isv f c x X -> 0 <= X <= 2 ^ (b - c) -> 1 <= b -> b + 8 <= emax f -> 0 <= d <= 9 ->
  exists t X2, fmul f x (ten f) = t /\ is_fin t = true /\ isv f c (fadd f t (of_int f d)) X2 /\ 0 <= X2 <= 2 ^ (b + 4 - c)
  /\ forall n, X = n * 2 ^ (- c) -> 10 * n + d <= 2 ^ prec f -> X2 = (10 * n + d) * 2 ^ (- c).
Proof.
  intros Hf Hl Hx HX Hb Hb2 Hd. destruct (low_facts f c Hf Hl) as [L1 [L2 [L3 [L4 L5]]]]. destruct (format_emax f Hf) as [P1 [P2 P3]].
  pose proof (p2pos (- c) ltac:(lia)) as PU. set (U := 2 ^ (- c)) in *.
  assert (PB : 2 ^ (b - c) = 2 ^ b * U) by (unfold U; rewrite <- p2add by lia; f_equal; lia).
  assert (PB4 : 2 ^ (b + 4 - c) = 16 * (2 ^ b * U)) by (unfold U; replace (b + 4 - c) with (4 + b + - c) by lia; rewrite !p2add by lia; change (2 ^ 4) with 16; ring).
  assert (P2b : 2 <= 2 ^ b) by (change 2 with (2 ^ 1) at 1; apply p2le; lia).
  destruct (times_ten f c x X Hf Hl Hx) as [m [e [E [He V]]]].
  pose proof (pow_isv f c 10 b Hf ltac:(lia) ltac:(lia) ltac:(lia)) as Y10.
  destruct (rnd_isv f c m e _ _ Hf Hl He Y10 ltac:(rewrite V, PB; nia)) as [X1 [I1 B1]].
  exists (rnd f m e). rewrite E. clear E.
  assert (N1 : 0 <= X1).
  { apply (rnd_above f c m e zero 0 X1 Hf Hl He (zero_isv f c Hf)); [lia|exact I1]. }
  destruct (fadd_exact f c (rnd f m e) (Fin d 0) X1 (d * U) Hf Hl I1) as [m2 [e2 [E2 [He2 V2]]]].
  { apply int_isv; [exact Hf|]. pose proof (p2le 24 (prec f) P2). lia. }
  pose proof (pow_isv f c 1 (b + 4) Hf ltac:(lia) ltac:(lia) ltac:(lia)) as Y16. rewrite Z.mul_1_l in Y16.
  destruct (rnd_isv f c m2 e2 _ _ Hf Hl He2 Y16) as [X2 [I2 B2]].
  { rewrite V2, PB4. rewrite PB in B1. nia. }
  exists X2. split; [reflexivity|]. split; [apply (isv_fin f c _ _ I1)|]. rewrite (digit_eq f d Hf Hd), E2. split; [exact I2|].
  assert (N2 : 0 <= X2).
  { apply (rnd_above f c m2 e2 zero 0 X2 Hf Hl He2 (zero_isv f c Hf)); [|exact I2]. rewrite V2. nia. }
  split; [lia|]. intros n Xn Hn. assert (0 <= n) by nia.
  assert (X1 = 10 * n * U).
  { apply (isv_inj f c (rnd f m e)); [exact I1|]. assert (Q : at_unit c m e = 10 * n * U) by (rewrite V, Xn; ring). rewrite <- Q.
    apply (rnd_same f c m e (Fin (10 * n) 0) Hf Hl He). rewrite Q. apply int_isv; [exact Hf|lia]. }
  apply (isv_inj f c (rnd f m2 e2)); [exact I2|]. assert (Q : at_unit c m2 e2 = (10 * n + d) * U) by (rewrite V2; nia). rewrite <- Q.
  apply (rnd_same f c m2 e2 (Fin (10 * n + d) 0) Hf Hl He2). rewrite Q. apply int_isv; [exact Hf|lia].
Qed.

Lemma int_digits f c ds : is_format f -> low f c -> digits ds -> forall rest i x X b,
  isv f c x X -> 0 <= X <= 2 ^ (b - c) -> 1 <= b -> b + 4 * zlen ds + 4 <= emax f -> i + zlen ds <= 1000 ->
  exists x' X', int_loop f (ds ++ rest) i x = int_loop f rest (i + zlen ds) x' /\ isv f c x' X' /\ 0 <= X' <= 2 ^ (b + 4 * zlen ds - c)
  /\ forall n, 0 <= n -> X = n * 2 ^ (- c) -> follow n ds <= 2 ^ prec f -> X' = follow n ds * 2 ^ (- c).
Proof.
  intros Hf Hl H. induction H as [|d r Hd Hr IH]; intros rest i x X b Hx HX Hb Hb2 Hi.
  - exists x, X. unfold zlen in *. cbn [length app] in *. change (Z.of_nat 0) with 0 in *. rewrite Z.add_0_r. split; [reflexivity|]. split; [exact Hx|].
    split; [replace (b + 4 * 0 - c) with (b - c) by lia; exact HX|]. intros n Hn E _. exact E.
  - unfold zlen in *. cbn [length] in *. rewrite Nat2Z.inj_succ in *. set (l := Z.of_nat (length r)) in *.
    destruct (step_digit f c x X b (d - 48) Hf Hl Hx HX Hb ltac:(lia) ltac:(lia)) as [t [X2 [E [T [I2 [B2 S]]]]]].
    destruct (IH rest (i + 1) (fadd f t (of_int f (d - 48))) X2 (b + 4) I2 B2 ltac:(lia) ltac:(lia) ltac:(lia)) as [x' [X' [E' [I' [B' S']]]]].
    exists x', X'. split.
    + cbn [app int_loop]. destruct (Z.leb_spec 1000 i); [lia|]. rewrite (digit_yes d Hd). cbv zeta. rewrite E, T, (isv_fin f c _ _ I2). rewrite E'. f_equal. lia.
    + split; [exact I'|]. split; [replace (b + 4 * Z.succ l - c) with (b + 4 + 4 * l - c) by lia; exact B'|].
      intros n Hn EX Hn2. change (follow n (d :: r)) with (follow (n * 10 + (d - 48)) r) in *.
      pose proof (follow_ge r Hr (n * 10 + (d - 48)) ltac:(lia)).
      apply S'; [lia| |exact Hn2]. rewrite (S n EX ltac:(lia)). f_equal. lia.
Qed.

(** ** After the point *)
Definition p_at (f : fmt) (j : nat) : fl := Nat.iter j (fun p => fmul f p (ten f)) (of_int f 1).
(** how many digits may follow the point *)
Definition most (f : fmt) : nat := if is_double f then 308 else 38.
Definition p_ok (f : fmt) (j : nat) : bool :=
  match p_at f j with Fin m e => (0 <? m) && (Z.abs m <=? 2 ^ prec f) && (- prec f <=? e) && (e <=? emax f) && (bits m + e <=? emax f) && (2 ^ prec f <=? m * 2 ^ (e + prec f)) | _ => false end.
Lemma p_all f : is_format f -> forall j, (j <= most f)%nat -> p_ok f j = true.
Proof.
  intros Hf j Hj. assert (A : forallb (p_ok f) (seq 0 (S (most f))) = true) by (destruct Hf as [->| ->]; vm_compute; reflexivity).
  rewrite forallb_forall in A. apply A, in_seq. lia.
Qed.
Lemma p_succ f j : p_at f (S j) = fmul f (p_at f j) (ten f).
Proof. reflexivity. Qed.
Lemma p_shape f j : is_format f -> (j <= most f)%nat -> exists m e, p_at f j = Fin m e /\ 0 < m /\ finite f m e /\ - prec f <= e <= emax f /\ 2 ^ prec f <= m * 2 ^ (e + prec f).
Proof.
  intros Hf Hj. pose proof (p_all f Hf j Hj) as A. unfold p_ok in A. destruct (p_at f j) as [m e| |]; try discriminate.
  repeat (apply andb_true_iff in A; destruct A as [A ?]). apply Z.ltb_lt in A.
  repeat match goal with [ H : _ <=? _ = true |- _ ] => apply Z.leb_le in H end.
  exists m, e. destruct (format_emax f Hf) as [P1 [P2 P3]]. pose proof (format_emin f Hf).
  repeat split; try assumption; try lia; try (unfold emin; lia); right; lia.
Qed.

(** the value of a digit divided by a power of ten *)
Lemma quotient f c d j : is_format f -> low f c -> 0 <= d <= 9 -> (j <= most f)%nat ->
  exists q, isv f c (fdiv f (of_int f d) (p_at f j)) q /\ 0 <= q <= 16 * 2 ^ (- c).
Proof.
  intros Hf Hl Hd Hj. destruct (p_shape f j Hf Hj) as [m [e [E [Hm [F [He L]]]]]].
  destruct (low_facts f c Hf Hl) as [L1 [L2 [L3 [L4 L5]]]]. destruct (format_emax f Hf) as [P1 [P2 P3]].
  rewrite E, (digit_eq f d Hf Hd). cbn [fdiv]. destruct (Z.eqb_spec m 0); [lia|].
  rewrite Z.sgn_pos, Z.mul_1_l, Z.abs_eq by lia. unfold rnd_q. cbv zeta.
  set (s := Z.max 0 (prec f + 2 + bits m - bits d)). set (M := 2 * (d * 2 ^ s / m) + (if (d * 2 ^ s) mod m =? 0 then 0 else 1)).
  assert (Bm : bits m <= prec f + 1) by (apply bits_le; [lia|destruct F as [F _]; assert (2 ^ prec f < 2 ^ (prec f + 1)) by (apply Z.pow_lt_mono_r; lia); lia]).
  pose proof (bits_nonneg d) as Bd. assert (Bd4 : bits d <= 4) by (apply bits_le; [lia|change (2 ^ 4) with 16; lia]).
  assert (Hs : 0 <= s <= 2 * prec f + 3) by (unfold s; pose proof (bits_nonneg m); lia).
  pose proof (p2pos s ltac:(lia)) as Ps.
  pose proof (Z.div_mod (d * 2 ^ s) m ltac:(lia)) as D. pose proof (Z.mod_pos_bound (d * 2 ^ s) m Hm) as R.
  assert (Dp : 0 <= d * 2 ^ s / m) by (apply Z.div_pos; nia).
  assert (M0 : 0 <= M) by (unfold M; destruct (_ =? 0); lia).
  assert (M1 : M * m <= 2 * (d * 2 ^ s) + m).
  { unfold M. destruct (Z.eqb_spec ((d * 2 ^ s) mod m) 0); nia. }
  assert (He2 : c <= 0 - e - s - 1).
  { unfold low in Hl. destruct Hf as [->| ->]; unfold emin in *; cbn [prec emax binary32 binary64] in *; lia. }
  (* the quotient is below 16 *)
  assert (V : at_unit c M (0 - e - s - 1) <= 16 * 2 ^ (- c)).
  { unfold at_unit.
    assert (Q : M * m * 2 ^ (0 - e - s - 1 - c) <= 16 * 2 ^ (- c) * m);
      [|apply (Z.mul_le_mono_pos_r _ _ m Hm); rewrite <- Z.mul_assoc, (Z.mul_comm (2 ^ _) m), Z.mul_assoc; exact Q].
    apply Z.le_trans with ((2 * (d * 2 ^ s) + m) * 2 ^ (0 - e - s - 1 - c)); [apply Z.mul_le_mono_nonneg_r; [apply Z.lt_le_incl, p2pos; lia|exact M1]|].
    assert (A1 : 2 * (d * 2 ^ s) * 2 ^ (0 - e - s - 1 - c) = d * 2 ^ (- e - c)).
    { replace (2 * (d * 2 ^ s) * 2 ^ (0 - e - s - 1 - c)) with (d * (2 ^ 1 * 2 ^ s * 2 ^ (0 - e - s - 1 - c))) by (change (2 ^ 1) with 2; ring).
      rewrite <- !p2add by lia. do 2 f_equal. lia. }
    assert (A2 : 2 ^ (- e - c) <= m * 2 ^ (- c)).
    { assert (X : 2 ^ (- e - c) * 2 ^ (e + prec f) <= m * 2 ^ (- c) * 2 ^ (e + prec f)).
      { rewrite <- p2add by lia. replace (- e - c + (e + prec f)) with (prec f + - c) by lia. rewrite p2add by lia.
        replace (m * 2 ^ (- c) * 2 ^ (e + prec f)) with (m * 2 ^ (e + prec f) * 2 ^ (- c)) by ring. apply Z.mul_le_mono_nonneg_r; [apply Z.lt_le_incl, p2pos; lia|exact L]. }
      pose proof (p2pos (e + prec f) ltac:(lia)). apply Z.mul_le_mono_pos_r in X; assumption. }
    assert (A3 : 2 ^ (0 - e - s - 1 - c) <= 2 ^ (- e - c)) by (apply p2le; lia).
    assert (A4 : 2 ^ (- e - c) <= 2 ^ (prec f - c)) by (apply p2le; lia).
    rewrite Z.mul_add_distr_r, A1.
    assert (A5 : 2 ^ (0 - e - s - 1 - c) <= 2 ^ (- c)).
    { apply p2le. pose proof (bits_pos m n) as [B1 _]. unfold s. lia. }
    pose proof (p2pos (- c) ltac:(lia)). pose proof (p2pos (- e - c) ltac:(lia)).
    apply Z.le_trans with (9 * (m * 2 ^ (- c)) + m * 2 ^ (- c)); [|nia].
    apply Z.add_le_mono; [apply Z.mul_le_mono_nonneg; lia|apply Z.mul_le_mono_nonneg_l; lia]. }
  pose proof (int_isv f c 16 Hf ltac:(pose proof (p2le 24 (prec f) P2); lia)) as Y.
  destruct (rnd_isv f c M (0 - e - s - 1) _ _ Hf Hl He2 Y) as [q [I B]].
  { rewrite Z.abs_eq; [exact V|]. unfold at_unit. apply Z.mul_nonneg_nonneg; [exact M0|apply Z.lt_le_incl, p2pos; lia]. }
  exists q. split; [exact I|]. split; [|lia].
  apply (rnd_above f c M (0 - e - s - 1) zero 0 q Hf Hl He2 (zero_isv f c Hf)); [|exact I].
  unfold at_unit. apply Z.mul_nonneg_nonneg; [exact M0|apply Z.lt_le_incl, p2pos; lia].
Qed.

(** ** How near the digits after the point are *)
Definition exact_powers (f : fmt) : nat := if is_double f then 22 else 10.
Lemma exact_le f : (exact_powers f <= most f)%nat.
Proof. unfold exact_powers, most. destruct (is_double f); lia. Qed.
Lemma p_exact f j : is_format f -> (j <= exact_powers f)%nat -> exists m e, p_at f j = Fin m e /\ 0 < m <= 2 ^ prec f /\ - prec f <= e <= emax f /\ m * 2 ^ (e + prec f) = 10 ^ Z.of_nat j * 2 ^ prec f.
Proof.
  intros Hf Hj.
  assert (A : forallb (fun j => match p_at f j with Fin m e => (0 <? m) && (m <=? 2 ^ prec f) && (- prec f <=? e) && (e <=? emax f) && (m * 2 ^ (e + prec f) =? 10 ^ Z.of_nat j * 2 ^ prec f) | _ => false end) (seq 0 (S (exact_powers f))) = true)
    by (destruct Hf as [->| ->]; vm_compute; reflexivity).
  rewrite forallb_forall in A. specialize (A j ltac:(apply in_seq; lia)). cbv beta in A. destruct (p_at f j) as [m e| |]; try discriminate.
  repeat (apply andb_true_iff in A; destruct A as [A ?]). apply Z.ltb_lt in A.
  repeat match goal with [ H : _ <=? _ = true |- _ ] => apply Z.leb_le in H | [ H : _ =? _ = true |- _ ] => apply Z.eqb_eq in H end.
  exists m, e. repeat split; try assumption; lia.
Qed.

Lemma quotient_near f c d j q : is_format f -> low f c -> 0 <= d <= 9 -> (1 <= j <= exact_powers f)%nat -> isv f c (fdiv f (of_int f d) (p_at f j)) q ->
  Z.abs (q * 10 ^ Z.of_nat j - d * 2 ^ (- c)) <= 10 ^ Z.of_nat j * 2 ^ (- c - prec f).
Proof.
  intros Hf Hl Hd Hj. destruct (p_exact f j Hf ltac:(lia)) as [m [e [E [Hm [He L]]]]].
  destruct (low_facts f c Hf Hl) as [L1 [L2 [L3 [L4 L5]]]]. destruct (format_emax f Hf) as [P1 [P2 P3]].
  rewrite E, (digit_eq f d Hf Hd). cbn [fdiv]. destruct (Z.eqb_spec m 0); [lia|].
  rewrite Z.sgn_pos, Z.mul_1_l, Z.abs_eq by lia. unfold rnd_q. cbv zeta.
  set (s := Z.max 0 (prec f + 2 + bits m - bits d)). set (M := 2 * (d * 2 ^ s / m) + (if (d * 2 ^ s) mod m =? 0 then 0 else 1)). intros I.
  pose proof (bits_pos m n) as [Bm1 Bm2].
  assert (Bm : bits m <= prec f + 1) by (apply bits_le; [lia|assert (2 ^ prec f < 2 ^ (prec f + 1)) by (apply Z.pow_lt_mono_r; lia); lia]).
  pose proof (bits_nonneg d) as Bd. assert (Bd4 : bits d <= 4) by (apply bits_le; [lia|change (2 ^ 4) with 16; lia]).
  assert (Hs : 0 <= s <= 2 * prec f + 3) by (unfold s; lia).
  pose proof (p2pos s ltac:(lia)) as Ps.
  set (T := 10 ^ Z.of_nat j) in *.
  assert (HT : 10 <= T) by (unfold T; change 10 with (10 ^ 1) at 1; apply Z.pow_le_mono_r; lia).
  (* the power has at least four binary digits *)
  assert (B4 : 4 <= bits m + e).
  { assert (X : 2 ^ (3 + prec f) < 2 ^ (bits m + (e + prec f))).
    { rewrite !p2add by lia. change (2 ^ 3) with 8. pose proof (p2pos (e + prec f) ltac:(lia)). pose proof (p2pos (prec f) ltac:(lia)).
      apply Z.lt_le_trans with (T * 2 ^ prec f); [apply Z.mul_lt_mono_pos_r; lia|]. rewrite <- L. apply Z.mul_le_mono_nonneg_r; lia. }
    destruct (Z_le_gt_dec 4 (bits m + e)); [assumption|]. pose proof (p2le (bits m + (e + prec f)) (3 + prec f) ltac:(lia)). lia. }
  pose proof (Z.div_mod (d * 2 ^ s) m ltac:(lia)) as D. pose proof (Z.mod_pos_bound (d * 2 ^ s) m ltac:(lia)) as R.
  assert (M0 : 0 <= M) by (unfold M; pose proof (Z.div_pos (d * 2 ^ s) m ltac:(nia) ltac:(lia)); destruct (_ =? 0); lia).
  assert (M1 : Z.abs (M * m - 2 * (d * 2 ^ s)) <= m).
  { unfold M. destruct (Z.eqb_spec ((d * 2 ^ s) mod m) 0); nia. }
  assert (He2 : c <= 0 - e - s - 1).
  { unfold low in Hl. destruct Hf as [->| ->]; unfold emin in *; cbn [prec emax binary32 binary64] in *; lia. }
  set (V := at_unit c M (0 - e - s - 1)). set (U := 2 ^ (- c)).
  assert (PU : 0 < U) by (apply p2pos; lia).
  set (g := 2 ^ (- c - prec f - 1)). assert (Pg : 0 < g) by (apply p2pos; lia).
  assert (Ug : U = 2 ^ (prec f + 1) * g) by (unfold U, g; rewrite <- p2add by lia; f_equal; lia).
  assert (Pp : 2 ^ 25 <= 2 ^ (prec f + 1)) by (apply p2le; lia). change (2 ^ 25) with 33554432 in Pp.
  assert (N : Z.abs (V * T - d * U) <= T * g).
  { pose proof (p2pos (prec f) ltac:(lia)) as Pq.
    apply (Z.mul_le_mono_pos_r _ _ (2 ^ prec f) Pq).
    replace (Z.abs (V * T - d * U) * 2 ^ prec f) with (Z.abs ((M * m - 2 * (d * 2 ^ s)) * 2 ^ (prec f - s - 1 - c))).
    2:{ transitivity (Z.abs ((V * T - d * U) * 2 ^ prec f)); [|rewrite Z.abs_mul, (Z.abs_eq (2 ^ prec f)) by lia; reflexivity]. f_equal.
        replace ((V * T - d * U) * 2 ^ prec f) with (V * (T * 2 ^ prec f) - d * (U * 2 ^ prec f)) by ring. rewrite <- L. unfold V, at_unit, U.
        replace (M * 2 ^ (0 - e - s - 1 - c) * (m * 2 ^ (e + prec f))) with (M * m * (2 ^ (0 - e - s - 1 - c) * 2 ^ (e + prec f))) by ring.
        rewrite <- !p2add by lia. replace (0 - e - s - 1 - c + (e + prec f)) with (prec f - s - 1 - c) by lia.
        replace (- c + prec f) with (1 + s + (prec f - s - 1 - c)) by lia. rewrite (p2add (1 + s)), (p2add 1 s) by (unfold low, emin in *; destruct Hf as [->| ->]; cbn [prec emax binary32 binary64] in *; lia).
        change (2 ^ 1) with 2. ring. }
    assert (Pw : 0 <= prec f - s - 1 - c) by (unfold low, emin in *; destruct Hf as [->| ->]; cbn [prec emax binary32 binary64] in *; lia).
    rewrite Z.abs_mul, (Z.abs_eq (2 ^ (prec f - s - 1 - c))) by (apply Z.lt_le_incl, p2pos; exact Pw).
    apply Z.le_trans with (m * 2 ^ (prec f - s - 1 - c)); [apply Z.mul_le_mono_nonneg_r; [apply Z.lt_le_incl, p2pos; exact Pw|exact M1]|].
    replace (T * g * 2 ^ prec f) with (T * 2 ^ prec f * g) by ring. rewrite <- L.
    replace (m * 2 ^ (e + prec f) * g) with (m * (2 ^ (e + prec f) * g)) by ring. apply Z.mul_le_mono_nonneg_l; [lia|].
    unfold g. rewrite <- p2add by lia. apply p2le. unfold s. lia. }
  assert (VU : Z.abs V < 2 ^ (0 - c)).
  { rewrite Z.sub_0_l. fold U. assert (0 <= V) by (unfold V, at_unit; apply Z.mul_nonneg_nonneg; [exact M0|apply Z.lt_le_incl, p2pos; lia]).
    rewrite Z.abs_eq by assumption. apply (Z.mul_lt_mono_pos_r T); [lia|].
    assert (Q1 : d * U <= 9 * U) by (apply Z.mul_le_mono_nonneg_r; lia). assert (Q2 : T * g * 33554432 <= T * U).
    { rewrite Ug. replace (T * (2 ^ (prec f + 1) * g)) with (T * g * 2 ^ (prec f + 1)) by ring. apply Z.mul_le_mono_nonneg_l; [|exact Pp]. apply Z.mul_nonneg_nonneg; lia. }
    assert (Q3 : 10 * U <= T * U) by (apply Z.mul_le_mono_nonneg_r; lia). rewrite (Z.mul_comm U T). lia. }
  assert (Em : emin f <= 0 - prec f) by (destruct Hf as [->| ->]; vm_compute; congruence).
  pose proof (rnd_error f c M (0 - e - s - 1) q 0 Hf Hl He2 Em I VU) as Er. fold V in Er.
  replace (0 - prec f - c) with (1 + (- c - prec f - 1)) in Er by lia. rewrite p2add in Er by lia. fold g in Er. change (2 ^ 1) with 2 in Er.
  replace (- c - prec f) with (1 + (- c - prec f - 1)) by lia. rewrite p2add by lia. fold g. change (2 ^ 1) with 2.
  replace (q * T - d * U) with ((q - V) * T + (V * T - d * U)) by ring.
  assert (Z.abs ((q - V) * T) <= g * T) by (rewrite Z.abs_mul, (Z.abs_eq T) by lia; apply Z.mul_le_mono_nonneg_r; lia).
  lia.
Qed.

(** A is X / 10^j in units of 2^c, up to 2 j last digits *)
Definition near (f : fmt) (c A X : Z) (j : nat) : Prop :=
  0 <= X < 10 ^ Z.of_nat j /\ Z.abs (A * 10 ^ Z.of_nat j - X * 2 ^ (- c)) <= 2 * Z.of_nat j * (10 ^ Z.of_nat j * 2 ^ (- c - prec f)).
Lemma near_step f c A X j q A1 m e d : is_format f -> low f c -> c <= e -> at_unit c m e = A + q -> isv f c (rnd f m e) A1 ->
  0 <= A -> 0 <= q -> 0 <= d <= 9 -> (S j <= exact_powers f)%nat -> near f c A X j ->
  Z.abs (q * 10 ^ Z.of_nat (S j) - d * 2 ^ (- c)) <= 10 ^ Z.of_nat (S j) * 2 ^ (- c - prec f) ->
  near f c A1 (X * 10 + d) (S j).
Proof.
  intros Hf Hl He V I HA Hq Hd Hj [N0 N] Q. destruct (low_facts f c Hf Hl) as [L1 [L2 [L3 [L4 L5]]]]. destruct (format_emax f Hf) as [P1 [P2 P3]].
  assert (E10 : 10 ^ Z.of_nat (S j) = 10 * 10 ^ Z.of_nat j) by (rewrite Nat2Z.inj_succ, Z.pow_succ_r by lia; reflexivity).
  unfold near. rewrite E10 in *. split; [lia|].
  assert (J : Z.of_nat j <= 21) by (unfold exact_powers in Hj; destruct (is_double f); lia).
  set (T := 10 ^ Z.of_nat j) in *. set (J' := Z.of_nat j) in *. assert (HT : 1 <= T) by (unfold T; change 1 with (10 ^ 0) at 1; apply Z.pow_le_mono_r; lia).
  set (U := 2 ^ (- c)) in *. set (g := 2 ^ (- c - prec f)) in *.
  assert (Lp : c + prec f <= -100) by (unfold low, emin in *; destruct Hf as [->| ->]; cbn [prec emax binary32 binary64] in *; lia).
  assert (Pg : 0 < g) by (apply p2pos; lia).
  assert (Ug : U = 2 ^ prec f * g) by (unfold U, g; rewrite <- p2add by lia; f_equal; lia).
  assert (Pp : 2 ^ 24 <= 2 ^ prec f) by (apply p2le; lia). change (2 ^ 24) with 16777216 in Pp.
  assert (U2 : 16777216 * g <= U) by (rewrite Ug; apply Z.mul_le_mono_nonneg_r; lia).
  assert (BA : A <= U + 42 * g).
  { apply (Z.mul_le_mono_pos_r _ _ T); [lia|]. assert (X * U <= T * U) by (apply Z.mul_le_mono_nonneg_r; lia).
    assert (2 * J' * (T * g) <= 42 * (T * g)) by (apply Z.mul_le_mono_nonneg_r; [apply Z.mul_nonneg_nonneg; lia|lia]).
    replace ((U + 42 * g) * T) with (T * U + 42 * (T * g)) by ring. lia. }
  assert (Bq : 10 * q <= 9 * U + 10 * g).
  { apply (Z.mul_le_mono_pos_r _ _ T); [lia|]. assert (d * U <= 9 * U) by (apply Z.mul_le_mono_nonneg_r; lia).
    assert (9 * U <= 9 * U * T) by nia.
    replace (10 * q * T) with (q * (10 * T)) by ring. replace ((9 * U + 10 * g) * T) with (9 * U * T + 10 * T * g) by ring. lia. }
  assert (Em : emin f <= 1 - prec f) by (destruct Hf as [->| ->]; vm_compute; congruence).
  assert (VU : Z.abs (at_unit c m e) < 2 ^ (1 - c)).
  { rewrite V. replace (1 - c) with (1 + - c) by lia. rewrite p2add by lia. fold U. change (2 ^ 1) with 2. rewrite Z.abs_eq by lia. lia. }
  pose proof (rnd_error f c m e A1 1 Hf Hl He Em I VU) as Er. rewrite V in Er.
  replace (1 - prec f - c) with (1 + (- c - prec f)) in Er by lia. rewrite p2add in Er by lia. fold g in Er. change (2 ^ 1) with 2 in Er.
  rewrite Nat2Z.inj_succ. fold J'.
  replace (A1 * (10 * T) - (X * 10 + d) * U) with (10 * (A * T - X * U) + (q * (10 * T) - d * U) + 10 * ((A1 - (A + q)) * T)) by ring.
  assert (Z.abs ((A1 - (A + q)) * T) <= g * T) by (rewrite Z.abs_mul, (Z.abs_eq T) by lia; apply Z.mul_le_mono_nonneg_r; lia).
  replace (2 * Z.succ J' * (10 * T * g)) with (10 * (2 * J' * (T * g)) + 20 * (T * g)) by (unfold Z.succ; ring).
  replace (10 * T * g) with (10 * (T * g)) in Q by ring. replace (g * T) with (T * g) in H by ring. lia.
Qed.

Lemma dec_digits f c ds : is_format f -> low f c -> digits ds -> forall rest i part A j,
  isv f c part A -> 0 <= A <= 16 * Z.of_nat j * 2 ^ (- c) -> (j + length ds <= most f)%nat -> i + zlen ds <= 1000 ->
  exists part' A', dec_loop f (ds ++ rest) i part (p_at f j) = dec_loop f rest (i + zlen ds) part' (p_at f (j + length ds))
  /\ isv f c part' A' /\ 0 <= A' <= 16 * Z.of_nat (j + length ds) * 2 ^ (- c)
  /\ forall X, (j + length ds <= exact_powers f)%nat -> near f c A X j ->
     near f c A' (follow X ds) (j + length ds).
Proof.
  intros Hf Hl H. destruct (low_facts f c Hf Hl) as [L1 [L2 [L3 [L4 L5]]]]. destruct (format_emax f Hf) as [P1 [P2 P3]].
  induction H as [|d r Hd Hr IH]; intros rest i part A j Hp HA Hj Hi.
  - exists part, A. unfold zlen in *. cbn [length app] in *. rewrite Nat.add_0_r, Z.add_0_r. auto 10.
  - unfold zlen in *. cbn [length] in *. rewrite Nat2Z.inj_succ in Hi.
    destruct (quotient f c (d - 48) (S j) Hf Hl ltac:(lia) ltac:(lia)) as [q [Iq Bq]].
    destruct (fadd_exact f c part _ A q Hf Hl Hp Iq) as [m [e [E [He V]]]].
    assert (Hm : (most f <= 308)%nat) by (unfold most; destruct (is_double f); lia).
    pose proof (int_isv f c (16 * Z.of_nat (S j)) Hf ltac:(pose proof (p2le 24 (prec f) P2); lia)) as Y.
    pose proof (p2pos (- c) ltac:(lia)) as PU.
    destruct (rnd_isv f c m e _ _ Hf Hl He Y) as [A1 [I1 B1]]; [rewrite V; nia|].
    assert (N1 : 0 <= A1) by (apply (rnd_above f c m e zero 0 A1 Hf Hl He (zero_isv f c Hf)); [lia|exact I1]).
    rewrite <- E in I1.
    destruct (IH rest (i + 1) _ A1 (S j) I1 ltac:(lia) ltac:(lia) ltac:(lia)) as [part' [A' [E' [I' [B' N']]]]].
    exists part', A'. split; [|split; [exact I'|split; [replace (j + S (length r))%nat with (S j + length r)%nat by lia; exact B'|]]].
    2:{ intros X Hx HN. replace (j + S (length r))%nat with (S j + length r)%nat by lia. change (follow X (d :: r)) with (follow (X * 10 + (d - 48)) r).
        apply N'; [lia|]. rewrite E in I1.
        pose proof (quotient_near f c (d - 48) (S j) q Hf Hl ltac:(lia) ltac:(lia) Iq) as Q.
        apply (near_step f c A X j q A1 m e (d - 48) Hf Hl He V I1); try assumption; lia. }
    cbn [app dec_loop]. destruct (Z.leb_spec 1000 i); [lia|]. rewrite (digit_yes d Hd). cbv zeta. rewrite <- p_succ.
    destruct (p_shape f (S j) Hf ltac:(lia)) as [pm [pe [Ep _]]]. replace (is_fin (p_at f (S j))) with true by (rewrite Ep; reflexivity).
    rewrite E'. replace (j + S (length r))%nat with (S j + length r)%nat by lia. f_equal. lia.
Qed.

