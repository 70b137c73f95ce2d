(** The exponent, and the whole text. *)
From Verif Require Import Base Flt_Model Flt_Spec Flt_Proofs Flt_Proofs2 Ftx_Model Ftx_Spec Ftx_Proofs Ftx_Proofs2.
From Verif Require IntText_Spec.
From Coq Require Import Lia ZArith Bool List.
Import ListNotations.
Open Scope Z_scope.

Lemma ge1_mul a b : 1 <= a -> 1 <= b -> 1 <= a * b.
Proof. nia. Qed.
Lemma le_left a b d : 0 <= a -> 1 <= b -> a * b <= d -> a <= d.
Proof. nia. Qed.
Lemma le_right a b d : 1 <= a -> 0 <= b -> a * b <= d -> b <= d.
Proof. nia. Qed.

(** ** The constants *)
Definition big_ok (f : fmt) (s : Z) : bool :=
  match big_step f s with Fin m e => (0 <? m) && (m <=? 2 ^ prec f) && (0 <=? e + 60) && (bits m + e <=? 4 * s) && (bits m + e <=? emax f)
    && (if 10 ^ s <=? 2 ^ prec f then m * 2 ^ (e + 60) =? 10 ^ s * 2 ^ 60 else true) | _ => false end.
Lemma big_all f s : is_format f -> In s (steps f) -> big_ok f s = true.
Proof.
  intros Hf H. assert (A : forallb (big_ok f) (steps f) = true) by (destruct Hf as [->| ->]; vm_compute; reflexivity).
  rewrite forallb_forall in A. apply A, H.
Qed.
Lemma big_isv f c s : is_format f -> low f c -> In s (steps f) ->
  exists B, isv f c (big_step f s) B /\ 0 <= B <= 2 ^ (4 * s - c) /\ (10 ^ s <= 2 ^ prec f -> B = 10 ^ s * 2 ^ (- c)).
Proof.
  intros Hf Hl H. pose proof (big_all f s Hf H) as A. unfold big_ok in A. destruct (big_step f s) as [m e| |]; try discriminate.
  destruct (low_facts f c Hf Hl) as [L1 [L2 [L3 [L4 L5]]]].
  repeat (apply andb_true_iff in A; destruct A as [A ?]). apply Z.ltb_lt in A.
  repeat match goal with [ H : _ <=? _ = true |- _ ] => apply Z.leb_le in H end.
  assert (Hs : 2 <= s) by (unfold steps in H; destruct (is_double f); cbn in H; lia).
  exists (at_unit c m e). split; [|split; [split|]].
  - exists m, e. split; [reflexivity|]. split; [|reflexivity]. repeat split; [lia| |right; assumption].
    destruct Hf as [->| ->]; unfold emin; cbn [prec emax binary32 binary64]; lia.
  - unfold at_unit. apply Z.mul_nonneg_nonneg; [lia|apply Z.lt_le_incl, p2pos; lia].
  - pose proof (bits_lt m (bits m) ltac:(lia)). unfold at_unit. apply Z.le_trans with (2 ^ bits m * 2 ^ (e - c)).
    + apply Z.mul_le_mono_nonneg_r; [apply Z.lt_le_incl, p2pos; lia|lia].
    + pose proof (bits_nonneg m). rewrite <- p2add by lia. apply p2le. lia.
  - intros T. rewrite (proj2 (Z.leb_le _ _) T) in H0. apply Z.eqb_eq in H0. unfold at_unit.
    replace (e - c) with (e + 60 + (- c - 60)) by lia. rewrite p2add by lia. rewrite Z.mul_assoc, H0, <- Z.mul_assoc, <- p2add by lia. do 2 f_equal. lia.
Qed.
Definition small_ok (f : fmt) (s : Z) : bool :=
  match small_step f s with Fin m e => (0 <=? m) && (m <=? 2 ^ prec f) && (emin f <=? e) && (bits m + e <=? 0) | _ => false end.
Lemma small_isv f c s : is_format f -> low f c -> In s (steps f) -> exists B, isv f c (small_step f s) B /\ 0 <= B <= 2 ^ (- c).
Proof.
  intros Hf Hl H. assert (A : forallb (small_ok f) (steps f) = true) by (destruct Hf as [->| ->]; vm_compute; reflexivity).
  rewrite forallb_forall in A. specialize (A s H). unfold small_ok in A. destruct (small_step f s) as [m e| |]; try discriminate.
  destruct (low_facts f c Hf Hl) as [L1 [L2 [L3 [L4 L5]]]]. destruct (format_emax f Hf) as [P1 [P2 P3]].
  repeat (apply andb_true_iff in A; destruct A as [A ?]). repeat match goal with [ H : _ <=? _ = true |- _ ] => apply Z.leb_le in H end.
  exists (at_unit c m e). split; [|split].
  - exists m, e. split; [reflexivity|]. split; [|reflexivity]. repeat split; [lia|assumption|right; lia].
  - unfold at_unit. apply Z.mul_nonneg_nonneg; [lia|apply Z.lt_le_incl, p2pos; lia].
  - pose proof (bits_lt m (bits m) ltac:(lia)). unfold at_unit. apply Z.le_trans with (2 ^ bits m * 2 ^ (e - c)).
    + apply Z.mul_le_mono_nonneg_r; [apply Z.lt_le_incl, p2pos; lia|lia].
    + pose proof (bits_nonneg m). rewrite <- p2add by lia. apply p2le. lia.
Qed.

(** ** A positive exponent *)
Lemma mul_bound f c x X y Y b s : is_format f -> low f c -> isv f c x X -> isv f c y Y -> 0 <= X <= 2 ^ (b - c) -> 0 <= Y <= 2 ^ (s - c) -> 0 <= s -> 0 <= b ->
  b + s + 4 <= emax f -> exists Z', isv f c (fmul f x y) Z' /\ 0 <= Z' <= 2 ^ (b + s - c)
  /\ forall n k, X = n * 2 ^ (- c) -> Y = k * 2 ^ (- c) -> n * k <= 2 ^ prec f -> Z' = n * k * 2 ^ (- c).
Proof.
  intros Hf Hl Ix Iy Bx By Hs Hb He. destruct (low_facts f c Hf Hl) as [L1 [L2 [L3 [L4 L5]]]].
  destruct (fmul_exact f c x y X Y Hf Hl Ix Iy) as [m [e [E [Hc V]]]].
  pose proof (p2pos (- c) ltac:(lia)) as PU.
  pose proof (pow_isv f c 1 (b + s) Hf ltac:(lia) ltac:(lia) ltac:(lia)) as Yb. rewrite Z.mul_1_l in Yb.
  assert (V0 : 0 <= at_unit c m e) by nia.
  assert (V1 : at_unit c m e <= 2 ^ (b + s - c)).
  { apply (Z.mul_le_mono_pos_r _ _ (2 ^ (- c)) PU). rewrite V. apply Z.le_trans with (2 ^ (b - c) * 2 ^ (s - c)); [apply Z.mul_le_mono_nonneg; lia|].
    rewrite <- !p2add by lia. apply p2le. lia. }
  destruct (rnd_isv f c m e _ _ Hf Hl Hc Yb ltac:(lia)) as [Z' [I B]]. rewrite E. exists Z'. split; [exact I|].
  split; [split; [apply (rnd_above f c m e zero 0 Z' Hf Hl Hc (zero_isv f c Hf) V0 I)|lia]|].
  intros n k Xn Yk Hn. assert (0 <= n) by nia. assert (0 <= k) by nia. assert (Q : at_unit c m e = n * k * 2 ^ (- c)).
  { rewrite Xn, Yk in V. apply (Z.mul_reg_r _ _ (2 ^ (- c)) ltac:(lia)). rewrite V. ring. }
  apply (isv_inj f c (rnd f m e)); [exact I|]. rewrite <- Q. apply (rnd_same f c m e (Fin (n * k) 0) Hf Hl Hc). rewrite Q. apply int_isv; [exact Hf|]. rewrite Z.abs_eq by (apply Z.mul_nonneg_nonneg; assumption). exact Hn.
Qed.

Definition left_over (ss : list Z) (e : Z) : Z := fold_left (fun e s => if s <=? e then e - s else e) ss e.
Lemma left_le ss : Forall (fun s => 0 <= s) ss -> forall e, 0 <= e -> 0 <= left_over ss e <= e.
Proof.
  intros H. induction H as [|s r Hs Hr IH]; intros e He; [cbn; lia|]. unfold left_over in *. cbn [fold_left].
  destruct (Z.leb_spec s e); [specialize (IH (e - s) ltac:(lia)); lia|apply IH; exact He].
Qed.
Lemma mul_steps f c ss : is_format f -> low f c -> (forall s, In s ss -> In s (steps f)) -> forall x X b e,
  isv f c x X -> 0 <= X <= 2 ^ (b - c) -> 0 <= b -> 0 <= e -> b + 4 * e + 4 <= emax f ->
  exists x' X', fold_left (fun st s => check_and f (big_step f) s st) ss (x, e) = (x', left_over ss e) /\ isv f c x' X'
  /\ 0 <= X' <= 2 ^ (b + 4 * (e - left_over ss e) - c)
  /\ forall n, X = n * 2 ^ (- c) -> 1 <= n -> n * 10 ^ (e - left_over ss e) <= 2 ^ prec f -> X' = n * 10 ^ (e - left_over ss e) * 2 ^ (- c).
Proof.
  intros Hf Hl. induction ss as [|s r IH]; intros Hin x X b e Ix Bx Hb He Hbe.
  - exists x, X. unfold left_over. cbn [fold_left]. rewrite Z.sub_diag. replace (b + 4 * 0 - c) with (b - c) by lia. split; [reflexivity|]. split; [exact Ix|]. split; [exact Bx|].
    intros n E _ _. rewrite Z.pow_0_r, Z.mul_1_r. exact E.
  - assert (Hs : 2 <= s) by (specialize (Hin s (or_introl eq_refl)); unfold steps in Hin; destruct (is_double f); cbn in Hin; lia).
    assert (Hr : Forall (fun s => 0 <= s) r).
    { apply Forall_forall. intros y Hy. specialize (Hin y (or_intror Hy)). unfold steps in Hin; destruct (is_double f); cbn in Hin; lia. }
    unfold left_over. cbn [fold_left]. unfold check_and at 2. destruct (Z.leb_spec s e) as [L|L].
    + destruct (big_isv f c s Hf Hl (Hin s (or_introl eq_refl))) as [B [IB [BB EB]]].
      destruct (mul_bound f c x X _ B b (4 * s) Hf Hl Ix IB Bx BB ltac:(lia) Hb ltac:(lia)) as [X1 [I1 [B1 E1]]].
      destruct (IH (fun y Hy => Hin y (or_intror Hy)) _ X1 (b + 4 * s) (e - s) I1 B1 ltac:(lia) ltac:(lia) ltac:(lia)) as [x' [X' [E' [I' [B' N']]]]].
      fold (left_over r (e - s)). set (k := left_over r (e - s)) in *. pose proof (left_le r Hr (e - s) ltac:(lia)) as K. fold k in K.
      exists x', X'. split; [exact E'|]. split; [exact I'|]. split; [replace (b + 4 * (e - k) - c) with (b + 4 * s + 4 * (e - s - k) - c) by lia; exact B'|].
      intros n En Hn Hle. assert (T : 10 ^ (e - k) = 10 ^ s * 10 ^ (e - s - k)) by (rewrite <- Z.pow_add_r by lia; f_equal; lia).
      assert (T1 : 1 <= 10 ^ s) by (change 1 with (10 ^ 0) at 1; apply Z.pow_le_mono_r; lia).
      assert (T2 : 1 <= 10 ^ (e - s - k)) by (change 1 with (10 ^ 0) at 1; apply Z.pow_le_mono_r; lia).
      rewrite T in *. rewrite Z.mul_assoc in *. pose proof (ge1_mul n (10 ^ s) Hn T1) as G1. assert (G0 : 0 <= n * 10 ^ s) by lia. pose proof (le_left _ _ _ G0 T2 Hle) as G2.
      apply N'; [|exact G1|exact Hle].
      apply E1; [exact En|apply EB; apply (le_right n); [exact Hn|lia|exact G2]|exact G2].
    + fold (left_over r e). apply (IH (fun y Hy => Hin y (or_intror Hy)) x X b e); assumption.
Qed.
Lemma steps_pos f : Forall (fun s => 0 <= s) (steps f).
Proof. unfold steps. destruct (is_double f); repeat constructor; lia. Qed.
Lemma left_small f e : is_format f -> 0 <= e < 64 -> left_over (steps f) e <= 1.
Proof.
  intros Hf He. assert (A : forallb (fun n => left_over (steps f) (Z.of_nat n) <=? 1) (seq 0 64) = true) by (destruct Hf as [->| ->]; vm_compute; reflexivity).
  rewrite forallb_forall in A. specialize (A (Z.to_nat e) ltac:(apply in_seq; lia)). cbv beta in A. rewrite Z2Nat.id in A by lia. apply Z.leb_le. exact A.
Qed.
Lemma exponent_positive f c x X b e : is_format f -> low f c -> isv f c x X -> 0 <= X <= 2 ^ (b - c) -> 0 <= b -> 0 <= e -> b + 4 * e + 4 <= emax f ->
  exists X', isv f c (add_exponent f x e true) X' /\ 0 <= X' <= 2 ^ (b + 4 * e - c)
  /\ forall n, X = n * 2 ^ (- c) -> 0 <= n -> e < 64 -> n * 10 ^ e <= 2 ^ prec f -> X' = n * 10 ^ e * 2 ^ (- c).
Proof.
  intros Hf Hl Ix Bx Hb He Hbe. destruct (low_facts f c Hf Hl) as [L1 [L2 [L3 [L4 L5]]]]. destruct (format_emax f Hf) as [P1 [P2 P3]].
  destruct (mul_steps f c (steps f) Hf Hl (fun _ h => h) x X b e Ix Bx Hb He Hbe) as [x' [X' [E [I' [B' N']]]]].
  pose proof (left_le (steps f) (steps_pos f) e He) as K. unfold add_exponent. rewrite E. set (k := left_over (steps f) e) in *.
  assert (PU := p2pos (- c) ltac:(lia)).
  destruct (Z.leb_spec 1 k) as [L|L].
  - destruct (mul_bound f c x' X' (ten f) (10 * 2 ^ (- c)) (b + 4 * (e - k)) 4 Hf Hl I') as [X2 [I2 [B2 N2]]].
    + rewrite (ten_eq f Hf). apply int_isv; [exact Hf|]. pose proof (p2le 24 (prec f) P2). change (Z.abs 10) with 10. lia.
    + exact B'.
    + replace (4 - c) with (4 + - c) by lia. rewrite p2add by lia. change (2 ^ 4) with 16. lia.
    + lia.
    + lia.
    + lia.
    + exists X2. split; [exact I2|]. split; [split; [lia|]; apply Z.le_trans with (2 ^ (b + 4 * (e - k) + 4 - c)); [lia|apply p2le; lia]|].
      intros n En Hn He64 Hle. assert (k <= 1) by (apply left_small; [exact Hf|lia]). assert (k = 1) by lia.
      assert (T : 10 ^ e = 10 ^ (e - k) * 10) by (replace e with (e - k + 1) at 1 by lia; rewrite Z.pow_add_r by lia; reflexivity).
      assert (T1 : 1 <= 10 ^ (e - k)) by (change 1 with (10 ^ 0) at 1; apply Z.pow_le_mono_r; lia).
      destruct (Z.eq_dec n 0) as [N0|N0].
      * subst n. rewrite !Z.mul_0_l in *. subst X.
        (* zero *)
        assert (X' = 0 * 10 ^ (e - k) * 2 ^ (- c) \/ True) by tauto.
        assert (Z0 : forall ss y e0, isv f c y 0 -> (forall s, In s ss -> In s (steps f)) -> isv f c (fst (fold_left (fun st s => check_and f (big_step f) s st) ss (y, e0))) 0).
        { clear - Hf Hl L2 P1 P2. induction ss as [|s r IH]; intros y e0 Iy Hin; [exact Iy|]. cbn [fold_left]. unfold check_and at 2. destruct (s <=? e0); [|apply IH; [exact Iy|intros; apply Hin; right; assumption]].
          apply IH; [|intros; apply Hin; right; assumption].
          destruct (big_isv f c s Hf Hl (Hin s (or_introl eq_refl))) as [B [IB _]].
          destruct (fmul_exact f c y _ 0 B Hf Hl Iy IB) as [m [e1 [E1 [Hc V]]]]. pose proof (p2pos (- c) ltac:(lia)).
          assert (V0 : at_unit c m e1 = 0) by nia. rewrite E1. rewrite <- V0. apply (rnd_same f c m e1 zero Hf Hl Hc). rewrite V0. apply zero_isv. exact Hf. }
        specialize (Z0 (steps f) x e Ix (fun _ h => h)). rewrite E in Z0. cbn [fst] in Z0. pose proof (isv_inj f c x' X' 0 I' Z0). subst X'.
        rewrite (N2 0 10); [ring|ring|reflexivity|]. pose proof (p2pos (prec f) ltac:(lia)). lia.
      * rewrite (N2 (n * 10 ^ (e - k)) 10); [rewrite T; ring| |reflexivity|rewrite <- Z.mul_assoc, <- T; exact Hle].
        apply N'; [exact En|lia|]. rewrite T, Z.mul_assoc in Hle. apply (le_left _ 10); [|lia|exact Hle]. apply Z.mul_nonneg_nonneg; lia.
  - exists X'. split; [exact I'|]. assert (K0 : k = 0) by lia. rewrite K0, Z.sub_0_r in *. split; [exact B'|].
    intros n En Hn He64 Hle. destruct (Z.eq_dec n 0) as [N0|N0]; [|apply N'; [exact En|lia|exact Hle]].
    subst n. rewrite !Z.mul_0_l in *. subst X.
    assert (Z0 : forall ss y e0, isv f c y 0 -> (forall s, In s ss -> In s (steps f)) -> isv f c (fst (fold_left (fun st s => check_and f (big_step f) s st) ss (y, e0))) 0).
    { clear - Hf Hl L2 P1 P2. induction ss as [|s r IH]; intros y e0 Iy Hin; [exact Iy|]. cbn [fold_left]. unfold check_and at 2. destruct (s <=? e0); [|apply IH; [exact Iy|intros; apply Hin; right; assumption]].
      apply IH; [|intros; apply Hin; right; assumption].
      destruct (big_isv f c s Hf Hl (Hin s (or_introl eq_refl))) as [B [IB _]].
      destruct (fmul_exact f c y _ 0 B Hf Hl Iy IB) as [m [e1 [E1 [Hc V]]]]. pose proof (p2pos (- c) ltac:(lia)).
      assert (V0 : at_unit c m e1 = 0) by nia. rewrite E1. rewrite <- V0. apply (rnd_same f c m e1 zero Hf Hl Hc). rewrite V0. apply zero_isv. exact Hf. }
    specialize (Z0 (steps f) x e Ix (fun _ h => h)). rewrite E in Z0. cbn [fst] in Z0. exact (isv_inj f c x' X' 0 I' Z0).
Qed.

(** ** A negative exponent *)
Lemma mul_small f c x X y Y : is_format f -> low f c -> isv f c x X -> isv f c y Y -> 0 <= X -> 0 <= Y <= 2 ^ (- c) ->
  exists Z', isv f c (fmul f x y) Z' /\ 0 <= Z' <= X.
Proof.
  intros Hf Hl Ix Iy Bx By. destruct (low_facts f c Hf Hl) as [L1 [L2 [L3 [L4 L5]]]].
  destruct (fmul_exact f c x y X Y Hf Hl Ix Iy) as [m [e [E [Hc V]]]]. pose proof (p2pos (- c) ltac:(lia)) as PU.
  assert (V0 : 0 <= at_unit c m e) by nia. assert (V1 : at_unit c m e <= X) by nia.
  destruct (rnd_isv f c m e x X Hf Hl Hc Ix ltac:(lia)) as [Z' [I B]]. rewrite E. exists Z'. split; [exact I|].
  split; [apply (rnd_above f c m e zero 0 Z' Hf Hl Hc (zero_isv f c Hf) V0 I)|lia].
Qed.
Lemma small_steps f c ss : is_format f -> low f c -> (forall s, In s ss -> In s (steps f)) -> forall x X e, isv f c x X -> 0 <= X ->
  exists x' X' e', fold_left (fun st s => check_and f (small_step f) s st) ss (x, e) = (x', e') /\ isv f c x' X' /\ 0 <= X' <= X.
Proof.
  intros Hf Hl. induction ss as [|s r IH]; intros Hin x X e Ix HX.
  - exists x, X, e. repeat split; try assumption; lia.
  - cbn [fold_left]. unfold check_and at 2. destruct (s <=? e).
    + destruct (small_isv f c s Hf Hl (Hin s (or_introl eq_refl))) as [B [IB BB]].
      destruct (mul_small f c x X _ B Hf Hl Ix IB HX BB) as [X1 [I1 B1]].
      destruct (IH (fun y Hy => Hin y (or_intror Hy)) _ X1 (e - s) I1 ltac:(lia)) as [x' [X' [e' [E' [I' B']]]]]. exists x', X', e'. repeat split; try assumption; lia.
    + apply (IH (fun y Hy => Hin y (or_intror Hy))); assumption.
Qed.
Lemma div_ten f c x X : is_format f -> low f c -> isv f c x X -> 0 <= X -> exists Z', isv f c (fdiv f x (ten f)) Z' /\ 0 <= Z' <= X.
Proof.
  intros Hf Hl [m [e [-> [F V]]]] HX. destruct (low_facts f c Hf Hl) as [L1 [L2 [L3 [L4 L5]]]]. destruct (format_emax f Hf) as [P1 [P2 P3]].
  pose proof F as [F1 [F2 F3]].
  rewrite (ten_eq f Hf). cbn [fdiv]. change (10 =? 0) with false. cbv iota. change (Z.sgn 10) with 1. change (Z.abs 10) with 10. rewrite Z.mul_1_l, Z.sub_0_r.
  unfold rnd_q. cbv zeta. set (s := Z.max 0 (prec f + 2 + bits 10 - bits m)). set (M := 2 * (m * 2 ^ s / 10) + (if (m * 2 ^ s) mod 10 =? 0 then 0 else 1)).
  pose proof (p2pos (e - c) ltac:(lia)) as Pe.
  assert (M0 : 0 <= m) by (unfold at_unit in V; nia).
  assert (Hs : 0 <= s <= prec f + 6) by (unfold s; change (bits 10) with 4; pose proof (bits_nonneg m); lia).
  pose proof (p2pos s ltac:(lia)) as Ps.
  pose proof (Z.div_mod (m * 2 ^ s) 10 ltac:(lia)) as D. pose proof (Z.mod_pos_bound (m * 2 ^ s) 10 ltac:(lia)) as R.
  assert (MM : 0 <= M <= 2 * (m * 2 ^ s)).
  { unfold M. destruct (Z.eq_dec m 0) as [Z0|Z0]; [subst m; rewrite Z.mul_0_l; cbn; lia|]. assert (1 <= m * 2 ^ s) by nia. destruct (Z.eqb_spec ((m * 2 ^ s) mod 10) 0); lia. }
  assert (Hc : c <= e - s - 1).
  { unfold low in Hl. destruct Hf as [->| ->]; unfold emin in *; cbn [prec emax binary32 binary64] in *; lia. }
  assert (V0 : 0 <= at_unit c M (e - s - 1)) by (unfold at_unit; apply Z.mul_nonneg_nonneg; [lia|apply Z.lt_le_incl, p2pos; lia]).
  assert (V1 : at_unit c M (e - s - 1) <= X).
  { rewrite <- V. unfold at_unit. replace (e - c) with (1 + s + (e - s - 1 - c)) by lia. rewrite !p2add by lia. change (2 ^ 1) with 2.
    rewrite !Z.mul_assoc. apply Z.mul_le_mono_nonneg_r; [apply Z.lt_le_incl, p2pos; lia|]. lia. }
  assert (Ix : isv f c (Fin m e) X) by (exists m, e; auto).
  destruct (rnd_isv f c M (e - s - 1) _ X Hf Hl Hc Ix ltac:(lia)) as [Z' [I B]]. exists Z'. split; [exact I|].
  split; [apply (rnd_above f c M (e - s - 1) zero 0 Z' Hf Hl Hc (zero_isv f c Hf) V0 I)|lia].
Qed.
Lemma exponent_negative f c x X e : is_format f -> low f c -> isv f c x X -> 0 <= X -> exists X', isv f c (add_exponent f x e false) X' /\ 0 <= X' <= X.
Proof.
  intros Hf Hl Ix HX. destruct (small_steps f c (steps f) Hf Hl (fun _ h => h) x X e Ix HX) as [x' [X' [e' [E [I' B']]]]].
  unfold add_exponent. rewrite E. destruct (1 <=? e').
  - destruct (div_ten f c x' X' Hf Hl I' ltac:(lia)) as [Z' [I2 B2]]. exists Z'. split; [exact I2|lia].
  - exists X'. auto.
Qed.
