(** Which texts are accepted, and with which value. *)
From Verif Require Import Base Flt_Model Flt_Spec Flt_Proofs Flt_Proofs2 Ftx_Model Ftx_Spec Ftx_Proofs Ftx_Proofs2 Ftx_Proofs3.
From Verif Require IntText_Spec.
From Coq Require Import Lia ZArith Bool List.
Import ListNotations.
Open Scope Z_scope.

Lemma exp_digits ds : digits ds -> forall i e, 0 <= e -> i + zlen ds <= 1000 -> follow e ds < 512 -> exp_loop ds i e = EEnd (follow e ds) true.
Proof.
  intros H. induction H as [|d r Hd Hr IH]; intros i e He Hi Hf.
  - cbn. destruct (1000 <=? i); reflexivity.
  - unfold zlen in *. cbn [length] in Hi. rewrite Nat2Z.inj_succ in Hi. cbn [exp_loop]. destruct (Z.leb_spec 1000 i); [lia|].
    rewrite (digit_yes d Hd). cbv zeta. change (follow e (d :: r)) with (follow (e * 10 + (d - 48)) r) in *.
    pose proof (follow_ge r Hr (e * 10 + (d - 48)) ltac:(lia)). destruct (Z.leb_spec 512 (e * 10 + (d - 48))); [lia|]. apply IH; lia.
Qed.
(** what remains of the text after the digits of the number *)
Definition tail (p : parts) : list Z := match p_exp p with Some (l, s, ds) => l :: s ++ ds | None => [] end.

Lemma read_exponent_ok f c x X b i l s ds : is_format f -> low f c -> sign s -> digits ds -> isv f c x X -> 0 <= X <= 2 ^ (b - c) -> 0 <= b ->
  let e := exponent (Parts [] [] None (Some (l, s, ds))) in
  number ds < 512 -> b + 4 * Z.max 0 e + 4 <= emax f -> i + zlen (s ++ ds) <= 1000 ->
  exists y Y, read_exponent f x (s ++ ds) i = (y, true) /\ isv f c y Y /\ 0 <= Y
  /\ forall n, X = n * 2 ^ (- c) -> 0 <= n -> 0 <= e < 64 -> n * 10 ^ e <= 2 ^ prec f -> Y = n * 10 ^ e * 2 ^ (- c).
Proof.
  intros Hf Hl Hs Hd Ix Bx Hb e Hn He Hi. rewrite (number_follow ds Hd) in Hn.
  assert (Pos : number ds = follow 0 ds) by (apply number_follow; exact Hd).
  assert (Nn : 0 <= number ds) by (rewrite Pos; apply (follow_ge ds Hd 0); lia).
  assert (E : forall j, j + zlen ds <= 1000 -> exp_loop ds j 0 = EEnd (number ds) true).
  { intros j Hj. rewrite Pos. apply exp_digits; [exact Hd|lia|exact Hj|exact Hn]. }
  assert (P : forall j, j + zlen ds <= 1000 -> e = number ds -> exists y Y,
     (let t := add_exponent f x (number ds) true in if is_fin t then (t, true) else (x, false)) = (y, true) /\ isv f c y Y /\ 0 <= Y
     /\ forall n, X = n * 2 ^ (- c) -> 0 <= n -> 0 <= e < 64 -> n * 10 ^ e <= 2 ^ prec f -> Y = n * 10 ^ e * 2 ^ (- c)).
  { intros j Hj Ee. destruct (exponent_positive f c x X b (number ds) Hf Hl Ix Bx Hb Nn ltac:(lia)) as [Y [IY [BY NY]]].
    cbv zeta. rewrite (isv_fin f c _ _ IY). exists (add_exponent f x (number ds) true), Y. split; [reflexivity|]. split; [exact IY|]. split; [lia|].
    intros n En Hn0 He0 Hle. rewrite Ee in *. apply NY; try assumption. lia. }
  destruct Hs as [->|[->| ->]]; cbn [app] in *.
  - assert (Ee : e = number ds) by (unfold e, exponent; cbn [p_exp]; reflexivity). unfold read_exponent.
    assert (M : match ds with c :: r => if c =? 43 then (true, r, i + 1) else if c =? 45 then (false, r, i + 1) else (true, ds, i) | [] => (true, ds, i) end = (true, ds, i)).
    { destruct ds as [|d r]; [reflexivity|]. inversion Hd as [|? ? D1 D2]; subst. destruct (Z.eqb_spec d 43); [lia|]. destruct (Z.eqb_spec d 45); [lia|]. reflexivity. }
    rewrite M, E by exact Hi. apply (P i Hi Ee).
  - assert (Ee : e = number ds) by reflexivity. unfold read_exponent. cbn [Z.eqb Pos.eqb].
    unfold zlen in Hi. cbn [length] in Hi. rewrite Nat2Z.inj_succ in Hi. rewrite E by (unfold zlen; lia). apply (P (i + 1)); [unfold zlen; lia|exact Ee].
  - assert (Ee : e = - number ds) by reflexivity. unfold read_exponent. cbn [Z.eqb Pos.eqb].
    unfold zlen in Hi. cbn [length] in Hi. rewrite Nat2Z.inj_succ in Hi. rewrite E by (unfold zlen; lia).
    destruct (exponent_negative f c x X (number ds) Hf Hl Ix ltac:(lia)) as [Y [IY BY]].
    cbv zeta. rewrite (isv_fin f c _ _ IY). exists (add_exponent f x (number ds) false), Y. split; [reflexivity|]. split; [exact IY|]. split; [lia|].
    (* an exponent that is zero *)
    intros n En Hn0 He0 Hle. assert (N0 : number ds = 0) by lia. assert (X0 : add_exponent f x 0 false = x) by (unfold add_exponent, steps; destruct (is_double f); reflexivity).
    rewrite N0, X0 in IY. assert (e = 0) by lia. rewrite H, Z.pow_0_r, Z.mul_1_r, <- En. apply (isv_inj f c x); assumption.
Qed.

(** ** The text without its sign *)
Definition unsigned_text (p : parts) : list Z :=
  p_int p ++ match p_dec p with Some ds => 46 :: ds | None => [] end ++ tail p.
Definition value_ok (f : fmt) (c : Z) (p : parts) (Y : Z) : Prop :=
  (forall n, p_dec p = None \/ p_dec p = Some [] -> number (p_int p) = n -> 0 <= exponent p < 64 -> n * 10 ^ exponent p <= 2 ^ prec f -> Y = n * 10 ^ exponent p * 2 ^ (- c))
  /\ (forall b, p_exp p = None -> (length (decimals p) <= exact_powers f)%nat -> 1 <= b <= prec f -> number (p_int p) + 2 <= 2 ^ b ->
      let d := Z.of_nat (length (decimals p)) in
      2 ^ prec f * Z.abs (Y * 10 ^ d - (number (p_int p) * 10 ^ d + number (decimals p)) * 2 ^ (- c)) <= (2 * d + 2 ^ (b - 1)) * 2 ^ (- c) * 10 ^ d).
Definition fits (f : fmt) (p : parts) : Prop :=
  4 * (zlen (p_int p) + Z.max 0 (exponent p)) + 20 <= emax f /\ (length (decimals p) <= most f)%nat
  /\ (forall l s ds, p_exp p = Some (l, s, ds) -> number ds < 512).

Lemma e_letter l : l = 69 \/ l = 101 -> digit_of l = None /\ (l =? 46) = false /\ (l =? 69) || (l =? 101) = true.
Proof. intros [->| ->]; repeat split. Qed.

Lemma read_ok f c p i : is_format f -> low f c -> well_formed p -> fits f p -> 0 <= i -> i + zlen (unsigned_text p) <= 1000 ->
  exists y Y, read_unsigned f (unsigned_text p) i = (y, true) /\ isv f c y Y /\ 0 <= Y /\ value_ok f c p Y.
Proof.
  intros Hf Hl [_ [Wi [Wd We]]] [Fi [Fd Fe]] Hi0 Hi. destruct (low_facts f c Hf Hl) as [L1 [L2 [L3 [L4 L5]]]]. destruct (format_emax f Hf) as [P1 [P2 P3]].
  pose proof (p2pos (- c) ltac:(lia)) as PU.
  unfold unsigned_text in *. unfold zlen in Hi. rewrite !app_length, !Nat2Z.inj_add in Hi.
  destruct (int_digits f c (p_int p) Hf Hl Wi (match p_dec p with Some ds => 46 :: ds | None => [] end ++ tail p) i zero 0 1 (zero_isv f c Hf)) as [x [X [E [Ix [Bx Nx]]]]];
    [split; [lia|apply Z.lt_le_incl, p2pos; lia]|lia|lia|unfold zlen; lia|].
  assert (Nx' : number (p_int p) <= 2 ^ prec f -> X = number (p_int p) * 2 ^ (- c)).
  { rewrite (number_follow _ Wi). intros H. apply Nx; [lia|ring|exact H]. }
  assert (Nn : 0 <= number (p_int p)) by (rewrite (number_follow _ Wi); apply (follow_ge _ Wi 0); lia).
  set (j := i + zlen (p_int p)) in *. set (b0 := 1 + 4 * zlen (p_int p)) in *. assert (Hb0 : 1 <= b0) by (unfold b0, zlen; lia).
  unfold read_unsigned. rewrite E. clear E Nx.
  destruct (p_dec p) as [dd|] eqn:Ed.
  - (* a point *)
    assert (Hdd : digits dd) by (apply Wd; reflexivity). cbn [app length] in *. rewrite Nat2Z.inj_succ in Hi.
    assert (Dd : decimals p = dd) by (unfold decimals; rewrite Ed; reflexivity). rewrite Dd in Fd.
    cbn [int_loop]. assert (Hj : j < 1000) by (unfold j, zlen; lia). destruct (Z.leb_spec 1000 j); [lia|]. change (digit_of 46) with (@None Z). cbv iota. cbn [Z.eqb Pos.eqb].
    destruct (dec_digits f c dd Hf Hl Hdd (tail p) (j + 1) zero 0 0 (zero_isv f c Hf)) as [part [A [E [Ip [Bp Np]]]]];
      [cbn; lia|exact Fd|unfold j, zlen; lia|].
    change (p_at f 0) with (of_int f 1) in E. rewrite E. clear E. rewrite Nat.add_0_l in *. set (k := j + 1 + zlen dd) in *.
    (* the sum *)
    destruct (fadd_exact f c x part X A Hf Hl Ix Ip) as [m [e [Es [He Vs]]]].
    assert (Hm : (most f <= 308)%nat) by (unfold most; destruct (is_double f); lia).
    assert (B2 : A <= 2 ^ 13 * 2 ^ (- c)) by (apply Z.le_trans with (16 * Z.of_nat (length dd) * 2 ^ (- c)); [lia|apply Z.mul_le_mono_nonneg_r; [lia|]; change (2 ^ 13) with 8192; lia]).
    assert (B3 : X + A <= 2 ^ (b0 + 13 - c)).
    { assert (X <= 2 ^ b0 * 2 ^ (- c)) by (rewrite <- p2add by lia; replace (b0 + - c) with (b0 - c) by lia; lia).
      replace (b0 + 13 - c) with (b0 + 13 + - c) by lia. rewrite !p2add by lia. change (2 ^ 13) with 8192 in *.
      assert (2 <= 2 ^ b0) by (change 2 with (2 ^ 1) at 1; apply p2le; lia).
      assert (8192 * 2 ^ (- c) * 2 <= 8192 * 2 ^ (- c) * 2 ^ b0) by (apply Z.mul_le_mono_nonneg_l; lia).
      replace (2 ^ b0 * 8192 * 2 ^ (- c)) with (8192 * 2 ^ (- c) * 2 ^ b0) by ring.
      replace (8192 * 2 ^ (- c) * 2 ^ b0) with (8192 * (2 ^ b0 * 2 ^ (- c))) in * by ring. lia. }
    pose proof (pow_isv f c 1 (b0 + 13) Hf ltac:(lia) ltac:(lia) ltac:(unfold b0; lia)) as Yb. rewrite Z.mul_1_l in Yb.
    destruct (rnd_isv f c m e _ _ Hf Hl He Yb ltac:(rewrite Vs; lia)) as [S [IS BS]].
    assert (S0 : 0 <= S) by (apply (rnd_above f c m e zero 0 S Hf Hl He (zero_isv f c Hf)); [lia|exact IS]).
    rewrite <- Es in IS.
    (* without digits after the point *)
    assert (NS0 : dd = [] -> number (p_int p) <= 2 ^ prec f -> S = number (p_int p) * 2 ^ (- c)).
    { intros -> Hle. cbn [length] in *. change (Z.of_nat 0) with 0 in *. assert (A = 0) by lia. subst A. specialize (Nx' Hle).
      apply (isv_inj f c (fadd f x part)); [exact IS|]. rewrite Es. assert (Q : at_unit c m e = number (p_int p) * 2 ^ (- c)) by lia. rewrite <- Q.
      apply (rnd_same f c m e x Hf Hl He). rewrite Q, <- Nx'. exact Ix. }
    assert (NS : forall b, (length dd <= exact_powers f)%nat -> 1 <= b <= prec f -> number (p_int p) + 2 <= 2 ^ b ->
      let d := Z.of_nat (length dd) in
      2 ^ prec f * Z.abs (S * 10 ^ d - (number (p_int p) * 10 ^ d + number dd) * 2 ^ (- c)) <= (2 * d + 2 ^ (b - 1)) * 2 ^ (- c) * 10 ^ d).
    { intros b Hx Hb Hn d. specialize (Nx' ltac:(pose proof (p2le b (prec f) ltac:(lia)); lia)).
      specialize (Np 0 Hx). destruct Np as [N0 N1]; [unfold near; cbn; lia|]. rewrite <- (number_follow dd Hdd) in N0, N1. fold d in N0, N1.
      set (T := 10 ^ d) in *. assert (HT : 1 <= T) by (unfold T; change 1 with (10 ^ 0) at 1; apply Z.pow_le_mono_r; unfold d; lia).
      assert (Lp : c + prec f <= -100) by (unfold low, emin in *; destruct Hf as [->| ->]; cbn [prec emax binary32 binary64] in *; lia).
      set (U := 2 ^ (- c)) in *. set (g := 2 ^ (- c - prec f)) in *. assert (Pg : 0 < g) by (apply p2pos; lia).
      assert (Ug : U = 2 ^ prec f * g) by (unfold U, g; rewrite <- p2add by lia; f_equal; lia).
      assert (Pp : 2 ^ 24 <= 2 ^ prec f) by (apply p2le; lia). change (2 ^ 24) with 16777216 in Pp.
      assert (U2 : 16777216 * g <= U) by (rewrite Ug; apply Z.mul_le_mono_nonneg_r; lia).
      assert (D22 : d <= 22) by (unfold d, exact_powers in *; destruct (is_double f); lia).
      assert (BA : A <= U + 44 * g).
      { apply (Z.mul_le_mono_pos_r _ _ T); [lia|]. assert (number dd * U <= T * U) by (apply Z.mul_le_mono_nonneg_r; lia).
        assert (2 * d * (T * g) <= 44 * (T * g)) by (apply Z.mul_le_mono_nonneg_r; [apply Z.mul_nonneg_nonneg; lia|lia]).
        replace ((U + 44 * g) * T) with (T * U + 44 * (T * g)) by ring. lia. }
      set (n := number (p_int p)) in *.
      assert (VU : Z.abs (at_unit c m e) < 2 ^ (b - c)).
      { rewrite Vs, Nx'. replace (b - c) with (b + - c) by lia. rewrite p2add by lia. fold U.
        assert ((n + 2) * U <= 2 ^ b * U) by (apply Z.mul_le_mono_nonneg_r; lia). rewrite Z.abs_eq by (rewrite <- Nx'; lia). lia. }
      assert (Em : emin f <= b - prec f) by (destruct Hf as [->| ->]; unfold emin in *; cbn [prec emax binary32 binary64] in *; lia).
      rewrite Es in IS. pose proof (rnd_error f c m e S b Hf Hl He Em IS VU) as Er. rewrite Vs, Nx' in Er.
      replace (b - prec f - c) with (1 + (b - 1) + (- c - prec f)) in Er by lia. rewrite !p2add in Er by lia. fold g in Er. change (2 ^ 1) with 2 in Er.
      set (h := 2 ^ (b - 1)) in *.
      replace (S * T - (n * T + number dd) * U) with ((S - (n * U + A)) * T + (A * T - number dd * U)) by ring.
      assert (Q : Z.abs ((S - (n * U + A)) * T) <= h * g * T) by (rewrite Z.abs_mul, (Z.abs_eq T) by lia; apply Z.mul_le_mono_nonneg_r; lia).
      replace ((2 * d + h) * U * T) with (2 ^ prec f * (2 * d * (T * g) + h * g * T)) by (rewrite Ug; ring).
      apply Z.mul_le_mono_nonneg_l; [lia|]. clear - N1 Q. lia. }
    unfold tail in *. destruct (p_exp p) as [[[l s] es]|] eqn:Ee.
    + destruct (We l s es eq_refl) as [Wl [Ws Wes]]. destruct (e_letter l Wl) as [D1 [D2 D3]].
      cbn [length] in Hi. rewrite Nat2Z.inj_succ in Hi.
      cbn [dec_loop]. assert (Hk : k < 1000) by (unfold k, j, zlen; lia). destruct (Z.leb_spec 1000 k); [lia|]. rewrite D1, D3. cbv zeta.
      rewrite (isv_fin f c _ _ IS).
      assert (Exp : exponent p = exponent (Parts [] [] None (Some (l, s, es)))) by (unfold exponent; rewrite Ee; reflexivity).
      destruct (read_exponent_ok f c (fadd f x part) S (b0 + 13) (k + 1) l s es Hf Hl Ws Wes IS ltac:(lia) ltac:(lia)) as [y [Y [Er [IY [BY NY]]]]];
        [apply (Fe l s es eq_refl)|rewrite <- Exp; unfold b0 in *; lia|unfold k, j, zlen in *; lia|].
      exists y, Y. split; [exact Er|]. split; [exact IY|]. split; [exact BY|]. split.
      * intros n Hp Hn He64 Hle. assert (dd = []) by (destruct Hp; congruence). rewrite Exp in *. subst n.
        assert (G1 : 1 <= 10 ^ exponent (Parts [] [] None (Some (l, s, es)))) by (change 1 with (10 ^ 0) at 1; apply Z.pow_le_mono_r; lia).
        apply NY; [|exact Nn|exact He64|exact Hle]. apply NS0; [assumption|]. apply (le_left _ _ _ Nn G1 Hle).
      * intros b Hx. congruence.
    + cbn [dec_loop]. destruct (1000 <=? k); cbv zeta; rewrite (isv_fin f c _ _ IS);
      (exists (fadd f x part), S; split; [reflexivity|]; split; [exact IS|]; split; [exact S0|]; split;
       [intros n Hp Hn He64 Hle; assert (E0 : exponent p = 0) by (unfold exponent; rewrite Ee; reflexivity); rewrite E0, Z.pow_0_r, Z.mul_1_r in *; subst n; apply NS0; [destruct Hp; congruence|exact Hle]
       |intros b _ Hx Hb Hn; rewrite Dd in *; apply NS; assumption]).
  - (* no point *)
    cbn [app length] in *. assert (Dd : decimals p = []) by (unfold decimals; rewrite Ed; reflexivity).
    unfold tail in *. destruct (p_exp p) as [[[l s] es]|] eqn:Ee.
    + destruct (We l s es eq_refl) as [Wl [Ws Wes]]. destruct (e_letter l Wl) as [D1 [D2 D3]].
      cbn [length] in Hi. rewrite Nat2Z.inj_succ in Hi.
      cbn [int_loop]. assert (Hj : j < 1000) by (unfold j, zlen; lia). destruct (Z.leb_spec 1000 j); [lia|]. rewrite D1, D2, D3.
      assert (Exp : exponent p = exponent (Parts [] [] None (Some (l, s, es)))) by (unfold exponent; rewrite Ee; reflexivity).
      destruct (read_exponent_ok f c x X b0 (j + 1) l s es Hf Hl Ws Wes Ix ltac:(exact Bx) ltac:(lia)) as [y [Y [Er [IY [BY NY]]]]];
        [apply (Fe l s es eq_refl)|rewrite <- Exp; unfold b0 in *; lia|unfold j, zlen in *; lia|].
      exists y, Y. split; [exact Er|]. split; [exact IY|]. split; [exact BY|]. split.
      * intros n Hp Hn He64 Hle. rewrite Exp in *. subst n.
        assert (G1 : 1 <= 10 ^ exponent (Parts [] [] None (Some (l, s, es)))) by (change 1 with (10 ^ 0) at 1; apply Z.pow_le_mono_r; lia).
        apply NY; [|exact Nn|exact He64|exact Hle]. apply Nx'. apply (le_left _ _ _ Nn G1 Hle).
      * intros b Hx. congruence.
    + cbn [int_loop]. destruct (1000 <=? j); (exists x, X; split; [reflexivity|]; split; [exact Ix|]; split; [lia|]; split;
      [intros n Hp Hn He64 Hle; assert (E0 : exponent p = 0) by (unfold exponent; rewrite Ee; reflexivity); rewrite E0, Z.pow_0_r, Z.mul_1_r in *; subst n; apply Nx'; exact Hle
      |intros b _ Hx Hb Hn; rewrite Dd in *; cbn [length]; change (Z.of_nat 0) with 0; cbv zeta; rewrite (Nx' ltac:(pose proof (p2le b (prec f) ltac:(lia)); lia)), Z.pow_0_r;
       change (number []) with 0; replace (number (p_int p) * 2 ^ (- c) * 1 - (number (p_int p) * 1 + 0) * 2 ^ (- c)) with 0 by ring; change (Z.abs 0) with 0;
       rewrite Z.mul_0_r; pose proof (p2pos (b - 1) ltac:(lia)); nia]).
Qed.
