(** The exponent of a whole text. *)
From Verif Require Import Base Flt_Model Flt_Spec Flt_Proofs Flt_Proofs2 Ftx_Model Ftx_Spec Ftx_Proofs Ftx_Proofs2 Ftx_Proofs3 Ftx_Proofs4 Ftx_Proofs5 Ftx_Proofs6.
From Coq Require Import Lia ZArith Bool List.
Import ListNotations.
Open Scope Z_scope.
Local Notation tail := Ftx_Proofs4.tail.

(** what is read of the digits does not depend on what follows *)
Lemma int_prefix f ds : digits ds -> forall rest i x y, i + zlen ds <= 1000 -> int_loop f ds i x = IStop y true -> int_loop f (ds ++ rest) i x = int_loop f rest (i + zlen ds) y.
Proof.
  intros H. induction H as [|d r Hd Hr IH]; intros rest i x y Hi E.
  - cbn in E. unfold zlen. cbn [length app]. rewrite Z.add_0_r. assert (x = y) by (destruct (1000 <=? i); congruence). subst. reflexivity.
  - unfold zlen in *. cbn [length] in *. rewrite Nat2Z.inj_succ in *. cbn [app int_loop] in *. destruct (Z.leb_spec 1000 i); [lia|]. rewrite (digit_yes d Hd) in *. cbv zeta in *.
    destruct (is_fin (fmul f x (ten f))); [|discriminate]. destruct (is_fin (fadd f _ _)); [|discriminate]. rewrite (IH rest (i + 1) _ y ltac:(lia) E). f_equal. lia.
Qed.
Lemma dec_prefix f ds : is_format f -> digits ds -> forall rest i part j y, i + zlen ds <= 1000 -> (j + length ds <= most f)%nat ->
  dec_loop f ds i part (p_at f j) = DStop y true -> dec_loop f (ds ++ rest) i part (p_at f j) = dec_loop f rest (i + zlen ds) y (p_at f (j + length ds)).
Proof.
  intros Hf H. induction H as [|d r Hd Hr IH]; intros rest i part j y Hi Hj E.
  - cbn in E. unfold zlen. cbn [length app]. rewrite Z.add_0_r, Nat.add_0_r. assert (part = y) by (destruct (1000 <=? i); congruence). subst. reflexivity.
  - unfold zlen in *. cbn [length] in *. rewrite Nat2Z.inj_succ in *. cbn [app dec_loop] in *. destruct (Z.leb_spec 1000 i); [lia|]. rewrite (digit_yes d Hd) in *. cbv zeta in *.
    rewrite <- p_succ in *. destruct (p_shape f (S j) Hf ltac:(lia)) as [pm [pe [Ep _]]]. replace (is_fin (p_at f (S j))) with true in * by (rewrite Ep; reflexivity).
    rewrite (IH rest (i + 1) _ (S j) y ltac:(lia) ltac:(lia) E). replace (j + S (length r))%nat with (S j + length r)%nat by lia. f_equal. lia.
Qed.
Lemma int_nil f i x : int_loop f [] i x = IStop x true.
Proof. cbn. destruct (1000 <=? i); reflexivity. Qed.
Lemma dec_nil f i x p : dec_loop f [] i x p = DStop x true.
Proof. cbn. destruct (1000 <=? i); reflexivity. Qed.

Lemma plain_read f c p i : is_format f -> low f c -> well_formed p -> fits f p -> 0 <= i -> i + zlen (unsigned_text p) <= 1000 ->
  exists y Y, read_unsigned f (unsigned_text (plain p)) i = (y, true) /\ isv f c y Y /\ 0 <= Y <= 2 ^ (14 + 4 * zlen (p_int p) - c)
  /\ forall l s ds, p_exp p = Some (l, s, ds) -> exists i', i' + zlen (s ++ ds) <= 1000 /\ read_unsigned f (unsigned_text p) i = read_exponent f y (s ++ ds) i'.
Proof.
  intros Hf Hl [_ [Wi [Wd We]]] [Fi [Fd Fe]] Hi0 Hi. destruct (low_facts f c Hf Hl) as [L1 [L2 [L3 [L4 L5]]]]. destruct (format_emax f Hf) as [P1 [P2 P3]].
  pose proof (p2pos (- c) ltac:(lia)) as PU.
  unfold unsigned_text in *. cbn [plain p_int p_dec]. change (tail (plain p)) with (@nil Z). unfold zlen in Hi. rewrite !app_length, !Nat2Z.inj_add in Hi.
  destruct (int_digits f c (p_int p) Hf Hl Wi [] i zero 0 1 (zero_isv f c Hf)) as [x [X [E [Ix [Bx _]]]]];
    [split; [lia|apply Z.lt_le_incl, p2pos; lia]|lia|lia|unfold zlen; lia|].
  rewrite int_nil, app_nil_r in E.
  pose proof (fun rest => int_prefix f (p_int p) Wi rest i zero x ltac:(unfold zlen; lia) E) as EP. clear E.
  set (j := i + zlen (p_int p)) in *. set (b0 := 1 + 4 * zlen (p_int p)) in *. assert (Hb0 : 1 <= b0) by (unfold b0, zlen; lia).
  unfold read_unsigned. rewrite !EP.
  destruct (p_dec p) as [dd|] eqn:Ed.
  - assert (Hdd : digits dd) by (apply Wd; reflexivity). cbn [app length] in *. rewrite Nat2Z.inj_succ in Hi.
    assert (Dd : decimals p = dd) by (unfold decimals; rewrite Ed; reflexivity). rewrite Dd in Fd.
    cbn [int_loop]. assert (Hj : j < 1000) by (unfold j, zlen; lia). destruct (Z.leb_spec 1000 j); [lia|]. change (digit_of 46) with (@None Z). cbv iota. cbn [Z.eqb Pos.eqb].
    destruct (dec_digits f c dd Hf Hl Hdd [] (j + 1) zero 0 0 (zero_isv f c Hf)) as [part [A [E [Ip [Bp _]]]]];
      [cbn; lia|exact Fd|unfold j, zlen; lia|].
    rewrite dec_nil, app_nil_r in E. rewrite Nat.add_0_l in *.
    pose proof (fun rest => dec_prefix f dd Hf Hdd rest (j + 1) zero 0 part ltac:(unfold j, zlen; lia) Fd E) as DP. rewrite Nat.add_0_l in DP. change (p_at f 0) with (of_int f 1) in DP. clear E.
    rewrite !DP, dec_nil. set (k := j + 1 + zlen dd) in *.
    destruct (fadd_exact f c x part X A Hf Hl Ix Ip) as [m [e [Es [He Vs]]]].
    assert (Hm : (most f <= 308)%nat) by (unfold most; destruct (is_double f); lia).
    assert (B2 : A <= 2 ^ 13 * 2 ^ (- c)) by (apply Z.le_trans with (16 * Z.of_nat (length dd) * 2 ^ (- c)); [lia|apply Z.mul_le_mono_nonneg_r; [lia|]; change (2 ^ 13) with 8192; lia]).
    assert (B3 : X + A <= 2 ^ (b0 + 13 - c)).
    { assert (X <= 2 ^ b0 * 2 ^ (- c)) by (rewrite <- p2add by lia; replace (b0 + - c) with (b0 - c) by lia; lia).
      replace (b0 + 13 - c) with (b0 + 13 + - c) by lia. rewrite !p2add by lia. change (2 ^ 13) with 8192 in *.
      assert (2 <= 2 ^ b0) by (change 2 with (2 ^ 1) at 1; apply p2le; lia).
      assert (8192 * 2 ^ (- c) * 2 <= 8192 * 2 ^ (- c) * 2 ^ b0) by (apply Z.mul_le_mono_nonneg_l; lia).
      replace (2 ^ b0 * 8192 * 2 ^ (- c)) with (8192 * 2 ^ (- c) * 2 ^ b0) by ring.
      replace (8192 * 2 ^ (- c) * 2 ^ b0) with (8192 * (2 ^ b0 * 2 ^ (- c))) in * by ring. lia. }
    pose proof (pow_isv f c 1 (b0 + 13) Hf ltac:(lia) ltac:(lia) ltac:(unfold b0; lia)) as Yb. rewrite Z.mul_1_l in Yb.
    destruct (rnd_isv f c m e _ _ Hf Hl He Yb ltac:(rewrite Vs; lia)) as [S [IS BS]].
    assert (S0 : 0 <= S) by (apply (rnd_above f c m e zero 0 S Hf Hl He (zero_isv f c Hf)); [lia|exact IS]).
    rewrite <- Es in IS. cbv zeta. rewrite (isv_fin f c _ _ IS).
    exists (fadd f x part), S. split; [reflexivity|]. split; [exact IS|]. split; [replace (14 + 4 * zlen (p_int p) - c) with (b0 + 13 - c) by (unfold b0; lia); lia|].
    intros l s ds Ee. destruct (We l s ds Ee) as [Wl _]. destruct (e_letter l Wl) as [D1 [D2 D3]]. unfold tail in *. rewrite Ee in *. cbn [length] in Hi. rewrite Nat2Z.inj_succ in Hi.
    exists (k + 1). split; [unfold k, j, zlen; lia|]. cbn [dec_loop]. assert (Hk : k < 1000) by (unfold k, j, zlen; lia). destruct (Z.leb_spec 1000 k); [lia|]. rewrite D1, D3.
    cbv zeta. rewrite (isv_fin f c _ _ IS). reflexivity.
  - cbn [app length] in *. rewrite int_nil. exists x, X. split; [reflexivity|]. split; [exact Ix|].
    split; [split; [lia|]; apply Z.le_trans with (2 ^ (b0 - c)); [lia|apply p2le; unfold b0; lia]|].
    intros l s ds Ee. destruct (We l s ds Ee) as [Wl _]. destruct (e_letter l Wl) as [D1 [D2 D3]]. unfold tail in *. rewrite Ee in *. cbn [length] in Hi. rewrite Nat2Z.inj_succ in Hi.
    exists (j + 1). split; [unfold j, zlen; lia|]. cbn [int_loop]. assert (Hj : j < 1000) by (unfold j, zlen; lia). destruct (Z.leb_spec 1000 j); [lia|]. rewrite D1, D2, D3. reflexivity.
Qed.

(** the exponent as it is read *)
Lemma exponent_read f x s ds i : sign s -> digits ds -> number ds < 512 -> i + zlen (s ++ ds) <= 1000 ->
  read_exponent f x (s ++ ds) i = let t := add_exponent f x (number ds) (match s with [45] => false | _ => true end) in if is_fin t then (t, true) else (x, false).
Proof.
  intros Hs Hd Hn Hi. rewrite (number_follow ds Hd) in *.
  assert (E : forall j, j + zlen ds <= 1000 -> exp_loop ds j 0 = EEnd (follow 0 ds) true) by (intros j Hj; apply exp_digits; [exact Hd|lia|exact Hj|exact Hn]).
  destruct Hs as [->|[->| ->]]; cbn [app] in *; unfold read_exponent.
  - assert (M : match ds with c :: r => if c =? 43 then (true, r, i + 1) else if c =? 45 then (false, r, i + 1) else (true, ds, i) | [] => (true, ds, i) end = (true, ds, i)).
    { destruct ds as [|d r]; [reflexivity|]. inversion Hd as [|? ? D1 D2]; subst. destruct (Z.eqb_spec d 43); [lia|]. destruct (Z.eqb_spec d 45); [lia|]. reflexivity. }
    rewrite M, E by exact Hi. reflexivity.
  - cbn [Z.eqb Pos.eqb]. unfold zlen in *. cbn [length] in Hi. rewrite Nat2Z.inj_succ in Hi. rewrite E by lia. reflexivity.
  - cbn [Z.eqb Pos.eqb]. unfold zlen in *. cbn [length] in Hi. rewrite Nat2Z.inj_succ in Hi. rewrite E by lia. reflexivity.
Qed.

Lemma plain_exponent f p i x0 : is_format f -> well_formed p -> fits f p -> 0 <= i -> i + zlen (unsigned_text p) <= 1000 -> Z.abs (exponent p) < max_exponent f ->
  read_unsigned f (unsigned_text (plain p)) i = (x0, true) -> at_least x0 (exponent p) (emax f - 5) ->
  exists x, read_unsigned f (unsigned_text p) i = (x, true) /\ scaled x0 x (exponent p) 50 (prec f).
Proof.
  intros Hf W F Hi0 Hi He E0 [m0 [e0 [-> Hsz]]]. set (c := the_unit f). pose proof (unit_low f : low f c) as Hl.
  destruct (low_facts f c Hf Hl) as [L1 [L2 [L3 [L4 L5]]]]. destruct (format_emax f Hf) as [P1 [P2 P3]].
  destruct (plain_read f c p i Hf Hl W F Hi0 Hi) as [y [Y [E [I [B T]]]]]. rewrite E0 in E. injection E as <-.
  pose proof I as [m0' [e0' [Q [F0 V0]]]]. injection Q as <- <-. pose proof F0 as [_ [F2 _]].
  destruct (unit_num c m0 e0 ltac:(lia) ltac:(lia)) as [A0 [B0 K0]]. rewrite V0 in A0. set (k0 := 2 ^ (Z.min e0 0 - c)) in *.
  assert (N0 : 0 <= num m0 e0) by nia. rewrite (Z.abs_eq (num m0 e0)) in Hsz by exact N0.
  (* from values to fractions *)
  assert (Conv : forall x X' positive n, isv f c x X' -> (exponent p = if positive : bool then n else - n) -> 0 <= n ->
    relz (2 ^ prec f) 50 (X' * De positive n) (Y * Nu positive n) -> scaled (Fin m0 e0) x (exponent p) 50 (prec f)).
  { intros x X' positive n [m [e [-> [Fx Vx]]]] En Hn R. exists m0, e0, m, e. split; [reflexivity|]. split; [reflexivity|]. pose proof Fx as [_ [F3 _]].
    destruct (unit_num c m e ltac:(lia) ltac:(lia)) as [A1 [B1 K1]]. rewrite Vx in A1. set (k1 := 2 ^ (Z.min e 0 - c)) in *.
    assert (ND : 10 ^ Z.max 0 (exponent p) = Nu positive n /\ 10 ^ Z.max 0 (- exponent p) = De positive n).
    { rewrite En. unfold Nu, De. destruct positive; split; first [f_equal; lia | replace (Z.max 0 (- n)) with 0 by lia; reflexivity | replace (Z.max 0 (- - n)) with n by lia; reflexivity]. }
    destruct ND as [-> ->]. rewrite (Z.abs_eq (num m0 e0)) by exact N0.
    change (relz (2 ^ prec f) 50 (num m e * De positive n * den e0) (num m0 e0 * Nu positive n * den e)).
    apply (rel_cancel _ _ _ _ (k0 * k1)); [apply Z.mul_pos_pos; assumption|].
    replace (num m e * De positive n * den e0 * (k0 * k1)) with (num m e * k1 * De positive n * (den e0 * k0)) by ring.
    replace (num m0 e0 * Nu positive n * den e * (k0 * k1)) with (num m0 e0 * k0 * Nu positive n * (den e * k1)) by ring.
    rewrite <- A0, <- A1, <- B0, <- B1. apply rel_scale; [apply Z.lt_le_incl, p2pos; lia|exact R]. }
  destruct (p_exp p) as [[[l s] ds]|] eqn:Ee.
  - destruct (T l s ds eq_refl) as [i' [Hi' Er]]. pose proof W as [_ [_ [_ We]]]. destruct (We l s ds Ee) as [Wl [Ws Wds]]. pose proof F as [Fi [_ Fe]]. specialize (Fe l s ds Ee).
    assert (Nd : 0 <= number ds) by (rewrite (number_follow ds Wds); apply (follow_ge ds Wds 0); lia).
    rewrite Er, (exponent_read f _ s ds i' Ws Wds Fe Hi'). set (positive := match s with [45] => false | _ => true end).
    assert (En : exponent p = if positive then number ds else - number ds) by (unfold exponent, positive; rewrite Ee; destruct Ws as [->|[->| ->]]; reflexivity).
    assert (De_max : De positive (number ds) = 10 ^ Z.max 0 (- exponent p)).
    { rewrite En. unfold De. destruct positive; [replace (Z.max 0 (- number ds)) with 0 by lia; reflexivity|f_equal; lia]. }
    destruct (exponent_rel f c positive (Fin m0 e0) Y (14 + 4 * zlen (p_int p)) (number ds) Hf Hl I) as [X' [I' R']].
    + unfold zlen; lia.
    + destruct positive; lia.
    + rewrite De_max. unfold norm. assert (Em : emin f + prec f = 3 - emax f) by (unfold emin; lia). rewrite Em.
      rewrite A0. pose proof (p2pos (emax f - 5) ltac:(lia)) as PE. apply (Z.mul_le_mono_pos_r _ _ (2 ^ (emax f - 5)) PE).
      apply Z.le_trans with (den e0 * 10 ^ Z.max 0 (- exponent p) * k0).
      * rewrite (Z.mul_comm (den e0)), <- (Z.mul_assoc _ (den e0)), <- B0. replace (2 ^ (- c)) with (4 * 2 ^ (3 - emax f - c) * 2 ^ (emax f - 5)); [apply Z.eq_le_incl; ring|].
        assert (G : 0 <= 3 - emax f - c) by (unfold low, emin in *; destruct Hf as [->| ->]; cbn [prec emax binary32 binary64] in *; lia).
        change 4 with (2 ^ 2). rewrite <- (p2add 2 (3 - emax f - c)) by lia. rewrite <- p2add by lia. f_equal. lia.
      * replace (num m0 e0 * k0 * 2 ^ (emax f - 5)) with (num m0 e0 * 2 ^ (emax f - 5) * k0) by ring. apply Z.mul_le_mono_nonneg_r; [lia|exact Hsz].
    + intros Hp. split; [lia|]. rewrite Hp in En. rewrite En in Fi. lia.
    + cbv zeta. rewrite (isv_fin f c _ _ I'). exists (add_exponent f (Fin m0 e0) (number ds) positive). split; [reflexivity|]. apply (Conv _ X' positive (number ds)); assumption.
  - assert (Pp : unsigned_text p = unsigned_text (plain p)) by (unfold unsigned_text, tail, plain; cbn; rewrite Ee; reflexivity).
    rewrite Pp, E0. exists (Fin m0 e0). split; [reflexivity|]. apply (Conv _ Y true 0); [exact I|unfold exponent; rewrite Ee; reflexivity|lia|]. cbn. apply rel_eq; lia.
Qed.

Lemma neg_scaled x0 x k w q : scaled x0 x k w q -> scaled (fneg x0) (fneg x) k w q.
Proof.
  intros [m0 [e0 [m [e [-> [-> H]]]]]]. exists (- m0), e0, (- m), e. split; [reflexivity|]. split; [reflexivity|].
  assert (N : forall a b, num (- a) b = - num a b) by (intros; unfold num; ring). rewrite !N, Z.abs_opp.
  replace (- num m e * 10 ^ Z.max 0 (- k) * den e0 - - num m0 e0 * 10 ^ Z.max 0 k * den e) with (- (num m e * 10 ^ Z.max 0 (- k) * den e0 - num m0 e0 * 10 ^ Z.max 0 k * den e)) by ring.
  rewrite Z.abs_opp. exact H.
Qed.
Lemma neg_at_least x k r : at_least (fneg x) k r -> at_least x k r.
Proof.
  intros [m [e [E H]]]. destruct x as [mm ee| |]; try discriminate. injection E as <- <-. exists mm, ee. split; [reflexivity|].
  replace (num (- mm) ee) with (- num mm ee) in H by (unfold num; ring). rewrite Z.abs_opp in H. exact H.
Qed.
Theorem with_exponent f p x0 : is_format f -> well_formed p -> fits f p -> zlen (written p) <= 1000 -> Z.abs (exponent p) < max_exponent f ->
  string_to_float f (written (plain p)) = (Some x0, true) -> at_least x0 (exponent p) (emax f - 5) ->
  exists x, string_to_float f (written p) = (Some x, true) /\ scaled x0 x (exponent p) 50 (prec f).
Proof.
  intros Hf W F L He E H.
  assert (Wp : well_formed (plain p)) by (destruct W as [A [B [C _]]]; split; [exact A|]; split; [exact B|]; split; [exact C|]; cbn; discriminate).
  rewrite (string_written f p W), (normal_written f p W). rewrite (string_written f _ Wp), (normal_written f _ Wp) in E. change (p_sign (plain p)) with (p_sign p) in E.
  rewrite written_unsigned in L. unfold zlen in L. rewrite app_length, Nat2Z.inj_add in L.
  pose proof W as [Ws _]. destruct Ws as [S|[S|S]]; rewrite S in *; cbn [length] in L.
  - destruct (read_unsigned f (unsigned_text (plain p)) 0) as [y ret] eqn:Er. injection E as -> ->.
    destruct (plain_exponent f p 0 x0 Hf W F ltac:(lia) ltac:(unfold zlen; lia) He Er H) as [x [Ex Sx]]. rewrite Ex. exists x. auto.
  - destruct (read_unsigned f (unsigned_text (plain p)) 1) as [y ret] eqn:Er. injection E as -> ->.
    destruct (plain_exponent f p 1 x0 Hf W F ltac:(lia) ltac:(unfold zlen; lia) He Er H) as [x [Ex Sx]]. rewrite Ex. exists x. auto.
  - destruct (read_unsigned f (unsigned_text (plain p)) 1) as [y ret] eqn:Er. injection E as <- ->. apply neg_at_least in H.
    destruct (plain_exponent f p 1 y Hf W F ltac:(lia) ltac:(unfold zlen; lia) He Er H) as [x [Ex Sx]]. rewrite Ex. exists (fneg x). split; [reflexivity|]. apply neg_scaled. exact Sx.
Qed.
