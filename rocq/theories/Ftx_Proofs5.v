(** The texts that are accepted are numbers. *)
From Verif Require Import Base Flt_Model Flt_Spec Flt_Proofs Flt_Proofs2 Ftx_Model Ftx_Spec Ftx_Proofs Ftx_Proofs2 Ftx_Proofs3 Ftx_Proofs4.
From Verif Require IntText_Spec.
From Coq Require Import Lia ZArith Bool List.
Import ListNotations.
Local Notation tail := Ftx_Proofs4.tail.
Open Scope Z_scope.

(** ** Units and fractions *)
Lemma unit_num c m e : c <= e -> c <= 0 -> at_unit c m e = num m e * 2 ^ (Z.min e 0 - c) /\ 2 ^ (- c) = den e * 2 ^ (Z.min e 0 - c) /\ 0 < 2 ^ (Z.min e 0 - c).
Proof.
  intros H1 H2. split; [|split; [|apply p2pos; lia]].
  - unfold num, at_unit. rewrite <- Z.mul_assoc, <- p2add by lia. do 2 f_equal. lia.
  - unfold den. rewrite <- p2add by lia. f_equal. lia.
Qed.
Lemma isv_integer f c x n : is_format f -> low f c -> isv f c x (n * 2 ^ (- c)) -> is_integer x n.
Proof.
  intros Hf Hl [m [e [-> [F V]]]]. destruct (low_facts f c Hf Hl) as [L1 [L2 _]]. destruct F as [_ [F2 _]].
  destruct (unit_num c m e ltac:(lia) ltac:(lia)) as [A [B P]]. exists m, e. split; [reflexivity|].
  rewrite A, B, Z.mul_assoc in V. apply Z.mul_reg_r in V; [exact V|lia].
Qed.
Lemma isv_within f c x Y n d w q : is_format f -> low f c -> isv f c x Y -> 2 ^ q * Z.abs (Y * d - n * 2 ^ (- c)) <= w * 2 ^ (- c) * d -> within x n d w q.
Proof.
  intros Hf Hl [m [e [-> [F V]]]] H. destruct (low_facts f c Hf Hl) as [L1 [L2 _]]. destruct F as [_ [F2 _]].
  destruct (unit_num c m e ltac:(lia) ltac:(lia)) as [A [B P]]. exists m, e. split; [reflexivity|].
  rewrite <- V, A, B in H. set (k := 2 ^ (Z.min e 0 - c)) in *.
  replace (num m e * k * d - n * (den e * k)) with ((num m e * d - n * den e) * k) in H by ring.
  rewrite Z.abs_mul, (Z.abs_eq k) in H by lia. apply (Z.mul_le_mono_pos_r _ _ k P).
  replace (w * den e * d * k) with (w * (den e * k) * d) by ring. rewrite <- Z.mul_assoc. exact H.
Qed.
Lemma neg_integer x n : is_integer x n -> is_integer (fneg x) (- n).
Proof. intros [m [e [-> H]]]. exists (- m), e. split; [reflexivity|]. unfold num in *. lia. Qed.
Lemma neg_within x n d w q : within x n d w q -> within (fneg x) (- n) d w q.
Proof.
  intros [m [e [-> H]]]. exists (- m), e. split; [reflexivity|]. unfold num in *.
  replace (- m * 2 ^ (e - Z.min e 0) * d - - n * den e) with (- (m * 2 ^ (e - Z.min e 0) * d - n * den e)) by ring. rewrite Z.abs_opp. exact H.
Qed.

(** ** Numbers are accepted *)
Lemma written_unsigned p : written p = p_sign p ++ unsigned_text p.
Proof. reflexivity. Qed.
Lemma first_char p : well_formed p -> p_sign p = [] -> forall c r, unsigned_text p = c :: r -> c <> 45 /\ c <> 43 /\ (forall c1 r1, r = c1 :: r1 -> c1 = 120 \/ c1 = 111 \/ c1 = 98 -> False).
Proof.
  intros [_ [Wi [Wd We]]] _ c r H. unfold unsigned_text, tail in H.
  assert (A : forall c, In c (unsigned_text p) -> (48 <= c <= 57) \/ c = 46 \/ c = 69 \/ c = 101 \/ c = 43 \/ c = 45).
  { intros d Hd. unfold unsigned_text, tail in Hd. apply in_app_or in Hd. destruct Hd as [Hd|Hd]; [left; unfold digits in Wi; rewrite Forall_forall in Wi; apply Wi; exact Hd|].
    apply in_app_or in Hd. destruct Hd as [Hd|Hd].
    - destruct (p_dec p) as [ds|]; [|destruct Hd]. destruct Hd as [<-|Hd]; [right; left; reflexivity|]. left. specialize (Wd ds eq_refl). unfold digits in Wd. rewrite Forall_forall in Wd. apply Wd; exact Hd.
    - destruct (p_exp p) as [[[l s] es]|]; [|destruct Hd]. destruct (We l s es eq_refl) as [Wl [Ws Wes]]. destruct Hd as [<-|Hd]; [tauto|].
      apply in_app_or in Hd. destruct Hd as [Hd|Hd].
      + destruct Ws as [->|[->| ->]]; [destruct Hd|destruct Hd as [<-|[]]; tauto|destruct Hd as [<-|[]]; tauto].
      + left. unfold digits in Wes. rewrite Forall_forall in Wes. apply Wes; exact Hd. }
  assert (First : (48 <= c <= 57) \/ c = 46 \/ c = 69 \/ c = 101).
  { destruct (p_int p) as [|d ds]; cbn [app] in H.
    - destruct (p_dec p) as [ds|]; cbn [app] in H; [injection H as <- _; tauto|]. destruct (p_exp p) as [[[l s] es]|]; [|discriminate].
      destruct (We l s es eq_refl) as [Wl _]. injection H as <- _. tauto.
    - injection H as <- _. inversion Wi; subst. left; assumption. }
  split; [lia|]. split; [lia|]. intros c1 r1 -> Hc. specialize (A c1). unfold unsigned_text, tail in A. rewrite H in A. specialize (A ltac:(right; left; reflexivity)). lia.
Qed.
Lemma normal_written f p : well_formed p -> normal_float f (written p) =
  match p_sign p with
  | [45] => let (x, ret) := read_unsigned f (unsigned_text p) 1 in (fneg x, ret)
  | [43] => read_unsigned f (unsigned_text p) 1
  | _ => read_unsigned f (unsigned_text p) 0
  end.
Proof.
  intros W. rewrite written_unsigned. pose proof W as [Ws _]. destruct Ws as [E|[E|E]]; rewrite E; cbn [app].
  - destruct (unsigned_text p) as [|c r] eqn:U; [reflexivity|]. destruct (first_char p W E c r U) as [A [B _]]. unfold normal_float.
    destruct (Z.eqb_spec c 45); [contradiction|]. destruct (Z.eqb_spec c 43); [contradiction|]. reflexivity.
  - reflexivity.
  - reflexivity.
Qed.
Lemma string_written f p : well_formed p -> string_to_float f (written p) = let (x, ret) := normal_float f (written p) in (Some x, ret).
Proof.
  intros W. unfold string_to_float. destruct (written p) as [|c0 [|c1 r]] eqn:E; try reflexivity.
  assert (N : (c0 =? 48) && ((c1 =? 120) || (c1 =? 111) || (c1 =? 98)) = false); [|rewrite N; reflexivity].
  destruct (Z.eqb_spec c0 48) as [C|C]; [|reflexivity]. cbn [andb].
  assert (S : p_sign p = []).
  { pose proof W as [Ws _]. rewrite written_unsigned in E. destruct Ws as [S|[S|S]]; [exact S|rewrite S in E; injection E; lia|rewrite S in E; injection E; lia]. }
  rewrite written_unsigned, S in E. cbn [app] in E. destruct (first_char p W S c0 (c1 :: r) E) as [_ [_ H]]. specialize (H c1 r eq_refl).
  destruct (Z.eqb_spec c1 120); [exfalso; tauto|]. destruct (Z.eqb_spec c1 111); [exfalso; tauto|]. destruct (Z.eqb_spec c1 98); [exfalso; tauto|]. reflexivity.
Qed.
Definition the_unit (f : fmt) : Z := 2 * emin f - 1000.
Lemma unit_low f : low f (the_unit f).
Proof. unfold low, the_unit. lia. Qed.

Lemma accepted f p : is_format f -> well_formed p -> fits f p -> zlen (written p) <= 1000 ->
  exists x, string_to_float f (written p) = (Some x, true)
  /\ (p_dec p = None \/ p_dec p = Some [] -> 0 <= exponent p < 64 -> number (p_int p) * 10 ^ exponent p <= 2 ^ prec f ->
      is_integer x (signed p (number (p_int p) * 10 ^ exponent p)))
  /\ (forall b, p_exp p = None -> (length (decimals p) <= exact_powers f)%nat -> 1 <= b <= prec f -> number (p_int p) + 2 <= 2 ^ b ->
      let d := Z.of_nat (length (decimals p)) in
      within x (signed p (number (p_int p) * 10 ^ d + number (decimals p))) (10 ^ d) (2 * d + 2 ^ (b - 1)) (prec f)).
Proof.
  intros Hf W F L. set (c := the_unit f). pose proof (unit_low f : low f c) as Hl. rewrite (string_written f p W), (normal_written f p W).
  rewrite written_unsigned in L. unfold zlen in L. rewrite app_length, Nat2Z.inj_add in L.
  assert (R : forall i, 0 <= i -> i + zlen (unsigned_text p) <= 1000 -> exists y Y, read_unsigned f (unsigned_text p) i = (y, true) /\ isv f c y Y /\ value_ok f c p Y).
  { intros i Hi Hz. destruct (read_ok f c p i Hf Hl W F Hi Hz) as [y [Y [A [B [_ D]]]]]. exists y, Y. auto. }
  pose proof W as [Ws _]. destruct Ws as [S|[S|S]]; rewrite S in *; cbn [length] in L.
  - destruct (R 0 ltac:(lia) ltac:(unfold zlen; lia)) as [y [Y [E [I [V1 V2]]]]]. rewrite E. exists y. split; [reflexivity|]. unfold signed. rewrite S. split.
    + intros A B C. apply (isv_integer f c); try assumption. rewrite <- (V1 _ A eq_refl B C). exact I.
    + intros b A B C D. apply (isv_within f c y Y); try assumption. apply V2; assumption.
  - destruct (R 1 ltac:(lia) ltac:(unfold zlen; lia)) as [y [Y [E [I [V1 V2]]]]]. rewrite E. exists y. split; [reflexivity|]. unfold signed. rewrite S. split.
    + intros A B C. apply (isv_integer f c); try assumption. rewrite <- (V1 _ A eq_refl B C). exact I.
    + intros b A B C D. apply (isv_within f c y Y); try assumption. apply V2; assumption.
  - destruct (R 1 ltac:(lia) ltac:(unfold zlen; lia)) as [y [Y [E [I [V1 V2]]]]]. rewrite E. exists (fneg y). split; [reflexivity|]. unfold signed. rewrite S. split.
    + intros A B C. apply neg_integer. apply (isv_integer f c); try assumption. rewrite <- (V1 _ A eq_refl B C). exact I.
    + intros b A B C D. apply neg_within. apply (isv_within f c y Y); try assumption. apply V2; assumption.
Qed.

(** ** Only numbers are accepted *)
Definition chars (t : list Z) : Prop := Forall (fun c => 0 < c < 256) t.
Lemma digit_cases c : 0 < c < 256 -> (48 <= c <= 57 /\ digit_of c = Some (c - 48)) \/ (~ 48 <= c <= 57 /\ digit_of c = None).
Proof. intros H. destruct (Z_le_gt_dec 48 c), (Z_le_gt_dec c 57); [left; split; [lia|apply digit_yes; lia]|right|right|right]; (split; [lia|apply digit_no; lia]). Qed.
Lemma exp_sound rest : chars rest -> forall i e e', i + zlen rest <= 1000 -> exp_loop rest i e = EEnd e' true -> digits rest.
Proof.
  intros H. induction H as [|d r Hd Hr IH]; intros i e e' Hi E; [constructor|]. unfold zlen in *. cbn [length] in Hi. rewrite Nat2Z.inj_succ in Hi.
  cbn [exp_loop] in E. destruct (Z.leb_spec 1000 i); [lia|]. destruct (digit_cases d Hd) as [[D Dd]|[D Dd]]; rewrite Dd in E; [|discriminate].
  cbv zeta in E. destruct (512 <=? e * 10 + (d - 48)); [discriminate|]. constructor; [exact D|]. apply (IH (i + 1) (e * 10 + (d - 48)) e'); [lia|exact E].
Qed.
Lemma int_sound f rest : chars rest -> forall i x, i + zlen rest <= 1000 ->
  match int_loop f rest i x with
  | IStop _ true => digits rest
  | IStop _ false => True
  | IDot _ r i' => exists ds, digits ds /\ rest = ds ++ 46 :: r /\ i' = i + zlen ds + 1
  | IExp _ r i' => exists ds l, digits ds /\ (l = 69 \/ l = 101) /\ rest = ds ++ l :: r /\ i' = i + zlen ds + 1
  end.
Proof.
  intros H. induction H as [|d r Hd Hr IH]; intros i x Hi.
  - cbn. destruct (1000 <=? i); constructor.
  - unfold zlen in Hi. cbn [length] in Hi. rewrite Nat2Z.inj_succ in Hi. cbn [int_loop]. destruct (Z.leb_spec 1000 i); [lia|].
    destruct (digit_cases d Hd) as [[D Dd]|[D Dd]]; rewrite Dd.
    + cbv zeta. destruct (is_fin (fmul f x (ten f))); [|exact I]. destruct (is_fin (fadd f _ _)); [|exact I].
      specialize (IH (i + 1) (fadd f (fmul f x (ten f)) (of_int f (d - 48))) ltac:(unfold zlen; lia)).
      destruct (int_loop f r (i + 1) _) as [y []|y r' i'|y r' i'].
      * constructor; assumption.
      * exact I.
      * destruct IH as [ds [A [B C]]]. exists (d :: ds). split; [constructor; assumption|]. split; [rewrite B; reflexivity|]. unfold zlen in *. cbn [length]. lia.
      * destruct IH as [ds [l [A [L [B C]]]]]. exists (d :: ds), l. split; [constructor; assumption|]. split; [exact L|]. split; [rewrite B; reflexivity|]. unfold zlen in *. cbn [length]. lia.
    + destruct (Z.eqb_spec d 46); [subst; exists []; split; [constructor|]; split; [reflexivity|unfold zlen; cbn; lia]|].
      destruct (Z.eqb_spec d 69); cbn [orb]; [subst; exists [], 69; split; [constructor|]; split; [tauto|]; split; [reflexivity|unfold zlen; cbn; lia]|].
      destruct (Z.eqb_spec d 101); [subst; exists [], 101; split; [constructor|]; split; [tauto|]; split; [reflexivity|unfold zlen; cbn; lia]|]. exact I.
Qed.
Lemma dec_sound f rest : is_format f -> chars rest -> forall i part j, i + zlen rest <= 1000 ->
  (forall ds r, rest = ds ++ r -> digits ds -> (j + length ds <= most f)%nat) ->
  match dec_loop f rest i part (p_at f j) with
  | DStop _ true => digits rest
  | DStop _ false => True
  | DExp _ r i' => exists ds l, digits ds /\ (l = 69 \/ l = 101) /\ rest = ds ++ l :: r /\ i' = i + zlen ds + 1
  end.
Proof.
  intros Hf H. induction H as [|d r Hd Hr IH]; intros i part j Hi Hm.
  - cbn. destruct (1000 <=? i); constructor.
  - unfold zlen in Hi. cbn [length] in Hi. rewrite Nat2Z.inj_succ in Hi. cbn [dec_loop]. destruct (Z.leb_spec 1000 i); [lia|].
    destruct (digit_cases d Hd) as [[D Dd]|[D Dd]]; rewrite Dd.
    + cbv zeta. rewrite <- p_succ.
      assert (Hj : (S j <= most f)%nat) by (specialize (Hm [d] r eq_refl ltac:(repeat constructor; lia)); cbn in Hm; lia).
      destruct (p_shape f (S j) Hf Hj) as [pm [pe [Ep _]]]. replace (is_fin (p_at f (S j))) with true by (rewrite Ep; reflexivity).
      specialize (IH (i + 1) (fadd f part (fdiv f (of_int f (d - 48)) (p_at f (S j)))) (S j) ltac:(unfold zlen; lia)).
      assert (Hm' : forall ds r0, r = ds ++ r0 -> digits ds -> (S j + length ds <= most f)%nat).
      { intros ds r0 Er Hds. specialize (Hm (d :: ds) r0 ltac:(rewrite Er; reflexivity) ltac:(constructor; assumption)). cbn in Hm. lia. }
      specialize (IH Hm').
      destruct (dec_loop f r (i + 1) _ (p_at f (S j))) as [y []|y r' i'].
      * constructor; assumption.
      * exact I.
      * destruct IH as [ds [l [A [L [B C]]]]]. exists (d :: ds), l. split; [constructor; assumption|]. split; [exact L|]. split; [rewrite B; reflexivity|]. unfold zlen in *. cbn [length]. lia.
    + destruct (Z.eqb_spec d 69); cbn [orb]; [subst; exists [], 69; split; [constructor|]; split; [tauto|]; split; [reflexivity|unfold zlen; cbn; lia]|].
      destruct (Z.eqb_spec d 101); [subst; exists [], 101; split; [constructor|]; split; [tauto|]; split; [reflexivity|unfold zlen; cbn; lia]|]. exact I.
Qed.
Lemma exponent_sound f x rest i y : chars rest -> i + zlen rest <= 1000 -> read_exponent f x rest i = (y, true) -> exists s ds, sign s /\ digits ds /\ rest = s ++ ds.
Proof.
  intros H Hi E. unfold read_exponent in E.
  assert (G : forall r j, chars r -> j + zlen r <= 1000 -> (match exp_loop r j 0 with EStop => (x, false) | EEnd e ret => let t := add_exponent f x e true in if is_fin t then (t, ret) else (x, false) end = (y, true)) \/
     (match exp_loop r j 0 with EStop => (x, false) | EEnd e ret => let t := add_exponent f x e false in if is_fin t then (t, ret) else (x, false) end = (y, true)) -> digits r).
  { intros r j Hr Hj [E0|E0]; (destruct (exp_loop r j 0) as [|e ret] eqn:El; [discriminate|]; cbv zeta in E0; destruct (is_fin _) in E0; [|discriminate]; injection E0 as _ ->; apply (exp_sound r Hr j 0 e Hj El)). }
  destruct rest as [|c r]; [exists [], []; split; [left; reflexivity|]; split; [constructor|reflexivity]|].
  inversion H as [|? ? Hc Hr]; subst. unfold zlen in Hi. cbn [length] in Hi. rewrite Nat2Z.inj_succ in Hi.
  destruct (Z.eqb_spec c 43).
  - subst. exists [43], r. split; [right; left; reflexivity|]. split; [apply (G r (i + 1) Hr); [unfold zlen; lia|left; exact E]|reflexivity].
  - destruct (Z.eqb_spec c 45).
    + subst. exists [45], r. split; [right; right; reflexivity|]. split; [apply (G r (i + 1) Hr); [unfold zlen; lia|right; exact E]|reflexivity].
    + exists [], (c :: r). split; [left; reflexivity|]. split; [apply (G (c :: r) i H); [unfold zlen; cbn [length]; lia|left; exact E]|reflexivity].
Qed.
(** at most so many digits follow a point *)
Definition short_decimals (f : fmt) (t : list Z) : Prop := forall a ds r, t = a ++ 46 :: ds ++ r -> digits ds -> (length ds <= most f)%nat.
Lemma read_sound f rest i y : is_format f -> chars rest -> i + zlen rest <= 1000 -> short_decimals f rest -> read_unsigned f rest i = (y, true) ->
  exists p, well_formed p /\ p_sign p = [] /\ rest = unsigned_text p.
Proof.
  intros Hf H Hi Hs E. unfold read_unsigned in E. pose proof (int_sound f rest H i zero Hi) as S. destruct (int_loop f rest i zero) as [x ret|x r i'|x r i'].
  - injection E as -> ->. exists (Parts [] rest None None). split; [|split; [reflexivity|unfold unsigned_text, tail; cbn; rewrite app_nil_r; reflexivity]].
    repeat split; cbn; try discriminate; [left; reflexivity|exact S].
  - destruct S as [ds [D [Er Ei]]].
    assert (Hr : chars r) by (subst rest; apply Forall_app in H; destruct H as [_ H]; inversion H; assumption).
    assert (Zr : i' + zlen r <= 1000) by (subst rest; unfold zlen in *; rewrite app_length in Hi; cbn [length] in Hi; lia).
    pose proof (dec_sound f r Hf Hr i' zero 0 Zr) as SD. change (p_at f 0) with (of_int f 1) in SD.
    assert (Hm : forall d0 r0, r = d0 ++ r0 -> digits d0 -> (0 + length d0 <= most f)%nat).
    { intros d0 r0 E0 Hd0. apply (Hs ds d0 r0); [rewrite Er, E0; reflexivity|exact Hd0]. }
    specialize (SD Hm). destruct (dec_loop f r i' zero (of_int f 1)) as [p ret|p r2 i2].
    + cbv zeta in E. destruct (is_fin (fadd f x p)); [|discriminate]. injection E as _ ->.
      exists (Parts [] ds (Some r) None). split; [|split; [reflexivity|unfold unsigned_text, tail; cbn; rewrite app_nil_r; exact Er]].
      repeat split; cbn; try discriminate; [left; reflexivity|exact D|intros ? E0; injection E0 as <-; exact SD].
    + cbv zeta in E. destruct (is_fin (fadd f x p)); [|discriminate]. destruct SD as [d2 [l [D2 [L [E2 Ei2]]]]].
      destruct (exponent_sound f (fadd f x p) r2 i2 y) as [s [es [Ws [We Ee]]]]; [subst r; apply Forall_app in Hr; destruct Hr as [_ Hr]; inversion Hr; assumption| |exact E|].
      { subst r. unfold zlen in *. rewrite app_length in Zr. cbn [length] in Zr. lia. }
      exists (Parts [] ds (Some d2) (Some (l, s, es))). split; [|split; [reflexivity|unfold unsigned_text, tail; cbn; rewrite Er, E2, Ee; cbn; rewrite <- ?app_assoc; reflexivity]].
      split; [left; reflexivity|]. split; [exact D|]. cbn. split; [intros ? E0; injection E0 as <-; exact D2|intros ? ? ? E0; injection E0 as <- <- <-; auto].
  - destruct S as [ds [l [D [L [Er Ei]]]]].
    assert (Hr : chars r) by (subst rest; apply Forall_app in H; destruct H as [_ H]; inversion H; assumption).
    assert (Zr : i' + zlen r <= 1000) by (subst rest; unfold zlen in *; rewrite app_length in Hi; cbn [length] in Hi; lia).
    destruct (exponent_sound f x r i' y Hr Zr E) as [s [es [Ws [We Ee]]]].
    exists (Parts [] ds None (Some (l, s, es))). split; [|split; [reflexivity|unfold unsigned_text, tail; cbn; rewrite Er, Ee; reflexivity]].
    split; [left; reflexivity|]. split; [exact D|]. cbn. split; [discriminate|intros ? ? ? E0; injection E0 as <- <- <-; auto].
Qed.
Lemma sound f t y : is_format f -> chars t -> zlen t <= 1000 -> short_decimals f t -> normal_float f t = (y, true) -> float_syntax t.
Proof.
  intros Hf H Hz Hs E. unfold normal_float in E.
  assert (Base : forall r s i y', t = s ++ r -> sign s -> chars r -> i + zlen r <= 1000 -> read_unsigned f r i = (y', true) -> float_syntax t).
  { intros r s i y' Et Ws Hr Hi E0. assert (Hs' : short_decimals f r) by (intros a ds r0 E1; apply (Hs (s ++ a) ds r0); rewrite Et, E1, <- app_assoc; reflexivity).
    destruct (read_sound f r i y' Hf Hr Hi Hs' E0) as [p [W [S U]]]. exists (Parts s (p_int p) (p_dec p) (p_exp p)). split.
    - destruct W as [_ [A [B C]]]. split; [exact Ws|]. split; [exact A|]. split; [exact B|exact C].
    - rewrite Et, U. reflexivity. }
  destruct t as [|c r]; [apply (Base [] [] 0 y); [reflexivity|left; reflexivity|constructor|unfold zlen; cbn; lia|exact E]|].
  inversion H as [|? ? Hc Hr]; subst. pose proof Hz as Hz'. unfold zlen in Hz'. cbn [length] in Hz'. rewrite Nat2Z.inj_succ in Hz'.
  destruct (Z.eqb_spec c 45).
  - subst. destruct (read_unsigned f r 1) as [x ret] eqn:Er. injection E as _ ->. apply (Base r [45] 1 x); [reflexivity|right; right; reflexivity|exact Hr|unfold zlen; lia|exact Er].
  - destruct (Z.eqb_spec c 43).
    + subst. apply (Base r [43] 1 y); [reflexivity|right; left; reflexivity|exact Hr|unfold zlen; lia|exact E].
    + apply (Base (c :: r) [] 0 y); [reflexivity|left; reflexivity|exact H|lia|exact E].
Qed.
