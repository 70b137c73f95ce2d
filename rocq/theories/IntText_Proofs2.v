(** Proofs about integer parsing, and the print/parse round trip. *)
From Verif Require Import Base IntText_Model IntText_Spec IntText_Proofs.

Ltac Zify.zify_post_hook ::= idtac.

Lemma digit_opt_some base c d : digit_opt base c = Some d -> is_digit base c /\ digit_val c = d.
Proof.
  unfold digit_opt, is_digit. destruct ((0 <=? digit_val c) && (digit_val c <? base)) eqn:E; [|discriminate].
  intros H; injection H as <-. lia.
Qed.
Lemma digit_opt_none base c : digit_opt base c = None -> ~ is_digit base c.
Proof.
  unfold digit_opt, is_digit. destruct ((0 <=? digit_val c) && (digit_val c <? base)) eqn:E; [discriminate|]. lia.
Qed.

Lemma numeral_cons base c s n :
  numeral base (c :: s) n <-> is_digit base c /\ exists m, numeral base s m /\ n = digit_val c * base ^ Z.of_nat (length s) + m.
Proof.
  unfold numeral. split.
  - intros [F V]. inversion F; subst. split; [assumption|]. eexists. split; [split; [assumption|reflexivity]|].
    apply value_cons.
  - intros (D & m & (F & V) & ->). split; [constructor; assumption|]. rewrite value_cons, V. reflexivity.
Qed.

Lemma numeral_nil base n : numeral base [] n <-> n = 0.
Proof. unfold numeral, value. cbn. split; [intros [_ H]; lia|intros ->; split; [constructor|reflexivity]]. Qed.

Lemma numeral_fun base s n m : numeral base s n -> numeral base s m -> n = m.
Proof. intros [_ A] [_ B]. congruence. Qed.

Lemma numeral_nonneg base s n : 1 <= base -> numeral base s n -> 0 <= n < base ^ Z.of_nat (length s).
Proof. intros Hb [F <-]. apply value_bound; auto. Qed.

(** ** Decimal *)

Record dec_params (t : ity) (neg : bool) (max maxLast M lim : Z) : Prop := {
  dp_max : 0 < max; dp_m : M = imax t; dp_last : lim = 10 * max + maxLast; dp_lim : lim = if neg then M + 1 else M;
  dp_room : lim < 10 * (max + 1); dp_pos : 0 < maxLast; dp_min : imin t <= 0
}.

Definition enc (neg : bool) (M v : Z) : Z * bool := if neg && (v =? M + 1) then (M, true) else (v, false).

Lemma dec_digit_step t neg max maxLast M lim v d :
  std_ty t -> dec_params t neg max maxLast M lim -> 0 <= v <= lim -> 0 <= d <= 9 ->
  let '(st', err) := dec_digit t neg max maxLast d (enc neg M v) in
  if 10 * v + d <=? lim then st' = enc neg M (10 * v + d) /\ err = false else err = true.
Proof.
  intros Ht DP Hv Hd. pose proof (std_pos t Ht) as Hp.
  destruct DP as [D1 D2 D3 D4 D5 D6 D7].
  assert (CI : forall x, 0 <= x <= M -> cast t x = x).
  { intros x Hx. apply cast_id; [lia|]. unfold in_ty. lia. }
  unfold enc.
  destruct (neg && (v =? M + 1)) eqn:E1.
  - (* already at the minimum: any digit overflows *)
    destruct neg; [|discriminate]. cbn [andb] in E1.
    unfold dec_digit. replace (M >? max) with true by lia. replace (M =? max) with false by lia.
    replace (M <? max) with false by lia. cbn [orb].
    replace (10 * v + d <=? lim) with false by lia. reflexivity.
  - assert (Hv' : v <= M) by (destruct neg; cbn [andb] in E1; lia).
    unfold dec_digit. destruct (v >? max) eqn:E2.
    + replace (v =? max) with false by lia. replace (v <? max) with false by lia. cbn [orb].
      replace (10 * v + d <=? lim) with false by lia. reflexivity.
    + destruct (v =? max) eqn:E3.
      * assert (v = max) by lia. subst v. destruct (d <=? maxLast) eqn:E4.
        -- replace (10 * max + d <=? lim) with true by lia.
           destruct ((d =? maxLast) && neg) eqn:E5.
           ++ destruct neg; [|lia]. cbn [andb].
              rewrite (CI (max * 10)) by lia. rewrite CI by lia.
              replace (max * 10 + (d - 1) <? max) with false by lia.
              replace (10 * max + d =? M + 1) with true by lia. split; [f_equal; lia|reflexivity].
           ++ assert (10 * max + d <= M) by (destruct neg; cbn [andb] in *; lia).
              rewrite (CI (max * 10)) by lia. rewrite CI by lia.
              replace (max * 10 + d <? max) with false by lia.
              replace (neg && (10 * max + d =? M + 1)) with false by lia.
              split; [f_equal; lia|reflexivity].
        -- replace (max <? max) with false by lia. replace (10 * max + d <=? lim) with false by lia. reflexivity.
      * replace (v <? max) with true by lia. cbn [orb].
        assert (10 * v + d <= M) by (destruct neg; lia).
        rewrite (CI (v * 10)) by lia. rewrite CI by lia.
        replace (10 * v + d <=? lim) with true by lia.
        replace (neg && (10 * v + d =? M + 1)) with false by lia.
        split; [f_equal; lia|reflexivity].
Qed.

Lemma pow10_pos n : 0 < 10 ^ Z.of_nat n.
Proof. apply Z.pow_pos_nonneg; lia. Qed.

Lemma dec_loop_spec t neg max maxLast M lim fuel s v :
  std_ty t -> dec_params t neg max maxLast M lim -> 0 <= v <= lim ->
  c_string s -> (length s <= fuel)%nat ->
  (exists n, numeral 10 s n /\ v * 10 ^ Z.of_nat (length s) + n <= lim /\
     dec_loop t neg max maxLast fuel s (enc neg M v) =
       (true, fst (enc neg M (v * 10 ^ Z.of_nat (length s) + n)), snd (enc neg M (v * 10 ^ Z.of_nat (length s) + n))))
  \/ ((forall n, numeral 10 s n -> lim < v * 10 ^ Z.of_nat (length s) + n) /\
      fst (fst (dec_loop t neg max maxLast fuel s (enc neg M v))) = false).
Proof.
  intros Ht DP. revert fuel v. induction s as [|c s IH]; intros fuel v Hv Hs Hf.
  - left. exists 0. split; [apply numeral_nil; reflexivity|].
    cbn [length Z.of_nat]. rewrite Z.pow_0_r. replace (v * 1 + 0) with v by ring.
    split; [lia|]. destruct fuel; reflexivity.
  - destruct fuel as [|fuel]; [cbn in Hf; lia|]. cbn [length] in Hf.
    inversion Hs as [|? ? Hc Hs']; subst.
    pose proof (dec_digit_spec c ltac:(lia)) as DS.
    cbn [dec_loop]. destruct ((new_digit c >=? 0) && (new_digit c <=? 9)) eqn:E.
    + symmetry in DS. apply digit_opt_some in DS. destruct DS as [Dg Dv]. rewrite <- Dv in *.
      pose proof Dg as Dg'. unfold is_digit in Dg'.
      pose proof (dec_digit_step t neg max maxLast M lim v (digit_val c) Ht DP Hv ltac:(lia)) as ST.
      destruct (dec_digit t neg max maxLast (digit_val c) (enc neg M v)) as [st' err] eqn:ED.
      pose proof (pow10_pos (length s)) as PP.
      destruct (10 * v + digit_val c <=? lim) eqn:EL.
      * destruct ST as [-> ->].
        destruct (IH fuel (10 * v + digit_val c) ltac:(lia) Hs' ltac:(lia)) as [(n & N & B & R)|[F R]].
        -- left. exists (digit_val c * 10 ^ Z.of_nat (length s) + n). split; [apply numeral_cons; eauto|].
           cbn [length]. rewrite Nat2Z.inj_succ, Z.pow_succ_r by lia.
           replace (v * (10 * 10 ^ Z.of_nat (length s)) + (digit_val c * 10 ^ Z.of_nat (length s) + n))
             with ((10 * v + digit_val c) * 10 ^ Z.of_nat (length s) + n) by ring.
           auto.
        -- right. split; [|exact R]. intros n N. apply numeral_cons in N. destruct N as (_ & m & N & ->).
           specialize (F m N). cbn [length]. rewrite Nat2Z.inj_succ, Z.pow_succ_r by lia. lia.
      * subst err. right. split; [|reflexivity].
        intros n N. apply numeral_cons in N. destruct N as (_ & m & N & ->).
        apply numeral_nonneg in N; [|lia]. cbn [length]. rewrite Nat2Z.inj_succ, Z.pow_succ_r by lia. nia.
    + right. split; [|reflexivity]. symmetry in DS. apply digit_opt_none in DS.
      intros n N. apply numeral_cons in N. tauto.
Qed.

Lemma dec_params_pos t : std_ty t ->
  let maxmax := cast t (-1) in
  let '(mm, ml) := if isgn t then (uwrap (ibits t) maxmax / 2, Z.rem (uwrap (ibits t) maxmax / 2) 10)
                   else (maxmax, Z.rem maxmax 10) in
  dec_params t false (Z.quot mm 10) ml (imax t) (imax t).
Proof. intros Ht. std t Ht; destruct s; vm_compute; constructor; reflexivity || discriminate. Qed.

Lemma dec_params_neg t : std_ty t -> isgn t = true ->
  let mm := uwrap (ibits t) (cast t (-1)) / 2 in
  dec_params t true (Z.quot mm 10) (Z.rem mm 10 + 1) (imax t) (imax t + 1).
Proof. intros Ht Hs. std t Ht; subst s; vm_compute; constructor; reflexivity || discriminate. Qed.

Lemma imin_signed t : 0 < ibits t -> isgn t = true -> imin t = - (imax t + 1).
Proof. intros H Hs. unfold imin, imax. rewrite Hs. lia. Qed.

Lemma enc_nonneg_false M v : enc false M v = (v, false). Proof. reflexivity. Qed.

(** Decimal parser without sign, or with '+'. *)
Lemma parse_dec_pos_core t s fuel v :
  std_ty t -> c_string s -> (length s <= fuel)%nat ->
  let maxmax := cast t (-1) in
  let '(mm, ml) := if isgn t then (uwrap (ibits t) maxmax / 2, Z.rem (uwrap (ibits t) maxmax / 2) 10)
                   else (maxmax, Z.rem maxmax 10) in
  let '(ret, number, _) := dec_loop t false (Z.quot mm 10) ml fuel s (0, false) in
  (ret = true /\ number = v) <-> (exists n, numeral 10 s n /\ in_ty t n /\ v = n).
Proof.
  intros Ht Hs Hf. pose proof (dec_params_pos t Ht) as DP. cbv zeta in *.
  destruct (if isgn t then _ else _) as [mm ml].
  assert (HI : imin t <= 0 /\ 0 <= imax t).
  { destruct DP. clear - dp_min0 dp_last0 dp_max0 dp_pos0 dp_lim0. split; [exact dp_min0|lia]. }
  change (0, false) with (enc false (imax t) 0).
  pose proof (dec_loop_spec t false _ ml (imax t) (imax t) fuel s 0 Ht DP ltac:(lia) Hs Hf) as D.
  cbn [Z.mul] in D. 
  destruct D as [(n & N & B & R)|[F R]].
  - rewrite R. rewrite enc_nonneg_false. cbn [fst snd].
    pose proof (numeral_nonneg 10 s n ltac:(lia) N). unfold in_ty.
    split.
    + intros [_ <-]. exists n. split; [exact N|]. lia.
    + intros (m & N' & I & ->). split; [reflexivity|]. apply (numeral_fun _ _ _ _ N' ) in N. lia.
  - destruct (dec_loop _ _ _ _ _ _ _) as [[ret number] im]. cbn [fst] in R. subst ret.
    split; [intros [? _]; discriminate|]. intros (m & N' & I & ->). specialize (F m N'). unfold in_ty in I. lia.
Qed.

Lemma parse_dec_neg_core t s fuel v :
  std_ty t -> isgn t = true -> c_string s -> (length s <= fuel)%nat ->
  let mm := uwrap (ibits t) (cast t (-1)) / 2 in
  let '(ret, number, isMin) := dec_loop t true (Z.quot mm 10) (Z.rem mm 10 + 1) fuel s (0, false) in
  (ret = true /\ (if isMin then cast t (cast t (- number) - 1) else cast t (- number)) = v)
  <-> (exists n, numeral 10 s n /\ in_ty t (- n) /\ v = - n).
Proof.
  intros Ht Hg Hs Hf. pose proof (dec_params_neg t Ht Hg) as DP. cbv zeta in *.
  set (mm := uwrap (ibits t) (cast t (-1)) / 2) in *.
  pose proof (std_pos t Ht) as Hp. pose proof (imin_signed t Hp Hg) as MI.
  assert (HI : 0 < imax t).
  { destruct DP. lia. }
  replace (0, false) with (enc true (imax t) 0).
  2:{ unfold enc. cbn [andb]. replace (0 =? imax t + 1) with false by lia. reflexivity. }
  pose proof (dec_loop_spec t true _ _ (imax t) (imax t + 1) fuel s 0 Ht DP ltac:(lia) Hs Hf) as D.
  cbn [Z.mul] in D.
  destruct D as [(n & N & B & R)|[F R]].
  - rewrite R. pose proof (numeral_nonneg 10 s n ltac:(lia) N) as NN. rewrite Z.add_0_l in *.
    assert (V : (if snd (enc true (imax t) n) then cast t (cast t (- fst (enc true (imax t) n)) - 1)
                 else cast t (- fst (enc true (imax t) n))) = - n).
    { unfold enc. cbn [andb]. destruct (n =? imax t + 1) eqn:En; cbn [fst snd].
      - rewrite (cast_id t (- imax t)); [|lia|unfold in_ty; lia]. rewrite cast_id; [lia|lia|unfold in_ty; lia].
      - apply cast_id; [lia|unfold in_ty; lia]. }
    rewrite V. split.
    + intros [_ <-]. exists n. split; [exact N|]. unfold in_ty. lia.
    + intros (m & N' & I & ->). split; [reflexivity|]. apply (numeral_fun _ _ _ _ N') in N. lia.
  - destruct (dec_loop _ _ _ _ _ _ _) as [[ret number] im]. cbn [fst] in R. subst ret.
    split; [intros [? _]; discriminate|]. intros (m & N' & I & ->). specialize (F m N'). unfold in_ty in I. lia.
Qed.

Lemma parse_dec_spec t s v :
  std_ty t -> c_string s -> (length s <= 1000)%nat ->
  (parse_dec t s = (true, v)) <->
  ((exists n, numeral 10 s n /\ in_ty t n /\ v = n)
  \/ (exists ds n, s = 43 :: ds /\ numeral 10 ds n /\ in_ty t n /\ v = n)
  \/ (exists ds n, s = 45 :: ds /\ isgn t = true /\ numeral 10 ds n /\ in_ty t (- n) /\ v = - n)).
Proof.
  intros Ht Hs Hl.
  assert (NS : forall c r n, (c = 43 \/ c = 45) -> ~ numeral 10 (c :: r) n).
  { intros c r n Hc N. apply numeral_cons in N. destruct N as [D _]. unfold is_digit in D.
    destruct Hc as [-> | ->]; vm_compute in D; destruct D; congruence. }
  assert (POS : forall r fuel, c_string r -> (length r <= fuel)%nat ->
     (let maxmax := cast t (-1) in
      let '(mm, ml) := if isgn t then (uwrap (ibits t) maxmax / 2, Z.rem (uwrap (ibits t) maxmax / 2) 10)
                   else (maxmax, Z.rem maxmax 10) in
      let '(ret, number, isMin) := dec_loop t false (Z.quot mm 10) ml fuel r (0, false) in
      (ret, number)) = (true, v) <-> (exists n, numeral 10 r n /\ in_ty t n /\ v = n)).
  { intros r fuel Hr Hf. pose proof (parse_dec_pos_core t r fuel v Ht Hr Hf) as C. cbv zeta in *.
    destruct (if isgn t then _ else _) as [mm ml]. destruct (dec_loop _ _ _ _ _ _ _) as [[ret number] im].
    rewrite <- C. split; [intros E; injection E; auto|intros [-> ->]; reflexivity]. }
  unfold parse_dec. destruct s as [|c r].
  - specialize (POS [] 1000%nat Hs Hl). cbv zeta in *. 
    destruct (if isgn t then _ else _) as [mm ml]. rewrite POS.
    split; [auto|]. intros [H|[(ds & n & E & _)|(ds & n & E & _)]]; [exact H|discriminate|discriminate].
  - inversion Hs as [|? ? Hc Hr]; subst. cbn [length] in Hl.
    unfold ch_minus, ch_plus.
    destruct (c =? 45) eqn:E1.
    + assert (c = 45) by lia. subst c. cbv zeta.
      destruct (isgn t) eqn:Es.
      * pose proof (parse_dec_neg_core t r 999%nat v Ht Es Hr ltac:(lia)) as C. cbv zeta in C.
        destruct (dec_loop _ _ _ _ _ _ _) as [[ret number] im].
        split.
        -- intros E. right. right.
           assert (X : ret = true /\ (if im then cast t (cast t (- number) - 1) else cast t (- number)) = v)
             by (injection E; auto).
           apply C in X. destruct X as (n & X). exists r, n. tauto.
        -- intros [(n & N & _)|[(ds & n & E & _)|(ds & n & E & _ & X)]].
           ++ exfalso. refine (NS _ _ _ _ N); auto.
           ++ discriminate.
           ++ injection E as <-. assert (Y : exists n, numeral 10 r n /\ in_ty t (- n) /\ v = - n) by eauto.
              apply C in Y. destruct Y as [-> <-]. reflexivity.
      * destruct (dec_loop _ _ _ _ _ _ _) as [[ret number] im].
        split; [discriminate|].
        intros [(n & N & _)|[(ds & n & E & _)|(ds & n & E & X & _)]]; [exfalso; refine (NS _ _ _ _ N); auto|discriminate|congruence].
    + destruct (c =? 43) eqn:E2.
      * assert (c = 43) by lia. subst c.
        specialize (POS r 999%nat Hr ltac:(lia)). cbv zeta in *.
        destruct (if isgn t then _ else _) as [mm ml]. rewrite POS. split.
        -- intros (n & X). right. left. eauto.
        -- intros [(n & N & _)|[(ds & n & E & X)|(ds & n & E & _)]]; [exfalso; refine (NS _ _ _ _ N); auto| |discriminate].
           injection E as <-. eauto.
      * specialize (POS (c :: r) 1000%nat Hs ltac:(cbn; lia)). cbv zeta in *.
        destruct (if isgn t then _ else _) as [mm ml]. rewrite POS.
        split; [auto|]. intros [H|[(ds & n & E & _)|(ds & n & E & _)]]; [exact H| |]; injection E as -> _; lia.
Qed.

(** ** Hexadecimal, binary, octal *)

Lemma shift_add_cast t k v d : 0 < ibits t -> 0 <= k ->
  shift_add t k (cast t v) d = cast t (v * 2 ^ k + d).
Proof.
  intros H Hk. unfold shift_add. apply cast_eq_mod; [lia|].
  rewrite <- Zplus_mod_idemp_l, cast_mod by lia.
  rewrite <- Zmult_mod_idemp_l, cast_mod by lia.
  rewrite Zmult_mod_idemp_l, Zplus_mod_idemp_l. reflexivity.
Qed.

Lemma uwrap8_id z : 0 <= z < 256 -> uwrap 8 z = z.
Proof. intros; apply uwrap_id. change (2 ^ 8) with 256. lia. Qed.

Lemma std_le64 t : std_ty t -> ibits t <= 64.
Proof. unfold std_ty; lia. Qed.

Lemma pow2_loop_spec t k dig fuel s ts v :
  std_ty t -> 1 <= k <= 4 -> (forall c, 0 <= c < 256 -> dig c = digit_opt (2 ^ k) c) ->
  0 <= ts <= ibits t -> c_string s -> (length s <= fuel)%nat ->
  (exists n, numeral (2 ^ k) s n /\ ts + k * Z.of_nat (length s) <= ibits t /\
      pow2_loop t k dig fuel s ts (cast t v) = (true, cast t (v * (2 ^ k) ^ Z.of_nat (length s) + n)))
  \/ ((forall n, numeral (2 ^ k) s n -> ibits t < ts + k * Z.of_nat (length s)) /\
      fst (pow2_loop t k dig fuel s ts (cast t v)) = false).
Proof.
  intros Ht Hk Hd. pose proof (std_pos t Ht). pose proof (std_le64 t Ht).
  revert fuel ts v. induction s as [|c s IH]; intros fuel ts v Hts Hs Hf.
  - left. exists 0. split; [apply numeral_nil; reflexivity|]. cbn [length Z.of_nat]. rewrite Z.pow_0_r.
    split; [lia|]. replace (v * 1 + 0) with v by ring. destruct fuel; reflexivity.
  - destruct fuel as [|fuel]; [cbn in Hf; lia|]. cbn [length] in Hf.
    inversion Hs as [|? ? Hc Hs']; subst.
    cbn [pow2_loop]. rewrite Hd by lia. destruct (digit_opt (2 ^ k) c) as [d|] eqn:E.
    + apply digit_opt_some in E. destruct E as [Dg <-].
      rewrite uwrap8_id by lia.
      cbn [length]. rewrite !Nat2Z.inj_succ.
      destruct (ts + k >? ibits t) eqn:ET.
      * right. split; [|reflexivity]. intros n N. nia.
      * rewrite shift_add_cast by lia.
        destruct (IH fuel (ts + k) (v * 2 ^ k + digit_val c) ltac:(lia) Hs' ltac:(lia)) as [(n & N & B & R)|[F R]].
        -- left. exists (digit_val c * (2 ^ k) ^ Z.of_nat (length s) + n). split; [apply numeral_cons; eauto|].
           split; [lia|]. rewrite R. f_equal. f_equal. rewrite Z.pow_succ_r by lia. ring.
        -- right. split; [|exact R]. intros n N. apply numeral_cons in N. destruct N as (_ & m & N & ->).
           specialize (F m N). lia.
    + right. split; [|reflexivity]. apply digit_opt_none in E. intros n N. apply numeral_cons in N. tauto.
Qed.

Lemma parse_pow2_exact t k dig s v :
  std_ty t -> 1 <= k <= 4 -> ibits t mod k = 0 ->
  (forall c, 0 <= c < 256 -> dig c = digit_opt (2 ^ k) c) ->
  c_string s -> (length s <= 1000)%nat ->
  pow2_loop t k dig 1000 s 0 0 = (true, v) <->
  (exists n, numeral (2 ^ k) s n /\ n < 2 ^ ibits t /\ k * Z.of_nat (length s) < ibits t + k /\ v = cast t n).
Proof.
  intros Ht Hk Hdiv Hd Hs Hl. pose proof (std_pos t Ht) as Hp.
  assert (C0 : cast t 0 = 0).
  { apply cast_id; [lia|]. unfold in_ty, imin, imax. 
    pose proof (Z.pow_pos_nonneg 2 (ibits t - 1) ltac:(lia) ltac:(lia)).
    pose proof (Z.pow_pos_nonneg 2 (ibits t) ltac:(lia) ltac:(lia)). destruct (isgn t); lia. }
  pose proof (pow2_loop_spec t k dig 1000 s 0 0 Ht Hk Hd ltac:(lia) Hs Hl) as L.
  rewrite C0 in L. rewrite Z.mul_0_l in L.
  assert (DV : exists q, ibits t = k * q).
  { exists (ibits t / k). pose proof (Z.div_mod (ibits t) k ltac:(lia)). lia. }
  destruct DV as [q Hq].
  assert (BD : k * Z.of_nat (length s) < ibits t + k <-> k * Z.of_nat (length s) <= ibits t).
  { rewrite Hq. clear - Hk. set (l := Z.of_nat _). split; [|lia]. intros X.
    replace (k * q + k) with (k * (q + 1)) in X by ring.
    apply Zmult_lt_reg_l in X || (apply (Z.mul_lt_mono_pos_l k) in X); [|lia].
    apply Z.mul_le_mono_nonneg_l; lia. }
  assert (P1 : 1 <= 2 ^ k) by (pose proof (Z.pow_pos_nonneg 2 k); lia).
  destruct L as [(n & N & B & R)|[F R]].
  - rewrite R. cbn [Z.add]. split.
    + intros E. injection E as <-. exists n. split; [exact N|].
      pose proof (numeral_nonneg _ _ _ P1 N) as NN. rewrite <- Z.pow_mul_r in NN by lia.
      split; [|split; [apply BD; lia|reflexivity]].
      eapply Z.lt_le_trans; [apply NN|]. apply Z.pow_le_mono_r; lia.
    + intros (m & N' & _ & _ & ->). f_equal. f_equal. eapply numeral_fun; eauto.
  - split.
    + intros E. rewrite E in R. discriminate.
    + intros (m & N & _ & B & _). specialize (F m N). apply BD in B. lia.
Qed.

(** Octal *)
Definition oct_ok (t : ity) (first len : Z) : bool :=
  (3 * len <=? ibits t) || ((3 * len =? ibits t + 1) && (first <=? 3)) || ((3 * len =? ibits t + 2) && (first <=? 1)).

Lemma oct_loop_spec t fuel s first ts v :
  std_ty t -> 0 <= ts <= ibits t + 2 -> c_string s -> (length s <= fuel)%nat ->
  let tot := ts + 3 * Z.of_nat (length s) in
  let ok := (length s =? 0)%nat || (tot <=? ibits t) || ((tot =? ibits t + 1) && (first <=? 3)) || ((tot =? ibits t + 2) && (first <=? 1)) in
  (exists n, numeral 8 s n /\ ok = true /\
      oct_loop t fuel s first ts (cast t v) = (true, cast t (v * 8 ^ Z.of_nat (length s) + n)))
  \/ ((forall n, numeral 8 s n -> ok = false) /\
      fst (oct_loop t fuel s first ts (cast t v)) = false).
Proof.
  intros Ht. pose proof (std_pos t Ht). pose proof (std_le64 t Ht).
  revert fuel ts v. induction s as [|c s IH]; intros fuel ts v Hts Hs Hf tot ok.
  - left. exists 0. split; [apply numeral_nil; reflexivity|]. split; [reflexivity|].
    cbn [length Z.of_nat]. rewrite Z.pow_0_r.
    replace (v * 1 + 0) with v by ring. destruct fuel; reflexivity.
  - destruct fuel as [|fuel]; [cbn in Hf; lia|]. cbn [length] in Hf.
    inversion Hs as [|? ? Hc Hs']; subst.
    cbn [oct_loop]. rewrite oct_digit_spec by lia. destruct (digit_opt 8 c) as [d|] eqn:E.
    + apply digit_opt_some in E. destruct E as [Dg <-].
      rewrite uwrap8_id by lia. unfold ok, tot. cbn [length]. rewrite !Nat2Z.inj_succ.
      change (S (length s) =? 0)%nat with false. cbn [orb].
      set (bad := (ts + 3 >? ibits t) && _).
      destruct bad eqn:EB; unfold bad in EB.
      * right. split; [|reflexivity]. intros n _. clear - EB Hts H. lia.
      * rewrite shift_add_cast by lia. change (2 ^ 3) with 8.
        destruct (IH fuel (ts + 3) (v * 8 + digit_val c) ltac:(lia) Hs' ltac:(lia)) as [(n & N & B & R)|[F R]].
        -- left. exists (digit_val c * 8 ^ Z.of_nat (length s) + n). split; [apply numeral_cons; eauto|].
           split; [|rewrite R; f_equal; f_equal; rewrite Z.pow_succ_r by lia; ring].
           destruct s as [|c' s']; cbn [length] in *; [clear - EB; lia|].
           change (S (length s') =? 0)%nat with false in B. cbn [orb] in B.
           rewrite !Nat2Z.inj_succ in *. clear - B EB. lia.
        -- right. split; [|exact R]. intros n N. apply numeral_cons in N. destruct N as (_ & m & N & ->).
           specialize (F m N). apply orb_false_elim in F. destruct F as [F1 F2].
           apply orb_false_elim in F1. destruct F1 as [F1 F3].
           apply orb_false_elim in F1. destruct F1 as [_ F1]. clear - F1 F2 F3. lia.
    + right. split; [|reflexivity]. apply digit_opt_none in E. intros n N. apply numeral_cons in N. tauto.
Qed.

Lemma new_digit_of_digit c : 0 <= c < 256 -> is_digit 8 c -> new_digit c = digit_val c.
Proof.
  intros Hc D. pose proof (oct_digit_spec c Hc) as E. unfold digit_opt in E. unfold is_digit in D.
  replace ((0 <=? digit_val c) && (digit_val c <? 8)) with true in E by lia.
  unfold small_digit in E. destruct ((new_digit c <? 0) || (new_digit c >? 7)); [discriminate|].
  injection E as ->. reflexivity.
Qed.

Lemma parse_oct_exact t s v :
  std_ty t -> c_string s -> (length s <= 1000)%nat ->
  parse_oct t s = (true, v) <->
  (exists n, numeral (2 ^ 3) s n /\ n < 2 ^ ibits t /\ 3 * Z.of_nat (length s) < ibits t + 3 /\ v = cast t n).
Proof.
  intros Ht Hs Hl. pose proof (std_pos t Ht) as Hp. change (2 ^ 3) with 8.
  assert (C0 : cast t 0 = 0).
  { apply cast_id; [lia|]. unfold in_ty, imin, imax. 
    pose proof (Z.pow_pos_nonneg 2 (ibits t - 1) ltac:(lia) ltac:(lia)).
    pose proof (Z.pow_pos_nonneg 2 (ibits t) ltac:(lia) ltac:(lia)). destruct (isgn t); lia. }
  unfold parse_oct. set (first := match s with c :: _ => new_digit c | [] => new_digit 0 end).
  pose proof (oct_loop_spec t 1000 s first 0 0 Ht ltac:(lia) Hs Hl) as L. cbv zeta in L.
  rewrite C0, Z.mul_0_l, !Z.add_0_l in L.
  assert (BD : forall n, numeral 8 s n ->
     ((length s =? 0)%nat || (3 * Z.of_nat (length s) <=? ibits t)
      || (3 * Z.of_nat (length s) =? ibits t + 1) && (first <=? 3)
      || (3 * Z.of_nat (length s) =? ibits t + 2) && (first <=? 1)) = true
     <-> (n < 2 ^ ibits t /\ 3 * Z.of_nat (length s) < ibits t + 3)).
  { intros n N. destruct s as [|c r].
    - apply numeral_nil in N. subst n. cbn [length]. 
      pose proof (Z.pow_pos_nonneg 2 (ibits t) ltac:(lia) ltac:(lia)). split; [cbn; lia|reflexivity].
    - cbn [length] in *. change (S (length r) =? 0)%nat with false. cbn [orb].
      apply numeral_cons in N. destruct N as (D & m & N & ->).
      inversion Hs as [|? ? Hc Hr]; subst. unfold first. rewrite (new_digit_of_digit c ltac:(lia) D).
      apply numeral_nonneg in N; [|lia]. change 8 with (2 ^ 3) in N at 1. change 8 with (2 ^ 3) at 1.
      rewrite <- Z.pow_mul_r in * by lia. unfold is_digit in D. rewrite !Nat2Z.inj_succ.
      set (L1 := Z.of_nat (length r)) in *. set (d := digit_val c) in *.
      destruct (Z.le_gt_cases (3 * Z.succ L1) (ibits t)) as [G|G].
      + replace (3 * Z.succ L1 <=? ibits t) with true by lia. cbn [orb]. split; [|reflexivity]. intros _.
        split; [|lia]. assert (2 ^ (3 * Z.succ L1) <= 2 ^ ibits t) by (apply Z.pow_le_mono_r; lia).
        replace (3 * Z.succ L1) with (3 + 3 * L1) in * by lia. rewrite Z.pow_add_r in * by lia.
        change (2 ^ 3) with 8 in *. nia.
      + replace (3 * Z.succ L1 <=? ibits t) with false by lia. cbn [orb].
        destruct (Z.eq_dec (3 * Z.succ L1) (ibits t + 1)) as [G1|G1].
        * replace (3 * Z.succ L1 =? ibits t + 1) with true by lia.
          replace (3 * Z.succ L1 =? ibits t + 2) with false by lia. cbn [andb orb]. rewrite orb_false_r.
          replace (ibits t) with (2 + 3 * L1) at 1 by lia. rewrite Z.pow_add_r by lia. change (2 ^ 2) with 4.
          split; [intros; split; [nia|lia]|]. intros [X _]. nia.
        * replace (3 * Z.succ L1 =? ibits t + 1) with false by lia. cbn [andb orb].
          destruct (Z.eq_dec (3 * Z.succ L1) (ibits t + 2)) as [G2|G2].
          -- replace (3 * Z.succ L1 =? ibits t + 2) with true by lia. cbn [andb].
             replace (ibits t) with (1 + 3 * L1) at 1 by lia. rewrite Z.pow_add_r by lia. change (2 ^ 1) with 2.
             split; [intros; split; [nia|lia]|]. intros [X _]. nia.
          -- replace (3 * Z.succ L1 =? ibits t + 2) with false by lia. cbn [andb]. split; [discriminate|lia]. }
  destruct L as [(n & N & B & R)|[F R]].
  - rewrite R. split.
    + intros E. injection E as <-. exists n. apply (BD n N) in B. tauto.
    + intros (m & N' & _ & _ & ->). f_equal. f_equal. eapply numeral_fun; eauto.
  - split.
    + intros E. rewrite E in R. discriminate.
    + intros (m & N & B1 & B2 & _). specialize (F m N). apply (conj B1) in B2. apply (BD m N) in B2. congruence.
Qed.

(** ** Dispatcher *)
Lemma string_to_integer_exact t s v :
  std_ty t -> c_string s -> (length s <= 1000)%nat ->
  string_to_integer t s = (true, v) <-> int_literal t s v.
Proof.
  intros Ht Hs Hl. unfold string_to_integer, ch_0, ch_x, ch_o, ch_b, int_literal.
  assert (HEX : forall r, c_string r -> (length r <= 1000)%nat -> parse_hex t r = (true, v) <->
      (exists n, numeral (2 ^ 4) r n /\ n < 2 ^ ibits t /\ 4 * Z.of_nat (length r) < ibits t + 4 /\ v = cast t n)).
  { intros r Hr Hlr. unfold parse_hex. apply parse_pow2_exact; auto; [lia|unfold std_ty in Ht; destruct Ht as [->|[->|[->| ->]]]; reflexivity|apply hex_digit_spec]. }
  assert (BIN : forall r, c_string r -> (length r <= 1000)%nat -> parse_bin t r = (true, v) <->
      (exists n, numeral (2 ^ 1) r n /\ n < 2 ^ ibits t /\ 1 * Z.of_nat (length r) < ibits t + 1 /\ v = cast t n)).
  { intros r Hr Hlr. unfold parse_bin. apply parse_pow2_exact; auto; [lia|apply Z.mod_1_r|apply bin_digit_spec]. }
  destruct s as [|c0 r].
  - rewrite parse_dec_spec by auto. split.
    + intros [(n & X)|[(ds & n & E & _)|(ds & n & E & _)]]; [|discriminate|discriminate].
      right. left. exists n. split; [cbn; lia|exact X].
    + intros [[E _]|[(n & _ & X)|[(ds & n & E & _)|[(ds & n & E & _)|(l & k & ds & n & _ & E & _)]]]]; try discriminate.
      left. eauto.
  - inversion Hs as [|? ? Hc Hr]; subst. cbn [length hd] in *.
    destruct (c0 =? 48) eqn:E0.
    + assert (c0 = 48) by lia. subst c0. destruct r as [|c1 r'].
      * split.
        -- intros E. injection E as <-. left. auto.
        -- intros [[_ ->]|[(n & X & _)|[(ds & n & E & _)|[(ds & n & E & _)|(l & k & ds & n & _ & E & _)]]]]; try congruence.
      * inversion Hr as [|? ? Hc1 Hr']; subst. cbn [length] in *.
        assert (G : (exists letter k ds n, In (letter, k) [(120, 4); (111, 3); (98, 1)] /\
              48 :: c1 :: r' = 48 :: letter :: ds /\ numeral (2 ^ k) ds n /\ n < 2 ^ ibits t /\
              k * Z.of_nat (length ds) < ibits t + k /\ v = cast t n)
            <-> (48 :: c1 :: r' = [48] /\ v = 0)
              \/ (exists n, 48 <> 48 /\ numeral 10 (48 :: c1 :: r') n /\ in_ty t n /\ v = n)
              \/ (exists ds n, 48 :: c1 :: r' = 43 :: ds /\ numeral 10 ds n /\ in_ty t n /\ v = n)
              \/ (exists ds n, 48 :: c1 :: r' = 45 :: ds /\ isgn t = true /\ numeral 10 ds n /\ in_ty t (- n) /\ v = - n)
              \/ (exists letter k ds n, In (letter, k) [(120, 4); (111, 3); (98, 1)] /\
                 48 :: c1 :: r' = 48 :: letter :: ds /\ numeral (2 ^ k) ds n /\ n < 2 ^ ibits t /\
                 k * Z.of_nat (length ds) < ibits t + k /\ v = cast t n)).
        { split; [tauto|]. intros [[E _]|[(n & X & _)|[(ds & n & E & _)|[(ds & n & E & _)|X]]]]; try (exfalso; congruence). exact X. }
        rewrite <- G. clear G.
        destruct (c1 =? 120) eqn:E1; [|destruct (c1 =? 111) eqn:E2; [|destruct (c1 =? 98) eqn:E3]].
        -- assert (c1 = 120) by lia. subst c1. rewrite HEX by (auto; lia). split.
           ++ intros (n & X). exists 120, 4, r', n. split; [cbn; auto|]. tauto.
           ++ intros (l & k & ds & n & I & E & X). injection E as <- <-.
              cbn in I. destruct I as [I|[I|[I|[]]]]; inversion I; subst; eauto.
        -- assert (c1 = 111) by lia. subst c1. rewrite parse_oct_exact by (auto; lia). split.
           ++ intros (n & X). exists 111, 3, r', n. split; [cbn; auto|]. tauto.
           ++ intros (l & k & ds & n & I & E & X). injection E as <- <-.
              cbn in I. destruct I as [I|[I|[I|[]]]]; inversion I; subst; eauto.
        -- assert (c1 = 98) by lia. subst c1. rewrite BIN by (auto; lia). split.
           ++ intros (n & X). exists 98, 1, r', n. split; [cbn; auto|]. tauto.
           ++ intros (l & k & ds & n & I & E & X). injection E as <- <-.
              cbn in I. destruct I as [I|[I|[I|[]]]]; inversion I; subst; eauto.
        -- split; [discriminate|]. intros (l & k & ds & n & I & E & X). injection E as <- <-.
           cbn in I. destruct I as [I|[I|[I|[]]]]; inversion I; lia.
    + rewrite parse_dec_spec by auto. split.
      * intros [(n & X)|[X|X]].
        -- right. left. exists n. split; [lia|exact X].
        -- right. right. left. exact X.
        -- right. right. right. left. exact X.
      * intros [[E _]|[(n & _ & X)|[X|[X|(l & k & ds & n & _ & E & _)]]]].
        -- injection E as -> _. lia.
        -- left. eauto.
        -- auto.
        -- auto.
        -- injection E as -> _. lia.
Qed.
