(** Md5_Model computes MD5: the buffering of the message, the padding, and the keyed variant. *)
From Verif Require Import Base BitsBase Md5_Model Md5_Spec Md5_Proofs.

Section Width.
Variable w : Z.
Hypothesis Hw : 32 <= w.

Local Opaque process compress compress_all.
Definition init4 : state4 := (1732584193, 4023233417, 2562383102, 271733878).
Definition len64 (b : list Z) : Prop := length b = 64%nat.
Definition zlen (l : list Z) : Z := Z.of_nat (length l).
Definition inv (c : ctx) (m : list Z) : Prop :=
  exists bs r, m = concat bs ++ r /\ Forall len64 bs /\ (length r < 64)%nat /\
    low (state c) = fold_left compress bs init4 /\ firstn (length r) (buffer c) = r /\ length (buffer c) = 64%nat /\
    tot0 c = zlen m mod 2 ^ 32 /\ m32 (tot1 c) = m32 (zlen m / 2 ^ 32) /\ bytes m.

Lemma concat_length bs : Forall len64 bs -> length (concat bs) = (64 * length bs)%nat.
Proof. induction 1 as [|b bs L _ IH]; [reflexivity|]. cbn [concat length]. rewrite app_length, IH, L. lia. Qed.
Lemma bytes_app a b : bytes (a ++ b) <-> bytes a /\ bytes b. Proof. apply Forall_app. Qed.
Lemma zlen_app a b : zlen (a ++ b) = zlen a + zlen b. Proof. unfold zlen. rewrite app_length. lia. Qed.

Lemma blocks_eq fuel st input : blocks w fuel st input =
  if (64 <=? length input)%nat then match fuel with O => None | S f => blocks w f (process w st (firstn 64 input)) (skipn 64 input) end
  else Some (st, input).
Proof. destruct fuel; reflexivity. Qed.
Lemma fold_cons b bs s : fold_left compress (b :: bs) s = fold_left compress bs (compress s b). Proof. reflexivity. Qed.
Lemma blocks_ok fuel : forall st input, (length input <= fuel)%nat -> bytes input ->
  exists bs r st', blocks w fuel st input = Some (st', r) /\ input = concat bs ++ r /\ Forall len64 bs /\ (length r < 64)%nat /\
    low st' = fold_left compress bs (low st).
Proof.
  induction fuel as [|f IH]; intros st input L B; rewrite blocks_eq.
  - exists [], input, st. replace (64 <=? length input)%nat with false by (symmetry; apply Nat.leb_gt; lia).
    repeat split; auto; lia.
  - destruct (64 <=? length input)%nat eqn:E.
    + apply Nat.leb_le in E. pose proof (firstn_skipn 64 input) as FS. pose proof (firstn_length_le input E) as FL.
      assert (SL : (length (skipn 64 input) <= f)%nat) by (rewrite skipn_length; lia).
      pose proof (process_low w Hw st _ (bytes_firstn 64 _ B)) as PL.
      generalize dependent (process w st (firstn 64 input)). intros st1 PL.
      destruct (IH st1 _ SL (bytes_skipn 64 _ B)) as (bs & r & st' & R & I & LB & LR & LO).
      rewrite R. generalize dependent (skipn 64 input). generalize dependent (firstn 64 input). intros b FL PL rest FS SL R I.
      exists (b :: bs), r, st'. rewrite fold_cons, LO, PL.
      split; [reflexivity|]. split; [rewrite <- FS, I; cbn [concat]; rewrite app_assoc; reflexivity|]. split; [constructor; assumption|]. auto.
    + apply Nat.leb_gt in E. exists [], input, st. repeat split; auto.
Qed.

Lemma copy_ok buf at_ d : length buf = 64%nat -> (at_ + length d <= 64)%nat ->
  exists b, copy_buf buf at_ d = Some b /\ length b = 64%nat /\ firstn (at_ + length d) b = firstn at_ buf ++ d.
Proof.
  intros L B. unfold copy_buf. replace (at_ + length d <=? 64)%nat with true by (symmetry; apply Nat.leb_le; lia).
  eexists. split; [reflexivity|]. assert (FL : length (firstn at_ buf) = at_) by (apply firstn_length_le; lia).
  split; [rewrite !app_length, skipn_length; lia|].
  rewrite app_assoc. rewrite firstn_app. replace (at_ + length d - length (firstn at_ buf ++ d))%nat with 0%nat by (rewrite app_length; lia).
  cbn [firstn]. rewrite app_nil_r. apply firstn_all2. rewrite app_length. lia.
Qed.

Lemma land63 z : Z.land z 63 = z mod 64. Proof. change 63 with (Z.ones 6). rewrite Z.land_ones by lia. reflexivity. Qed.
Lemma left_ok m bs r : m = concat bs ++ r -> Forall len64 bs -> (length r < 64)%nat -> (zlen m mod 2 ^ 32) mod 64 = Z.of_nat (length r).
Proof.
  intros -> L R. unfold zlen. rewrite app_length, (concat_length _ L).
  rewrite <- Znumtheory.Zmod_div_mod; [|lia|lia|exists (2 ^ 26); reflexivity].
  symmetry. apply Z.mod_unique with (Z.of_nat (length bs)); lia.
Qed.
Lemma totals_ok n ilen t1 : 0 <= n -> 0 < ilen < 2 ^ 32 -> m32 t1 = m32 (n / 2 ^ 32) ->
  let t0' := Z.land (ul w (n mod 2 ^ 32 + ilen)) 4294967295 in
  t0' = (n + ilen) mod 2 ^ 32 /\ m32 (if t0' <? ilen then ul w (t1 + 1) else t1) = m32 ((n + ilen) / 2 ^ 32).
Proof.
  intros N L T t0'.
  assert (E : t0' = (n + ilen) mod 2 ^ 32).
  { subst t0'. change 4294967295 with (Z.ones 32). rewrite Z.land_ones by lia. fold (m32 (ul w (n mod 2 ^ 32 + ilen))). rewrite m32_ul by exact Hw.
    apply Zplus_mod_idemp_l. }
  split; [exact E|]. rewrite E. clearbody t0'. clear E t0'.
  pose proof (Z.div_mod n (2 ^ 32) ltac:(lia)) as D. pose proof (Z.mod_pos_bound n (2 ^ 32) ltac:(lia)) as B.
  set (q := n / 2 ^ 32) in *. set (t := n mod 2 ^ 32) in *.
  destruct (Z_lt_le_dec (t + ilen) (2 ^ 32)) as [C|C].
  - replace ((n + ilen) mod 2 ^ 32) with (t + ilen) by (apply Z.mod_unique with q; lia).
    replace ((n + ilen) / 2 ^ 32) with q by (apply Z.div_unique with (t + ilen); lia).
    replace (t + ilen <? ilen) with false by lia. exact T.
  - replace ((n + ilen) mod 2 ^ 32) with (t + ilen - 2 ^ 32) by (apply Z.mod_unique with (q + 1); lia).
    replace ((n + ilen) / 2 ^ 32) with (q + 1) by (apply Z.div_unique with (t + ilen - 2 ^ 32); lia).
    replace (t + ilen - 2 ^ 32 <? ilen) with true by lia. rewrite m32_ul by exact Hw.
    rewrite <- (m32_add_l t1), T, m32_add_l. reflexivity.
Qed.

Lemma update_ok c m input : inv c m -> bytes input -> zlen input < 2 ^ 32 ->
  exists c', update w c input = Some c' /\ inv c' (m ++ input) /\ ipad c' = ipad c /\ opad c' = opad c.
Proof.
  intros (bs & r & M & LB & LR & LO & FB & BL & T0 & T1 & BM) BI LI.
  unfold update. fold (zlen input). destruct (0 <? zlen input) eqn:Z0.
  2:{ assert (input = []) by (destruct input; [reflexivity|unfold zlen in Z0; cbn in Z0; lia]). subst input.
      exists c. split; [reflexivity|]. split; [|auto]. rewrite app_nil_r. exists bs, r. repeat split; auto. }
  rewrite land63, T0, (left_ok m bs r M LB LR).
  pose proof (totals_ok (zlen m) (zlen input) (tot1 c) ltac:(unfold zlen; lia) ltac:(lia) T1) as TT. cbn zeta in TT. destruct TT as [TA TB].
  rewrite TA in TB |- *. rewrite <- zlen_app in TA, TB |- *.
  assert (BMI : bytes (m ++ input)) by (apply bytes_app; split; assumption).
  set (t1 := if zlen (m ++ input) mod 2 ^ 32 <? zlen input then ul w (tot1 c + 1) else tot1 c) in *. clearbody t1.
  destruct (negb (Z.of_nat (length r) =? 0) && (64 - Z.of_nat (length r) <=? zlen input)) eqn:C.
  - apply andb_prop in C. destruct C as [C1 C2]. apply negb_true_iff in C1. apply Z.eqb_neq in C1. apply Z.leb_le in C2.
    unfold zlen in C2. rewrite Nat2Z.id.
    set (n := Z.to_nat (64 - Z.of_nat (length r))). assert (Hn : (n + length r = 64)%nat) by lia.
    assert (FL : length (firstn n input) = n) by (apply firstn_length_le; lia).
    destruct (copy_ok (buffer c) (length r) (firstn n input) BL ltac:(lia)) as (b & CB & Lb & Fb). rewrite CB.
    replace (length r + length (firstn n input))%nat with 64%nat in Fb by lia.
    rewrite firstn_all2 in Fb by lia. rewrite FB in Fb.
    assert (Bb : bytes b). { subst b. apply bytes_app. split; [|apply bytes_firstn, BI]. subst m. apply bytes_app in BM. apply BM. }
    destruct (blocks_ok (length (skipn n input)) (process w (state c) b) (skipn n input) (le_n _) (bytes_skipn _ _ BI)) as (bs2 & r2 & st' & RB & IB & LB2 & LR2 & LO2).
    rewrite RB. rewrite process_low, LO in LO2 by assumption.
    assert (DEC : m ++ input = concat (bs ++ b :: bs2) ++ r2).
    { rewrite concat_app. cbn [concat]. rewrite M, Fb, <- !app_assoc. f_equal. f_equal. rewrite <- IB. symmetry. apply firstn_skipn. }
    assert (LL : Forall len64 (bs ++ b :: bs2)) by (apply Forall_app; split; [assumption|constructor; assumption]).
    assert (HH : fold_left compress (bs ++ b :: bs2) init4 = low st') by (rewrite fold_left_app; cbn [fold_left]; symmetry; exact LO2).
    destruct (0 <? length r2)%nat eqn:ER.
    + destruct (copy_ok b 0 r2 Lb ltac:(lia)) as (b2 & CB2 & Lb2 & Fb2). change (Z.to_nat 0) with 0%nat. rewrite CB2.
      eexists. split; [reflexivity|]. split; [|auto]. exists (bs ++ b :: bs2), r2. cbn [state buffer tot0 tot1].
      repeat split; auto.
    + apply Nat.ltb_ge in ER. assert (r2 = []) by (destruct r2; [reflexivity|cbn in ER; lia]). subst r2.
      eexists. split; [reflexivity|]. split; [|auto]. exists (bs ++ b :: bs2), []. cbn [state buffer tot0 tot1 firstn length].
      repeat split; auto.
  - destruct (blocks_ok (length input) (state c) input (le_n _) BI) as (bs2 & r2 & st' & RB & IB & LB2 & LR2 & LO2).
    rewrite RB. rewrite Nat2Z.id. rewrite LO in LO2.
    assert (CASE : r = [] \/ bs2 = [] /\ (length r + length input < 64)%nat).
    { destruct r as [|x r]; [left; reflexivity|right]. apply andb_false_iff in C. destruct C as [C|C].
      - apply negb_false_iff, Z.eqb_eq in C. cbn in C. lia.
      - apply Z.leb_gt in C. unfold zlen in C. split; [|lia].
        destruct bs2 as [|x2 bs2]; [reflexivity|]. exfalso. apply (f_equal (@length Z)) in IB. rewrite app_length, (concat_length _ LB2) in IB. cbn [length] in *. lia. }
    assert (NR : exists b2, (if (0 <? length r2)%nat then copy_buf (buffer c) (length r) r2 else Some (buffer c)) = Some b2 /\ length b2 = 64%nat /\ firstn (length (r ++ r2)) b2 = r ++ r2).
    { destruct (0 <? length r2)%nat eqn:ER.
      - destruct (copy_ok (buffer c) (length r) r2 BL) as (b2 & CB2 & Lb2 & Fb2).
        { destruct CASE as [->|[-> H]]; [cbn; lia|]. rewrite IB in H. cbn in H. lia. }
        exists b2. rewrite app_length, Fb2, FB. auto.
      - apply Nat.ltb_ge in ER. assert (r2 = []) by (destruct r2; [reflexivity|cbn in ER; lia]). subst r2. rewrite app_nil_r. exists (buffer c). auto. }
    destruct NR as (b2 & NB & Lb2 & Fb2). rewrite NB.
    eexists. split; [reflexivity|]. split; [|auto]. exists (bs ++ bs2), (r ++ r2). cbn [state buffer tot0 tot1].
    repeat split; auto.
    + rewrite concat_app, M, IB. destruct CASE as [->|[-> _]]; cbn [concat app]; rewrite ?app_nil_r, <- ?app_assoc; reflexivity.
    + apply Forall_app; auto.
    + rewrite app_length. destruct CASE as [->|[-> H]]; [cbn; lia|]. rewrite IB in H. cbn in H. lia.
    + rewrite fold_left_app. exact LO2.
Qed.

Lemma starts_inv c : length (buffer c) = 64%nat -> inv (starts c) [].
Proof.
  intros L. exists [], []. cbn [starts state buffer tot0 tot1]. repeat split; auto; try constructor. cbn. lia.
Qed.

(** ** The padding and the result *)
Lemma put32_low z : put32 z = le_bytes 4 (m32 z).
Proof.
  unfold put32, uwrap, m32. rewrite !Z.shiftr_div_pow2 by lia. cbn [le_bytes]. change (2 ^ 8) with 256.
  assert (Q : forall z k, 0 <= k <= 24 -> (z / 2 ^ k) mod 256 = (z mod 2 ^ 32 / 2 ^ k) mod 256).
  { clear. intros z k K. change 256 with (2 ^ 8). apply Z.bits_inj'. intros i Hi.
    destruct (i <? 8) eqn:E.
    - rewrite !Z.mod_pow2_bits_low, !Z.div_pow2_bits, Z.mod_pow2_bits_low by lia. reflexivity.
    - rewrite !Z.mod_pow2_bits_high by lia. reflexivity. }
  rewrite !Z.div_div by lia. f_equal; [|f_equal; [|f_equal; [|f_equal]]].
  - specialize (Q z 0 ltac:(lia)). rewrite !Z.div_1_r in Q. exact Q.
  - apply (Q z 8). lia.
  - apply (Q z 16). lia.
  - apply (Q z 24). lia.
Qed.
Lemma le_bytes_bytes n : forall z, bytes (le_bytes n z).
Proof. induction n as [|n IH]; intros z; constructor; [apply Z.mod_pos_bound; lia|apply IH]. Qed.
Lemma le_bytes_length n : forall z, length (le_bytes n z) = n.
Proof. induction n as [|n IH]; intros z; cbn; auto. Qed.
Lemma le_bytes_mod n : forall z, le_bytes n (z mod 256 ^ Z.of_nat n) = le_bytes n z.
Proof.
  induction n as [|n IH]; intros z; [reflexivity|]. cbn [le_bytes].
  rewrite Nat2Z.inj_succ, Z.pow_succ_r by lia. assert (P : 0 < 256 ^ Z.of_nat n) by (apply Z.pow_pos_nonneg; lia).
  rewrite Z.rem_mul_r by lia. f_equal.
  - rewrite (Z.mul_comm 256), Z_mod_plus_full. apply Zmod_mod.
  - rewrite Z.add_comm, (Z.mul_comm 256), Z.div_add_l by lia. rewrite (Z.div_small (z mod 256)) by (apply Z.mod_pos_bound; lia).
    rewrite Z.add_0_r. apply IH.
Qed.
Lemma le_bytes_app n k : forall z, le_bytes (n + k) z = le_bytes n z ++ le_bytes k (z / 256 ^ Z.of_nat n).
Proof.
  induction n as [|n IH]; intros z; [cbn; rewrite Z.div_1_r; reflexivity|].
  cbn [plus le_bytes app]. f_equal. rewrite IH. rewrite Nat2Z.inj_succ, Z.pow_succ_r by lia.
  rewrite Z.div_div by (try apply Z.pow_pos_nonneg; lia). reflexivity.
Qed.
Lemma length_bytes n t1 : 0 <= n -> m32 t1 = m32 (n / 2 ^ 32) ->
  put32 (ul w (Z.shiftl (n mod 2 ^ 32) 3)) ++ put32 (Z.lor (Z.shiftr (n mod 2 ^ 32) 29) (ul w (Z.shiftl t1 3))) = le_bytes 8 (8 * n).
Proof.
  intros N T. rewrite !put32_low, m32_ul by exact Hw. change 8%nat with (4 + 4)%nat. rewrite le_bytes_app.
  change (256 ^ Z.of_nat 4) with (2 ^ 32). f_equal.
  - rewrite Z.shiftl_mul_pow2 by lia. rewrite <- (le_bytes_mod 4 (8 * n)). change (256 ^ Z.of_nat 4) with (2 ^ 32). f_equal.
    unfold m32. rewrite Zmult_mod_idemp_l. f_equal. lia.
  - rewrite <- (le_bytes_mod 4 (_ / _)). change (256 ^ Z.of_nat 4) with (2 ^ 32). f_equal.
    rewrite m32_lor, m32_ul by exact Hw. rewrite Z.shiftl_mul_pow2, Z.shiftr_div_pow2 by lia.
    pose proof (Z.div_mod n (2 ^ 32) ltac:(lia)) as D. pose proof (Z.mod_pos_bound n (2 ^ 32) ltac:(lia)) as B.
    set (q := n / 2 ^ 32) in *. set (t := n mod 2 ^ 32) in *.
    assert (B2 : 0 <= t / 2 ^ 29 < 8) by (split; [apply Z.div_pos; lia|apply Z.div_lt_upper_bound; lia]).
    replace (8 * n / 2 ^ 32) with (q * 8 + t / 2 ^ 29).
    2:{ replace (8 * n) with ((q * 8) * 2 ^ 32 + t * 8) by lia. rewrite Z.div_add_l by lia. f_equal.
        change (2 ^ 32) with (2 ^ 29 * 8). rewrite Z.div_mul_cancel_r by lia. reflexivity. }
    replace (m32 (t1 * 2 ^ 3)) with (m32 (q * 8)) by (unfold m32 in *; rewrite <- (Zmult_mod_idemp_l t1), T, Zmult_mod_idemp_l; reflexivity).
    replace (m32 (t / 2 ^ 29)) with (t / 2 ^ 29) by (symmetry; apply Z.mod_small; lia).
    replace (m32 (q * 8)) with ((q mod 2 ^ 29) * 2 ^ 3) by (unfold m32; change (2 ^ 32) with (2 ^ 29 * 8); rewrite Z.mul_mod_distr_r by lia; reflexivity).
    rewrite Z.lor_comm, lor_add_disjoint by lia.
    pose proof (Z.div_mod q (2 ^ 29) ltac:(lia)) as D2. pose proof (Z.mod_pos_bound q (2 ^ 29) ltac:(lia)) as B3.
    apply Z.mod_unique with (q / 2 ^ 29); lia.
Qed.
Lemma compress_all_ok bs : forall fuel s, Forall len64 bs -> (length (concat bs) <= fuel)%nat -> compress_all fuel s (concat bs) = fold_left compress bs s.
Proof.
  induction bs as [|b bs IH]; intros fuel s L F; [destruct fuel; reflexivity|].
  inversion L as [|? ? Lb LR]; subst. unfold len64 in Lb. cbn [concat] in F |- *. rewrite app_length in F.
  destruct fuel as [|f]; [lia|]. cbn [compress_all fold_left].
  destruct (b ++ concat bs) eqn:E; [destruct b; [discriminate|discriminate E]|]. rewrite <- E.
  replace (firstn 64 (b ++ concat bs)) with b by (rewrite <- Lb, firstn_app, Nat.sub_diag, firstn_all, firstn_O, app_nil_r; reflexivity).
  replace (skipn 64 (b ++ concat bs)) with (concat bs) by (rewrite <- Lb, skipn_app, Nat.sub_diag, skipn_all; reflexivity).
  apply IH; [exact LR|lia].
Qed.
Lemma pad_length m : exists k, length (pad m) = (64 * k)%nat.
Proof.
  unfold pad. rewrite !app_length, repeat_length, le_bytes_length. unfold zeros. cbn [length].
  pose proof (Z.mod_pos_bound (55 - Z.of_nat (length m)) 64 ltac:(lia)) as B. pose proof (Z.div_mod (55 - Z.of_nat (length m)) 64 ltac:(lia)) as D.
  exists (Z.to_nat (- ((55 - Z.of_nat (length m)) / 64) + 1)). lia.
Qed.

Lemma finish_ok c m : inv c m -> exists c', finish w c = Some (MD5 m, c') /\ length (buffer c') = 64%nat /\ ipad c' = ipad c /\ opad c' = opad c.
Proof.
  intros I. pose proof I as (bs & r & M & LB & LR & LO & FB & BL & T0 & T1 & BM).
  unfold finish. rewrite land63. rewrite T0, (left_ok m bs r M LB LR).
  rewrite (length_bytes (zlen m) (tot1 c)) by (unfold zlen in *; auto; lia).
  set (padn := if Z.of_nat (length r) <? 56 then 56 - Z.of_nat (length r) else 120 - Z.of_nat (length r)).
  assert (PN : Z.to_nat (uwrap 32 padn) = S (zeros (zlen m)) /\ (zeros (zlen m) <= 63)%nat).
  { assert (E : (55 - zlen m) mod 64 = padn - 1 /\ 1 <= padn <= 64).
    { split; [|subst padn; destruct (_ <? 56) eqn:E; lia]. unfold zlen. rewrite M, app_length, (concat_length _ LB). symmetry.
      subst padn. destruct (Z.of_nat (length r) <? 56) eqn:E.
      - apply Z.mod_unique with (- Z.of_nat (length bs)); lia.
      - apply Z.mod_unique with (- Z.of_nat (length bs) - 1); lia. }
    destruct E as [E E2]. unfold zeros. rewrite E, uwrap_id by lia. lia. }
  destruct PN as [PN PZ]. rewrite PN.
  assert (PD : firstn (S (zeros (zlen m))) padding = 128 :: repeat 0 (zeros (zlen m))).
  { unfold padding. cbn [firstn]. f_equal. clear - PZ. revert PZ. generalize 63%nat. induction (zeros (zlen m)) as [|z IH]; intros n L; [reflexivity|].
    destruct n as [|n]; [lia|]. cbn [repeat firstn]. f_equal. apply IH. lia. }
  rewrite PD. clear PD.
  destruct (update_ok c m (128 :: repeat 0 (zeros (zlen m))) I) as (c1 & U1 & I1 & P1 & Q1).
  { constructor; [split; lia|]. apply Forall_forall. intros x Hx. apply repeat_spec in Hx. subst x. split; lia. }
  { unfold zlen at 1. cbn [length]. rewrite repeat_length. lia. }
  rewrite U1. destruct (update_ok c1 _ (le_bytes 8 (8 * zlen m)) I1 (le_bytes_bytes _ _)) as (c2 & U2 & I2 & P2 & Q2).
  { unfold zlen at 1. rewrite le_bytes_length. lia. }
  rewrite U2. exists c2.
  replace ((m ++ 128 :: repeat 0 (zeros (zlen m))) ++ le_bytes 8 (8 * zlen m)) with (pad m) in I2 by (unfold pad, zlen; rewrite <- app_assoc; reflexivity).
  destruct I2 as (bs2 & r2 & M2 & LB2 & LR2 & LO2 & FB2 & BL2 & _).
  assert (r2 = []).
  { destruct (pad_length m) as [k K]. rewrite M2, app_length, (concat_length _ LB2) in K. destruct r2; [reflexivity|]. cbn [length] in *. lia. }
  subst r2. rewrite app_nil_r in M2. split; [|repeat split; congruence].
  unfold MD5. rewrite M2, compress_all_ok by auto. fold init4. rewrite <- LO2. unfold low. rewrite !put32_low. reflexivity.
Qed.

Theorem md5_ok m : bytes m -> zlen m < 2 ^ 32 -> md5 w m = Some (MD5 m).
Proof.
  intros B L. unfold md5. destruct (update_ok (starts context) [] m (starts_inv context eq_refl) B L) as (c & U & I & _). rewrite U.
  destruct (finish_ok c _ I) as (c' & F & _). rewrite F. reflexivity.
Qed.
(** Histories of updates: the message may be given in pieces. *)
Fixpoint updates (c : ctx) (l : list (list Z)) : option ctx :=
  match l with [] => Some c | x :: l => match update w c x with None => None | Some c => updates c l end end.
Lemma updates_ok l : forall c m, inv c m -> Forall bytes l -> Forall (fun x => zlen x < 2 ^ 32) l ->
  exists c', updates c l = Some c' /\ inv c' (m ++ concat l).
Proof.
  induction l as [|x l IH]; intros c m I B L; [exists c; rewrite app_nil_r; auto|].
  inversion B; inversion L; subst. destruct (update_ok c m x I) as (c1 & U & I1 & _); auto.
  destruct (IH c1 _ I1) as (c2 & U2 & I2); auto. exists c2. cbn [updates concat]. rewrite U, app_assoc. auto.
Qed.

(** ** HMAC *)
Definition zkey (key : list Z) : list Z := key ++ repeat 0 (64 - length key).
Lemma xor_key_ok v n : forall key, xor_key (repeat v n) key = map (Z.lxor v) (firstn n key ++ repeat 0 (n - length (firstn n key))).
Proof.
  induction n as [|n IH]; intros key; [destruct key; reflexivity|]. destruct key as [|k key]; cbn [repeat xor_key firstn length app map Nat.sub].
  - cbn [repeat map]. rewrite Z.lxor_0_r. f_equal. specialize (IH []). rewrite firstn_nil in IH. cbn [length app] in IH. rewrite Nat.sub_0_r in IH.
    rewrite <- IH. destruct n; reflexivity.
  - f_equal. apply IH.
Qed.
Lemma lxor_byte a b : byte a -> byte b -> byte (Z.lxor a b).
Proof.
  unfold byte. intros A B. assert (0 <= Z.lxor a b) by (apply Z.lxor_nonneg; lia). split; [assumption|].
  destruct (Z.eq_dec (Z.lxor a b) 0) as [->|N]; [lia|]. apply (Z.log2_lt_pow2 _ 8); [lia|].
  pose proof (Z.log2_lxor a b ltac:(lia) ltac:(lia)).
  pose proof (Z.log2_le_mono a 255 ltac:(lia)). pose proof (Z.log2_le_mono b 255 ltac:(lia)). change (Z.log2 255) with 7 in *. lia.
Qed.
Lemma xor_bytes v l : byte v -> bytes l -> bytes (map (Z.lxor v) l).
Proof. intros V B. apply Forall_forall. intros x Hx. apply in_map_iff in Hx. destruct Hx as (y & <- & Hy). apply lxor_byte; [exact V|]. unfold bytes in B. rewrite Forall_forall in B. auto. Qed.
Lemma zkey_bytes key : bytes key -> bytes (zkey key).
Proof. intros B. apply bytes_app. split; [exact B|]. apply Forall_forall. intros x Hx. apply repeat_spec in Hx. subst x. split; lia. Qed.
Lemma MD5_bytes m : bytes (MD5 m) /\ length (MD5 m) = 16%nat.
Proof.
  unfold MD5. destruct (compress_all _ _ _) as [[[a b] c] d]. split.
  - repeat (apply bytes_app; split); apply le_bytes_bytes.
  - rewrite !app_length, !le_bytes_length. reflexivity.
Qed.
Theorem hmac_ok key m : bytes key -> bytes m -> zlen m < 2 ^ 32 -> md5_hmac w key m = Some (HMAC (firstn 64 key) m).
Proof.
  intros BK B L. unfold md5_hmac, hmac_starts. rewrite !xor_key_ok. fold (zkey (firstn 64 key)).
  set (k := zkey (firstn 64 key)).
  assert (Bk : bytes k) by (apply zkey_bytes, bytes_firstn, BK).
  assert (Lk : length k = 64%nat) by (unfold k, zkey; rewrite app_length, repeat_length; pose proof (firstn_le_length 64 key); lia).
  assert (H54 : bytes (map (Z.lxor 54) k)) by (apply xor_bytes; [split; lia|assumption]).
  assert (H92 : bytes (map (Z.lxor 92) k)) by (apply xor_bytes; [split; lia|assumption]).
  cbn [tot0 tot1 state buffer context].
  set (c0 := starts _). assert (I0 : inv c0 []) by (apply starts_inv; reflexivity).
  destruct (update_ok c0 [] (map (Z.lxor 54) k) I0 H54) as (c1 & U1 & I1 & P1 & Q1); [unfold zlen; rewrite map_length, Lk; lia|].
  rewrite U1. destruct (update_ok c1 _ m I1 B L) as (c2 & U2 & I2 & P2 & Q2). rewrite U2. cbn [app] in I2.
  unfold hmac_finish. destruct (finish_ok c2 _ I2) as (c3 & F3 & L3 & P3 & Q3). rewrite F3.
  assert (OP : opad c3 = map (Z.lxor 92) k) by (rewrite Q3, Q2, Q1; reflexivity). rewrite OP.
  destruct (update_ok (starts c3) [] (map (Z.lxor 92) k) (starts_inv c3 L3) H92) as (c4 & U4 & I4 & _); [unfold zlen; rewrite map_length, Lk; lia|].
  rewrite U4. set (d := MD5 (map (Z.lxor 54) k ++ m)). destruct (MD5_bytes (map (Z.lxor 54) k ++ m)) as [DB DL]. fold d in DB, DL.
  destruct (update_ok c4 _ d I4 DB) as (c5 & U5 & I5 & _); [unfold zlen; rewrite DL; lia|]. rewrite U5. cbn [app] in I5.
  destruct (finish_ok c5 _ I5) as (c6 & F6 & _). rewrite F6. unfold HMAC.
  replace (length (firstn 64 key) <=? 64)%nat with true by (symmetry; apply Nat.leb_le; apply firstn_le_length).
  fold (zkey (firstn 64 key)). reflexivity.
Qed.
End Width.
