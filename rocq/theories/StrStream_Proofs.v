From Verif Require Import Base BitsBase StrStream_Model StrStream_Spec.

Lemma all_some_map d : all_some (map Some d) = Some d.
Proof. induction d as [|x d IH]; cbn; [auto|]. rewrite IH. reflexivity. Qed.

Lemma peek_ok A R p n : 0 <= p -> 0 <= n -> p + n <= Z.of_nat (length A) ->
  peek (map Some A ++ R) p n = Some (firstn (Z.to_nat n) (skipn (Z.to_nat p) A)).
Proof.
  intros Hp Hn H. unfold peek. rewrite app_length, map_length.
  replace ((0 <=? p) && (p + n <=? Z.of_nat (length A + length R))) with true by lia.
  rewrite skipn_app, map_length. replace (Z.to_nat p - length A)%nat with 0%nat by lia. cbn [skipn].
  rewrite firstn_app, skipn_length, map_length. replace (Z.to_nat n - (length A - Z.to_nat p))%nat with 0%nat by lia.
  cbn [firstn]. rewrite app_nil_r. rewrite skipn_map, firstn_map. apply all_some_map.
Qed.

Lemma poke_ok A R p d : 0 <= p <= Z.of_nat (length A) -> p + Z.of_nat (length d) <= Z.of_nat (length (map Some A ++ R)) ->
  exists R', poke (map Some A ++ R) p d = Some (map Some (firstn (Z.to_nat p) A ++ d ++ skipn (Z.to_nat p + length d) A) ++ R') /\
    length (map Some (firstn (Z.to_nat p) A ++ d ++ skipn (Z.to_nat p + length d) A) ++ R') = length (map Some A ++ R).
Proof.
  intros Hp H. unfold poke. replace ((0 <=? p) && (p + Z.of_nat (length d) <=? Z.of_nat (length (map Some A ++ R)))) with true by lia.
  exists (skipn (Z.to_nat p + length d - length A) R). rewrite firstn_app, skipn_app, !map_length.
  replace (Z.to_nat p - length A)%nat with 0%nat by lia. cbn [firstn]. rewrite app_nil_r.
  split.
  - f_equal. rewrite !map_app, <- !app_assoc. rewrite firstn_map, skipn_map. reflexivity.
  - repeat rewrite ?app_length, ?map_length, ?firstn_length, ?skipn_length in *. lia.
Qed.

Lemma land_mask x : 0 <= x < 2 ^ 32 -> Z.land x 4294967232 = x - x mod 64.
Proof.
  intros H. replace 4294967232 with (Z.ldiff (Z.ones 32) (Z.ones 6)) by reflexivity.
  replace (Z.land x (Z.ldiff (Z.ones 32) (Z.ones 6))) with (Z.ldiff (Z.land x (Z.ones 32)) (Z.ones 6)).
  2:{ apply Z.bits_inj'. intros i Hi. rewrite Z.ldiff_spec, !Z.land_spec, Z.ldiff_spec. rewrite andb_assoc. reflexivity. }
  rewrite Z.land_ones by lia. rewrite (Z.mod_small x) by lia. rewrite Z.ldiff_ones_r by lia. rewrite Z.shiftl_mul_pow2, Z.shiftr_div_pow2 by lia.
  change (2 ^ 6) with 64. pose proof (Z.div_mod x 64 ltac:(lia)). lia.
Qed.

Lemma set_buffer_size_ok m n : 0 <= n <= 4294967232 -> exists N, set_buffer_size m n = (true, firstn N m ++ repeat None (N - length m)) /\
  n <= Z.of_nat N <= 4294967232 /\ Z.of_nat N <= n + 63.
Proof.
  intros H. unfold set_buffer_size. replace (n >? 4294967232) with false by lia.
  assert (E : uwrap 32 (uwrap 32 (n + 64) - 1) = n + 63).
  { unfold uwrap. rewrite Zminus_mod_idemp_l. rewrite Z.mod_small by lia. lia. }
  rewrite E, land_mask by lia. eexists. split; [reflexivity|]. pose proof (Z.mod_pos_bound (n + 63) 64 ltac:(lia)).
  assert ((n + 63 - (n + 63) mod 64) mod 64 = 0) by (rewrite Zminus_mod, Zmod_mod, Z.sub_diag; reflexivity).
  split; [|lia]. split; [lia|]. rewrite Z2Nat.id by lia.
  pose proof (Z.div_mod (n + 63 - (n + 63) mod 64) 64 ltac:(lia)). lia.
Qed.

Record rep (b : iob) (f : file) (stale : bool) : Prop := {
  r_size : bufsize b = maxu b + 1;
  r_max : maxu b + 1 <= 4294967232;
  r_cur : 0 <= cur f <= flen f;
  r_used : flen f <= maxu b;
  r_left : left b = maxu b - cur f;
  r_fill : fill b = maxu b - flen f;
  r_cells : exists R, cells b = map Some (bytes f) ++ R;
  r_ptr : stale = false -> ptr b = cur f
}.

Lemma rep_numbers b f s : rep b f s -> position b = cur f /\ used_size b = flen f /\ used_left b = flen f - cur f.
Proof.
  intros R. destruct R. unfold position, used_size, used_left. unfold flen in *.
  rewrite !uwrap_id by lia. lia.
Qed.

Lemma rep_weaken b f s : rep b f false -> rep b f s.
Proof. intros [? ? ? ? ? ? ? ?]. split; auto. Qed.

Lemma terminate_ok b f s : rep b f s -> exists b' R, terminate b = Some b' /\ rep b' f s /\ cells b' = map Some (bytes f) ++ Some 0 :: R /\ maxu b' = maxu b.
Proof.
  intros R. destruct (rep_numbers b f s R) as (_ & U & _). pose proof R as R0. destruct R0 as [Sz Mx Cu Us Le Fi [Rr Ce] Pt].
  unfold terminate. rewrite U. unfold bufsize in Sz. rewrite Ce in Sz.
  assert (LR : (0 < length Rr)%nat) by (rewrite app_length, map_length in Sz; unfold flen in *; lia).
  destruct Rr as [|r0 Rr]; [cbn in LR; lia|].
  unfold poke. rewrite Ce. unfold flen in *. replace ((0 <=? Z.of_nat (length (bytes f))) && _) with true by (rewrite app_length, map_length; cbn [length]; lia).
  rewrite Nat2Z.id. rewrite firstn_app, skipn_app, map_length, Nat.sub_diag. cbn [firstn length]. rewrite app_nil_r.
  rewrite firstn_all2 by (rewrite map_length; lia). rewrite skipn_all2 by (rewrite map_length; lia).
  replace (length (bytes f) + 1 - length (bytes f))%nat with 1%nat by lia. cbn [skipn app map].
  eexists. exists Rr. split; [reflexivity|]. split; [|split; reflexivity].
  split; cbn [cells maxu left fill ptr]; auto; unfold flen; try lia.
  - unfold bufsize. cbn [cells]. rewrite app_length, map_length in *. cbn [length] in *. lia.
  - eexists. reflexivity.
Qed.

Lemma set_alloc_ok b f s n : rep b f s -> 0 <= n <= 4294967232 - 1 ->
  exists b', set_alloc b n = Some (true, b') /\ rep b' (File (firstn (Z.to_nat n) (bytes f)) (Z.min (cur f) n)) false /\ n <= maxu b' <= n + 63.
Proof.
  intros R Hn. destruct (rep_numbers b f s R) as (P & U & _). pose proof R as R0. destruct R0 as [Sz Mx Cu Us Le Fi [Rr Ce] Pt].
  unfold set_alloc, set_heap. rewrite P, U. rewrite (uwrap_id 32 (n + 1)) by lia. replace (n + 1 <? 1) with false by lia.
  replace (n + 1 - 1) with n by lia. rewrite (uwrap_id 32 n) by lia.
  set (u := if n <? flen f then n else flen f). assert (Hu : u = Z.min n (flen f)) by (unfold u; destruct (n <? flen f) eqn:E; lia). clearbody u.
  set (p := if cur f >? u then u else cur f). assert (Hp : p = Z.min (cur f) n) by (unfold p; destruct (cur f >? u) eqn:E; lia). clearbody p.
  destruct (set_buffer_size_ok (cells b) (n + 1) ltac:(lia)) as (N & EN & BN & BN2). rewrite EN.
  set (m := firstn N (cells b) ++ repeat None (N - length (cells b))).
  assert (Lm : length m = N) by (unfold m; rewrite app_length, firstn_length, repeat_length; lia).
  rewrite Lm. destruct (Z.of_nat N <=? 1) eqn:E1.
  - assert (n = 0) by lia. subst n. assert (u = 0) by (unfold flen in *; lia). assert (p = 0) by lia. assert (N = 1)%nat by lia.
    assert (R2 : rep (IOB m 0 (uwrap 32 (0 - p)) (uwrap 32 (0 - u)) p) (File (firstn (Z.to_nat 0) (bytes f)) (Z.min (cur f) 0)) false).
    { rewrite H, H0, !uwrap_id by lia. split; cbn [cells maxu left fill ptr cur bytes]; unfold flen, bufsize; cbn [bytes cells firstn length Z.to_nat]; try lia.
      exists m. reflexivity. }
    destruct (rep_numbers _ _ _ R2) as (_ & U2 & _). rewrite U2. unfold flen at 1. cbn [bytes firstn Z.to_nat length]. replace (0 <? Z.of_nat 0) with false by lia.
    destruct (terminate_ok _ _ _ R2) as (b' & R' & T & R3 & _ & M3). rewrite T. exists b'. split; [auto|]. split; [auto|]. rewrite M3. cbn. lia.
  - assert (R2 : rep (IOB m (uwrap 32 (Z.of_nat N - 1)) (uwrap 32 (uwrap 32 (Z.of_nat N - 1) - p)) (uwrap 32 (uwrap 32 (Z.of_nat N - 1) - u)) p) (File (firstn (Z.to_nat n) (bytes f)) (Z.min (cur f) n)) false).
    { rewrite (uwrap_id 32 (Z.of_nat N - 1)) by lia. unfold flen in *. rewrite !uwrap_id by lia.
      assert (LF : Z.of_nat (length (firstn (Z.to_nat n) (bytes f))) = u) by (rewrite firstn_length; lia).
      split; cbn [cells maxu left fill ptr cur bytes]; unfold flen, bufsize; cbn [bytes cells]; rewrite ?LF, ?Lm; try lia.
      unfold m. rewrite Ce. destruct (Z.lt_ge_cases n (Z.of_nat (length (bytes f)))) as [C|C].
      - exists (skipn (Z.to_nat n) (firstn N (map Some (bytes f) ++ Rr) ++ repeat None (N - length (map Some (bytes f) ++ Rr)))).
        rewrite <- (firstn_skipn (Z.to_nat n) (firstn N _ ++ _)) at 1. f_equal.
        rewrite firstn_app, firstn_firstn. replace (Nat.min (Z.to_nat n) N) with (Z.to_nat n) by lia.
        rewrite firstn_length. replace (Z.to_nat n - Nat.min N (length (map Some (bytes f) ++ Rr)))%nat with 0%nat by (rewrite app_length, map_length; lia).
        cbn [firstn]. rewrite app_nil_r. rewrite firstn_app, map_length. replace (Z.to_nat n - length (bytes f))%nat with 0%nat by lia.
        cbn [firstn]. rewrite app_nil_r. apply firstn_map.
      - rewrite (firstn_all2 (bytes f)) by lia. exists (firstn (N - length (bytes f)) Rr ++ repeat None (N - length (map Some (bytes f) ++ Rr))).
        rewrite app_assoc. f_equal. rewrite firstn_app, map_length. rewrite firstn_all2 by (rewrite map_length; lia). reflexivity. }
    destruct (rep_numbers _ _ _ R2) as (_ & U2 & _). rewrite U2.
    assert (LF : flen (File (firstn (Z.to_nat n) (bytes f)) (Z.min (cur f) n)) <= n) by (unfold flen; cbn [bytes]; rewrite firstn_length; lia).
    replace (n <? flen (File (firstn (Z.to_nat n) (bytes f)) (Z.min (cur f) n))) with false by lia.
    destruct (terminate_ok _ _ _ R2) as (b' & R' & T & R3 & _ & M3). rewrite T. exists b'. split; [auto|]. split; [auto|].
    rewrite M3. cbn [maxu]. rewrite uwrap_id by lia. lia.
Qed.

(** Growing keeps the file. *)
Lemma grow_ok b f s n : rep b f s -> flen f <= n <= 4294967232 - 1 ->
  exists b', set_alloc b n = Some (true, b') /\ rep b' f false /\ n <= maxu b'.
Proof.
  intros R Hn. pose proof (r_cur b f s R). destruct (set_alloc_ok b f s n R ltac:(unfold flen in *; lia)) as (b' & E & R' & M).
  exists b'. split; [auto|]. split; [|lia]. destruct f as [by_ c]. unfold flen in *. cbn [bytes cur] in *.
  rewrite firstn_all2 in R' by lia. replace (Z.min c n) with c in R' by lia. exact R'.
Qed.

Lemma poke_rep b f d : rep b f false -> cur f + Z.of_nat (length d) <= maxu b ->
  exists m, poke (cells b) (ptr b) d = Some m /\
    (let l := left b - Z.of_nat (length d) in
     rep (IOB m (maxu b) l (if fill b >? l then l else fill b) (ptr b + Z.of_nat (length d))) (f_write f d) false).
Proof.
  intros R H. pose proof R as R0. destruct R0 as [Sz Mx Cu Us Le Fi [Rr Ce] Pt]. rewrite (Pt eq_refl), Ce.
  destruct (poke_ok (bytes f) Rr (cur f) d) as (R' & E & L).
  { unfold flen in *. lia. } { unfold bufsize in Sz. rewrite Ce in Sz. lia. }
  rewrite E. eexists. split; [reflexivity|]. cbn zeta.
  assert (FL : flen (f_write f d) = Z.max (flen f) (cur f + Z.of_nat (length d))).
  { unfold flen, f_write. cbn [bytes]. unfold flen in *. rewrite !app_length, firstn_length, skipn_length. lia. }
  assert (CW : cur (f_write f d) = cur f + Z.of_nat (length d)) by reflexivity.
  split; cbn [cells maxu left fill ptr]; rewrite ?FL, ?CW; try lia.
  - unfold bufsize in *. cbn [cells]. rewrite L. rewrite <- Ce. exact Sz.
  - destruct (fill b >? left b - Z.of_nat (length d)) eqn:G; lia.
  - exists R'. reflexivity.
Qed.

Lemma f_write_nil f : 0 <= cur f <= flen f -> f_write f [] = f.
Proof.
  intros H. unfold f_write. cbn [app length]. rewrite Nat.add_0_r, firstn_skipn. destruct f as [by_ cu]; cbn [bytes cur]. f_equal. lia.
Qed.

Lemma write_ok b f d : rep b f false -> flen f + Z.of_nat (length d) < 2 ^ 31 ->
  exists b', ss_write b d = Some (true, Z.of_nat (length d), b') /\ rep b' (f_write f d) false.
Proof.
  intros R H. unfold ss_write. destruct (rep_numbers b f false R) as (P & U & _). pose proof (r_cur b f _ R) as Cu.
  assert (G : exists b1, (if Z.of_nat (length d) >? left b then set_alloc b (uwrap 32 (position b + Z.of_nat (length d))) else Some (true, b)) = Some (true, b1)
    /\ rep b1 f false /\ cur f + Z.of_nat (length d) <= maxu b1).
  { destruct (_ >? left b) eqn:E.
    - rewrite P, uwrap_id by lia. destruct (Z.le_gt_cases (flen f) (cur f + Z.of_nat (length d))) as [C|C].
      + destruct (grow_ok b f false (cur f + Z.of_nat (length d)) R ltac:(lia)) as (b1 & E1 & R1 & M1). exists b1. auto.
      + exfalso. rewrite (r_left b f _ R) in E. pose proof (r_used b f _ R). lia.
    - exists b. split; [auto|]. split; [auto|]. rewrite (r_left b f _ R) in E. lia. }
  destruct G as (b1 & E1 & R1 & M1). rewrite E1. unfold io_write. rewrite (r_left b1 f _ R1).
  replace (Z.of_nat (length d) >? maxu b1 - cur f) with false by lia. rewrite Nat2Z.id, firstn_all.
  destruct (Z.of_nat (length d) >? 0) eqn:E2.
  - destruct (poke_rep b1 f d R1 M1) as (m & E3 & R3). rewrite E3. eexists. split; [reflexivity|].
    rewrite (r_left b1 f _ R1) in R3. exact R3.
  - destruct d; [|cbn [length] in E2; lia]. exists b1. split; [reflexivity|]. rewrite f_write_nil by auto. auto.
Qed.

Lemma putc_ok b f c : rep b f false -> flen f + 1 < 2 ^ 31 -> exists b', ss_putc b c = Some (true, b') /\ rep b' (f_write f [c]) false.
Proof.
  intros R H. unfold ss_putc. pose proof (r_cur b f _ R) as Cu.
  assert (G : exists b1, (if left b <=? 0 then set_alloc b (uwrap 32 (bufsize b + 1)) else Some (true, b)) = Some (true, b1)
    /\ rep b1 f false /\ cur f + 1 <= maxu b1).
  { destruct (_ <=? 0) eqn:E.
    - pose proof (r_left b f _ R). pose proof (r_used b f _ R). pose proof (r_size b f _ R). rewrite uwrap_id by lia.
      destruct (grow_ok b f false (bufsize b + 1) R ltac:(lia)) as (b1 & E1 & R1 & M1). exists b1. split; [auto|]. split; [auto|lia].
    - exists b. split; [auto|]. split; [auto|]. rewrite (r_left b f _ R) in E. lia. }
  destruct G as (b1 & E1 & R1 & M1). rewrite E1. rewrite (r_left b1 f _ R1). replace (maxu b1 - cur f =? 0) with false by lia. cbn [andb negb].
  destruct (poke_rep b1 f [c] R1 ltac:(cbn; lia)) as (m & E3 & R3). rewrite E3. eexists. split; [reflexivity|].
  cbn [length] in R3. rewrite (r_left b1 f _ R1) in R3. exact R3.
Qed.

Lemma seek_ok b f s p : rep b f s -> 0 <= p <= flen f -> exists b', io_seek b p = (true, b') /\ rep b' (File (bytes f) p) false.
Proof.
  intros R H. unfold io_seek. destruct (rep_numbers b f s R) as (_ & U & _). rewrite U. replace (p <=? flen f) with true by lia.
  eexists. split; [reflexivity|]. destruct R as [Sz Mx Cu Us Le Fi [Rr Ce] Pt]. unfold flen, bufsize in *. rewrite uwrap_id by lia.
  split; cbn [cells maxu left fill ptr bytes cur]; unfold flen, bufsize; cbn [bytes cells]; try lia. exists Rr. auto.
Qed.

Lemma empty_ok b f s : rep b f s -> rep (empty b) (File [] 0) false.
Proof.
  intros [Sz Mx Cu Us Le Fi [Rr Ce] Pt]. unfold empty, flen, bufsize in *. split; cbn [cells maxu left fill ptr bytes cur]; unfold flen, bufsize; cbn [bytes cells length]; try lia.
  exists (cells b). reflexivity.
Qed.

Lemma f_write_end by_ d : f_write (File by_ (Z.of_nat (length by_))) d = File (by_ ++ d) (Z.of_nat (length by_) + Z.of_nat (length d)).
Proof.
  unfold f_write. cbn [bytes cur]. rewrite Nat2Z.id, firstn_all, skipn_all2 by lia. rewrite app_nil_r. reflexivity.
Qed.

Lemma locate_index d : forall i c, 0 <= i -> i + Z.of_nat (length d) < 2 ^ 31 ->
  locate_from d i c = match index_of d c with Some k => i + k | None => 4294967295 end /\
  match index_of d c with Some k => 0 <= k < Z.of_nat (length d) | None => True end.
Proof.
  induction d as [|x d IH]; intros i c Hi H; cbn [locate_from index_of length] in *; [auto|].
  destruct (x =? c); [split; lia|]. destruct (IH (i + 1) c ltac:(lia) ltac:(lia)) as [E B]. rewrite E.
  destruct (index_of d c); cbn [option_map]; split; auto; lia.
Qed.

Lemma peek_rep b f s p n : rep b f s -> 0 <= p -> 0 <= n -> p + n <= flen f -> peek (cells b) p n = Some (firstn (Z.to_nat n) (skipn (Z.to_nat p) (bytes f))).
Proof. intros R Hp Hn H. destruct (r_cells b f s R) as [Rr ->]. apply peek_ok; auto. Qed.

Definition stale_after (s : bool) (o : sop) : bool :=
  match o with
  | SRead _ | SWrite _ | SGetC | SPutC _ | SSeek _ | SSetSize _ | SAppend _ | SAppendC _ | SSet _ | SSetC _ => false
  | SRel d => s || ((- 2 ^ 31 <=? d) && (d <? 0))
  | SSize | SPos | SBuffer | SLocate _ => s
  end.
Definition needs_ptr (o : sop) : bool := match o with SRead _ | SWrite _ | SGetC | SPutC _ => true | _ => false end.

Lemma step_ok b f s o : rep b f s -> arg_ok o -> (needs_ptr o = true -> s = false) -> flen f + written o < 2 ^ 31 ->
  exists b', sstep b o = Some (fst (fstep f o), b') /\ rep b' (snd (fstep f o)) (stale_after s o) /\ flen (snd (fstep f o)) <= flen f + written o.
Proof.
  intros R A N B. destruct (rep_numbers b f s R) as (P & U & UL). pose proof (r_cur b f s R) as Cu.
  destruct o as [n|d|p|d|n|d|c|d|c| |c| | | |c]; cbn [sstep fstep stale_after arg_ok written needs_ptr] in *; try (specialize (N eq_refl); subst s).
  - (* Read *) unfold io_read. rewrite UL. set (n' := if n >? flen f - cur f then flen f - cur f else n).
    assert (Hn : n' = Z.min n (flen f - cur f)) by (unfold n'; destruct (n >? flen f - cur f) eqn:E; lia).
    assert (EL : firstn (Z.to_nat n) (f_rest f) = firstn (Z.to_nat n') (skipn (Z.to_nat (cur f)) (bytes f))).
    { unfold f_rest. destruct (Z.le_gt_cases n (flen f - cur f)); [f_equal; lia|].
      unfold flen in *. rewrite !firstn_all2; auto; rewrite skipn_length; lia. }
    assert (LL : Z.of_nat (length (firstn (Z.to_nat n) (f_rest f))) = n').
    { rewrite EL, firstn_length, skipn_length. unfold flen in *. lia. }
    cbn [fst snd]. rewrite LL. destruct (n' >? 0) eqn:E.
    + rewrite (r_ptr b f _ R eq_refl). rewrite (peek_rep b f false (cur f) n' R) by lia. rewrite <- EL.
      eexists. split; [rewrite LL; reflexivity|]. split; [|unfold flen; cbn [bytes]; lia].
      destruct R as [Sz Mx Cu' Us Le Fi Ce Pt]. unfold flen, bufsize in *.
      split; cbn [cells maxu left fill ptr bytes cur]; unfold flen, bufsize; cbn [bytes cells]; auto; lia.
    + assert (n' = 0) by lia. replace (firstn (Z.to_nat n) (f_rest f)) with (@nil Z) by (rewrite EL; replace n' with 0 by lia; reflexivity).
      exists b. replace n' with 0 by lia. split; [reflexivity|]. split; [|unfold flen; cbn [bytes]; lia]. destruct f as [by_ cu]; cbn [bytes cur] in *. rewrite Z.add_0_r. auto.
  - (* Write *) destruct (write_ok b f d R B) as (b' & E & R'). rewrite E. exists b'. split; [reflexivity|]. split; [exact R'|].
    cbn [snd]. unfold flen, f_write in *; cbn [bytes]. rewrite !app_length, firstn_length, skipn_length. lia.
  - (* Seek *) unfold s_seek. rewrite U. destruct (p <=? flen f) eqn:E.
    + replace (p >? flen f) with false by lia. rewrite uwrap_id by (pose proof (r_used b f s R); pose proof (r_max b f s R); lia).
      destruct (seek_ok b f s p R ltac:(lia)) as (b' & E1 & R'). rewrite E1. exists b'. split; [reflexivity|]. split; [exact R'|cbn [snd]; unfold flen; cbn [bytes]; lia].
    + replace (p >? flen f) with true by lia. destruct (seek_ok b f s (flen f) R ltac:(lia)) as (b' & E1 & R'). rewrite E1. cbn [snd]. exists b'.
      split; [reflexivity|]. split; [exact R'|unfold flen; cbn [bytes]; lia].
  - (* RelativeSeek *) unfold s_relseek. destruct ((d >? 2147483647) || (d <? -2147483648)) eqn:E1.
    + replace ((d <? - 2 ^ 31) || (2 ^ 31 <=? d)) with true by lia. exists b. split; [reflexivity|]. split; [|cbn [snd]; lia].
      replace ((- 2 ^ 31 <=? d) && (d <? 0)) with false by lia. rewrite orb_false_r. exact R.
    + replace ((d <? - 2 ^ 31) || (2 ^ 31 <=? d)) with false by lia. unfold io_relseek. fold (used_left b). rewrite UL.
      pose proof (r_used b f s R) as Us. pose proof (r_max b f s R) as Mx. pose proof (r_left b f s R) as Le. pose proof (r_fill b f s R) as Fi.
      destruct (d >=? 0) eqn:E2.
      * rewrite (uwrap_id 32 d) by lia. replace (cur f + d <? 0) with false by lia.
        set (g := if d >? flen f - cur f then flen f - cur f else d).
        assert (Hg : g = Z.min d (flen f - cur f)) by (unfold g; destruct (d >? flen f - cur f) eqn:E; lia).
        replace ((- 2 ^ 31 <=? d) && (d <? 0)) with false by lia. rewrite orb_false_r.
        assert (RR : rep (IOB (cells b) (maxu b) (left b - g) (fill b) (ptr b + g)) (File (bytes f) (cur f + g)) s).
        { destruct R as [Sz _ _ _ _ _ Ce Pt]. unfold flen, bufsize in *.
          split; cbn [cells maxu left fill ptr bytes cur]; unfold flen, bufsize; cbn [bytes cells]; try lia; auto; try (intros ->; rewrite Pt by auto; reflexivity). }
        exists (IOB (cells b) (maxu b) (left b - g) (fill b) (ptr b + g)).
        destruct (d >? flen f - cur f) eqn:E3; cbn [negb].
        -- replace (flen f <? cur f + d) with true by lia. replace (cur f + g) with (flen f) in RR by lia. split; [reflexivity|]. split; [exact RR|cbn [snd]; unfold flen; cbn [bytes]; lia].
        -- replace (flen f <? cur f + d) with false by lia. replace (cur f + g) with (cur f + d) in RR by lia. split; [reflexivity|]. split; [exact RR|cbn [snd]; unfold flen; cbn [bytes]; lia].
      * rewrite (uwrap_id 32 (- d)) by lia. rewrite P. replace (flen f <? cur f + d) with false by lia.
        replace ((- 2 ^ 31 <=? d) && (d <? 0)) with true by lia. rewrite orb_true_r.
        set (g := if - d >? cur f then cur f else - d).
        assert (Hg : g = Z.min (- d) (cur f)) by (unfold g; destruct (- d >? cur f) eqn:E; lia).
        set (pp := uwrap 32 _).
        assert (RR : rep (IOB (cells b) (maxu b) (left b + g) (fill b) pp) (File (bytes f) (cur f - g)) true).
        { destruct R as [Sz _ _ _ _ _ Ce Pt]. unfold flen, bufsize in *.
          split; cbn [cells maxu left fill ptr bytes cur]; unfold flen, bufsize; cbn [bytes cells]; auto; try lia; try discriminate. }
        eexists. destruct (- d >? cur f) eqn:E3; cbn [negb left].
        -- replace (cur f + d <? 0) with true by lia. replace (cur f - g) with 0 in RR by lia. split; [reflexivity|]. split; [exact RR|cbn [snd]; unfold flen; cbn [bytes]; lia].
        -- replace (cur f + d <? 0) with false by lia. replace (cur f - g) with (cur f + d) in RR by lia. split; [reflexivity|]. split; [exact RR|cbn [snd]; unfold flen; cbn [bytes]; lia].
  - (* SetSize *) unfold s_setsize. rewrite uwrap_id by lia. destruct (set_alloc_ok b f s n R ltac:(lia)) as (b' & E & R' & _). rewrite E.
    exists b'. split; [reflexivity|]. split; [exact R'|cbn [snd]; unfold flen; cbn [bytes]; rewrite firstn_length; lia].
  - (* Append *) unfold s_append. rewrite U. destruct (seek_ok b f s (flen f) R ltac:(lia)) as (b1 & E1 & R1). rewrite E1.
    destruct (write_ok b1 _ d R1) as (b' & E & R'); [unfold flen in *; cbn [bytes]; lia|]. rewrite E. exists b'. split; [reflexivity|].
    unfold flen in R'. rewrite f_write_end in R'. split; [exact R'|cbn [snd]; unfold flen; cbn [bytes]; rewrite app_length; lia].
  - unfold s_append_c. rewrite U. destruct (seek_ok b f s (flen f) R ltac:(lia)) as (b1 & E1 & R1). rewrite E1.
    destruct (putc_ok b1 _ c R1) as (b' & E & R'); [unfold flen in *; cbn [bytes]; lia|]. rewrite E. exists b'. split; [reflexivity|].
    unfold flen in R'. rewrite f_write_end in R'. split; [exact R'|cbn [snd]; unfold flen; cbn [bytes]; rewrite app_length; cbn [length]; lia].
  - (* Set *) unfold s_set. pose proof (empty_ok b f s R) as R1. destruct (write_ok (empty b) _ d R1) as (b' & E & R').
    { unfold flen at 1; cbn [bytes length]. unfold flen in B. lia. }
    rewrite E. exists b'. split; [reflexivity|]. change (File [] 0) with (File [] (Z.of_nat (@length Z []))) in R'. rewrite f_write_end in R'.
    split; [exact R'|cbn [snd]; unfold flen; cbn [bytes]; lia].
  - unfold s_set_c. pose proof (empty_ok b f s R) as R1. destruct (putc_ok (empty b) _ c R1) as (b' & E & R').
    { unfold flen at 1; cbn [bytes length]. lia. }
    rewrite E. exists b'. split; [reflexivity|]. change (File [] 0) with (File [] (Z.of_nat (@length Z []))) in R'. rewrite f_write_end in R'.
    split; [exact R'|cbn [snd]; unfold flen; cbn [bytes length]; lia].
  - (* GetC *) unfold io_getc. rewrite UL. destruct (flen f - cur f <=? 0) eqn:E.
    + assert (ER : f_rest f = []) by (unfold f_rest; apply skipn_all2; unfold flen in *; lia). rewrite ER. exists b. split; [reflexivity|]. split; [exact R|cbn [snd]; lia].
    + rewrite (r_ptr b f _ R eq_refl), (peek_rep b f false (cur f) 1 R) by lia. change (Z.to_nat 1) with 1%nat.
      assert (LR : (0 < length (f_rest f))%nat) by (unfold f_rest; rewrite skipn_length; unfold flen in *; lia).
      fold (f_rest f). destruct (f_rest f) as [|c r] eqn:ER; [cbn in LR; lia|]. cbn [firstn]. eexists. split; [reflexivity|]. split; [|cbn [snd]; unfold flen; cbn [bytes]; lia].
      cbn [snd]. destruct R as [Sz Mx Cu' Us Le Fi Ce Pt]. unfold flen, bufsize in *.
      split; cbn [cells maxu left fill ptr bytes cur]; unfold flen, bufsize; cbn [bytes cells]; auto; lia.
  - (* PutC *) destruct (putc_ok b f c R B) as (b' & E & R'). rewrite E. exists b'. split; [reflexivity|]. split; [exact R'|].
    cbn [snd]. unfold flen, f_write in *; cbn [bytes]. rewrite !app_length, firstn_length, skipn_length. cbn [length]. lia.
  - exists b. rewrite U. split; [reflexivity|]. split; [exact R|cbn [snd]; lia].
  - exists b. rewrite P. split; [reflexivity|]. split; [exact R|cbn [snd]; lia].
  - (* Buffer *) unfold s_buffer. destruct (terminate_ok b f s R) as (b' & R1 & T & R' & C & _). rewrite T.
    destruct (rep_numbers b' f s R') as (_ & U' & _). rewrite U', C.
    replace (map Some (bytes f) ++ Some 0 :: R1) with (map Some (bytes f ++ [0]) ++ R1) by (rewrite map_app, <- app_assoc; reflexivity).
    rewrite peek_ok by (rewrite ?app_length; unfold flen; cbn [length]; lia). cbn [Z.to_nat skipn].
    rewrite firstn_all2 by (rewrite app_length; cbn [length]; unfold flen; lia). exists b'. split; [reflexivity|]. split; [exact R'|cbn [snd]; lia].
  - (* Locate *) unfold s_locate. rewrite U. assert (E : exists i, (if flen f >? 0 then match peek (cells b) 0 (flen f) with None => None | Some d => Some (swrap 32 (locate_from d 0 c)) end else Some (swrap 32 4294967295)) = Some i
      /\ i = match index_of (bytes f) c with Some i => i | None => -1 end).
    { destruct (flen f >? 0) eqn:E.
      - rewrite (peek_rep b f s 0 (flen f) R) by lia. cbn [Z.to_nat skipn]. unfold flen. rewrite Nat2Z.id, firstn_all. eexists. split; [reflexivity|].
        unfold flen in B. destruct (locate_index (bytes f) 0 c ltac:(lia) ltac:(lia)) as [-> Bd]. destruct (index_of (bytes f) c); [|reflexivity].
        rewrite swrap_id by lia. lia.
      - unfold flen in E. destruct (bytes f); [|cbn [length] in E; lia]. eexists. split; reflexivity. }
    destruct E as (i & -> & ->). exists b. split; [reflexivity|]. split; [exact R|cbn [snd]; lia].
Qed.

Lemma usable_cons s o r : usable s (o :: r) -> (needs_ptr o = true -> s = false) /\ usable (stale_after s o) r.
Proof. destruct o; cbn [usable needs_ptr stale_after]; try tauto; intros H; split; auto; discriminate. Qed.

Lemma run_ok ops : forall b f s, rep b f s -> Forall arg_ok ops -> usable s ops -> flen f + total_written ops < 2 ^ 31 ->
  exists b' s', srun b ops = Some (fst (frun f ops), b') /\ rep b' (snd (frun f ops)) s'.
Proof.
  induction ops as [|o ops IH]; intros b f s R A N B; cbn [srun frun].
  - exists b, s. auto.
  - inversion A; subst. apply usable_cons in N. destruct N as [N1 N2]. cbn [total_written fold_right] in B. fold (total_written ops) in B.
    assert (0 <= total_written ops).
    { clear. induction ops as [|o ops IH]; cbn [total_written fold_right]; [lia|]. fold (total_written ops). assert (0 <= written o) by (destruct o; cbn; lia). lia. }
    destruct (step_ok b f s o R H1 N1 ltac:(lia)) as (b1 & E1 & R1 & L1). rewrite E1. destruct (fstep f o) as [a f1]. cbn [fst snd] in *.
    destruct (IH b1 f1 _ R1 H2 N2 ltac:(lia)) as (b2 & s2 & E2 & R2). rewrite E2. destruct (frun f1 ops) as [l f2]. cbn [fst snd] in *. eauto.
Qed.

Lemma new_ok : exists b, s_new = Some b /\ rep b (File [] 0) false.
Proof.
  unfold s_new. assert (E : exists b, set_alloc iob_new 0 = Some (true, b) /\ rep b (File [] 0) false).
  { eexists. split; [vm_compute; reflexivity|]. split; cbn; try lia. eexists. reflexivity. }
  destruct E as (b & -> & R). eauto.
Qed.
