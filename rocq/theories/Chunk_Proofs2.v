From Verif Require Import Base StrStream_Model BufStream_Model BufStream_Proofs Chunk_Model Chunk_Spec Chunk_Proofs.

Lemma wrun_app a b s : wrun s (a ++ b) = match wrun s a with None => None | Some (l, s1) => match wrun s1 b with None => None | Some (l2, s2) => Some (l ++ l2, s2) end end.
Proof.
  revert s. induction a as [|o a IH]; intros s; cbn [app wrun]; [destruct (wrun s b) as [(?, ?)|]; reflexivity|].
  destruct (wstep s o) as [(r, s1)|]; [|reflexivity]. rewrite IH. destruct (wrun s1 a) as [(l, s2)|]; [|reflexivity]. destruct (wrun s2 b) as [(?, ?)|]; reflexivity.
Qed.
Lemma set_buffer_ok s u n : inv s u -> 0 <= n < 2 ^ 32 -> exists r s' u', set_buffer s n = Some (r, s') /\ adds s u [] r s' u'.
Proof.
  intros I B. unfold set_buffer. destruct (flush_adds s u I) as (r & s1 & u1 & -> & M & A & C). destruct r; [|exists false, s1, u1; auto].
  specialize (C eq_refl). subst u1. eexists _, _, []. split; [reflexivity|]. rewrite <- (app_nil_r []). eapply adds_trans; [exact A|]. apply (adds_put s1 [] []).
  - apply A.
  - cbn [app length Z.of_nat]. apply bnew. destruct (n <? 8) eqn:E; lia.
Qed.
Lemma page_ok s u o : inv s u -> (chunk s = true -> calib s = 0) -> page_call o ->
  exists r s' u', wstep s o = Some (r, s') /\ adds s u (said o) r s' u' /\ (o = WFlush -> r = true -> u' = []).
Proof.
  intros I C P. destruct o; cbn [page_call said wstep] in *; try contradiction.
  - destruct (putc_ok s u c I) as (r & s' & u' & -> & A). exists r, s', u'. split; [reflexivity|]. split; [exact A|discriminate].
  - destruct (write_all_ok (length d + 2) s u d I) as (r & s' & u' & -> & A); [lia|]. exists r, s', u'. split; [reflexivity|]. split; [exact A|discriminate].
  - destruct (write_ok s u d I P C) as (r & k & s' & u' & -> & A). exists r, s', u'. split; [reflexivity|]. split; [exact A|discriminate].
  - destruct (flush_adds s u I) as (r & s' & u' & -> & M & A & Em). exists r, s', u'. auto.
  - destruct (set_buffer_ok s u size I P) as (r & s' & u' & -> & A). exists r, s', u'. split; [reflexivity|]. split; [exact A|discriminate].
Qed.
Lemma final_ok s u : inv s u -> exists r s', wstep s WFinal = Some (r, s') /\ same s s' /\ inv s' u /\ (r = true -> wire (sock s') = wire (sock s) ++ last_chunk).
Proof.
  intros (R & W). cbn [wstep]. unfold final_chunk. assert (B : 0 < zl last_chunk < 2 ^ 32) by (cbn; lia).
  change [48; 13; 10; 13; 10] with last_chunk. destruct (send_ok (sock s) last_chunk W B) as [E|E]; rewrite E; eexists _, _; (split; [reflexivity|]); (split; [split; reflexivity|]); (split; [split; [exact R|apply whole_tl, W]|]); cbn.
  - reflexivity.
  - discriminate.
Qed.
Lemma any_ok s u o : inv s u -> calib s = 0 -> any_call o ->
  exists r s' u', wstep s o = Some (r, s') /\ inv s' u' /\ calib s' = 0 /\ (o = WFlush -> r = true -> u' = []).
Proof.
  intros I C A. assert (P : page_call o -> exists r s' u', wstep s o = Some (r, s') /\ inv s' u' /\ calib s' = 0 /\ (o = WFlush -> r = true -> u' = [])).
  { intros Po. destruct (page_ok s u o I (fun _ => C) Po) as (r & s' & u' & E & ((_ & Ck) & I' & _) & F). exists r, s', u'. split; [exact E|]. split; [exact I'|]. split; [congruence|exact F]. }
  destruct o; cbn [any_call] in A; try contradiction; try (apply P; exact A).
  - exists true, (set_chunk s m), u. split; [reflexivity|]. split; [exact I|]. split; [exact C|discriminate].
  - destruct (final_ok s u I) as (r & s' & E & (_ & Ck) & I' & _). exists r, s', u. split; [exact E|]. split; [exact I'|]. split; [congruence|discriminate].
Qed.
Lemma any_run : forall ops s u, inv s u -> calib s = 0 -> Forall any_call ops -> exists l s' u', wrun s ops = Some (l, s') /\ length l = length ops /\ inv s' u' /\ calib s' = 0.
Proof.
  induction ops as [|o ops IH]; intros s u I C A; [exists [], s, u; auto|]. cbn [wrun].
  destruct (any_ok s u o I C (Forall_inv A)) as (r & s1 & u1 & -> & I1 & C1 & _). destruct (IH s1 u1 I1 C1 (Forall_inv_tail A)) as (l & s' & u' & -> & L & I' & C').
  exists (r :: l), s', u'. cbn [length]. rewrite L. auto.
Qed.
Lemma page_run : forall ops s u, inv s u -> (chunk s = true -> calib s = 0) -> Forall page_call ops ->
  exists l s', wrun s ops = Some (l, s') /\ length l = length ops /\ (good l -> exists u', adds s u (text ops) true s' u').
Proof.
  induction ops as [|o ops IH]; intros s u I C A.
  - exists [], s. split; [reflexivity|]. split; [reflexivity|]. intros _. exists u. apply adds_refl, I.
  - cbn [wrun]. destruct (page_ok s u o I C (Forall_inv A)) as (r & s1 & u1 & -> & A1 & _). pose proof A1 as ((Sc & Sk) & I1 & _).
    destruct (IH s1 u1 I1) as (l & s' & -> & L & G); [rewrite Sc, Sk; exact C|apply (Forall_inv_tail A)|]. exists (r :: l), s'. split; [reflexivity|]. split; [cbn [length]; congruence|].
    intros Gd. pose proof (Forall_inv Gd) as R. cbn in R. subst r. destruct (G (Forall_inv_tail Gd)) as (u' & A2). exists u'. cbn [text flat_map]. eapply adds_trans; eassumption.
Qed.
Lemma new_inv size script : 0 <= size < 2 ^ 32 -> all_or_nothing script -> inv (ws_new size script) [].
Proof. intros B W. split; [|exact W]. apply bnew. destruct (size <? 8) eqn:E; lia. Qed.
(** after a Flush that returned true *)
Lemma flushed size script before l s : 0 <= size < 2 ^ 32 -> all_or_nothing script -> Forall any_call before ->
  wrun (ws_new size script) (before ++ [WFlush]) = Some (l, s) -> last l false = true -> inv s [] /\ calib s = 0.
Proof.
  intros B W A E La. rewrite wrun_app in E. destruct (any_run before _ [] (new_inv size script B W) eq_refl A) as (l1 & s1 & u1 & E1 & L1 & I1 & C1). rewrite E1 in E.
  cbn [wrun] in E. destruct (any_ok s1 u1 WFlush I1 C1 Logic.I) as (r & s2 & u2 & E2 & I2 & C2 & F2). rewrite E2 in E. injection E as <- <-. rewrite last_last in La. rewrite (F2 eq_refl La) in I2. auto.
Qed.
Lemma frames_body m w d : frames m w d -> if m then forall rest, body (w ++ last_chunk ++ rest) d rest else w = d.
Proof. destruct m; [|auto]. intros H rest. apply chunks_body, H. Qed.
Lemma good_app a b : good (a ++ b) -> good a /\ good b.
Proof. apply Forall_app. Qed.

Lemma sent_ok s m ops l s' : inv s [] -> calib s = 0 -> Forall page_call ops -> wrun s (WChunk m :: ops ++ [WFlush]) = Some (l, s') -> good l ->
  inv s' [] /\ calib s' = 0 /\ exists w, wire (sock s') = wire (sock s) ++ w /\ frames m w (text ops).
Proof.
  intros I C P E G. cbn [wrun wstep] in E. rewrite wrun_app in E. destruct (page_run ops (set_chunk s m) [] I (fun _ => C) P) as (l1 & s1 & E1 & L1 & A1). rewrite E1 in E.
  cbn [wrun] in E. destruct (wstep s1 WFlush) as [(r, s2)|] eqn:E2; [|discriminate]. injection E as <- <-. pose proof (Forall_inv_tail G) as G1. apply good_app in G1. destruct G1 as (G1 & G2).
  destruct (A1 G1) as (u1 & A). pose proof A as ((Sc & Sk) & I1 & _). destruct (flush_adds s1 u1 I1) as (r' & s2' & u2 & E3 & _ & A3 & F). cbn [wstep] in E2. rewrite E2 in E3. injection E3 as <- <-.
  pose proof (Forall_inv G2) as R. cbn in R. subst r. specialize (F eq_refl). subst u2.
  pose proof (adds_trans _ _ _ _ _ _ _ _ _ A A3) as ((Sc2 & Sk2) & I2 & w & W & x & Fr & Ex). cbn [set_chunk chunk calib sock app] in *. rewrite !app_nil_r in Ex. subst x.
  split; [exact I2|]. split; [congruence|]. exists w. auto.
Qed.
Lemma fails_ok s m ops o l s' : inv s [] -> calib s = 0 -> Forall page_call ops -> page_call o -> wrun s (WChunk m :: ops ++ [o]) = Some (l ++ [false], s') -> good l ->
  exists w c, wire (sock s') = wire (sock s) ++ w /\ frames m (w ++ c) (text (ops ++ [o])).
Proof.
  intros I C P P1 E G. cbn [wrun wstep] in E. rewrite wrun_app in E. destruct (page_run ops (set_chunk s m) [] I (fun _ => C) P) as (l1 & s1 & E1 & L1 & A1). rewrite E1 in E.
  cbn [wrun] in E. destruct (wstep s1 o) as [(r, s2)|] eqn:E2; [|discriminate]. injection E as El <-. change (true :: l1 ++ [r]) with ((true :: l1) ++ [r]) in El. apply app_inj_tail in El. destruct El as (<- & ->).
  destruct (A1 (Forall_inv_tail G)) as (u1 & A). pose proof A as ((Sc & Sk) & I1 & _).
  destruct (page_ok s1 u1 o I1) as (r' & s2' & u2 & E3 & A3 & _); [intros _; cbn in Sk; congruence|exact P1|]. rewrite E2 in E3. injection E3 as <- <-.
  pose proof (adds_trans _ _ _ _ _ _ _ _ _ A A3) as (_ & _ & w & W & c & Fr). cbn [set_chunk chunk sock app] in *.
  exists w, c. split; [exact W|]. unfold text. rewrite flat_map_app. cbn [flat_map]. rewrite app_nil_r. exact Fr.
Qed.

(** ** Reading *)
Definition rest_of (s : rs) (u : list Z) (p : Z) : list Z := skipn (Z.to_nat p) u ++ coming (remote s).
Lemma recv_ok r n : 0 <= n -> match os_recv r n with
  | (Some d, r') => 0 < zl d <= n /\ coming r = d ++ coming r'
  | (None, r') => coming r' = coming r
  end.
Proof.
  intros H. unfold os_recv. set (k := Z.min (hd 0 (recvs r)) (Z.min n (zl (coming r)))). destruct (k >? 0) eqn:E; [|reflexivity]. cbn [coming].
  split; [rewrite firstn_length; unfold k in *; lia|]. symmetry. apply firstn_skipn.
Qed.
Lemma refill_ok s u p : brep (rbuf s) u p -> match refill s with (ok, s') => maxu (rbuf s') = maxu (rbuf s) /\ rcalib s' = rcalib s /\ exists u', brep (rbuf s') u' 0 /\ coming (remote s) = rest_of s' u' 0 /\
  (ok = true -> 0 < zl u') end.
Proof.
  intros B. unfold refill, rest_of. pose proof (b_max _ _ _ B) as MX. pose proof (recv_ok (remote s) (maxu (empty (rbuf s)))) as R. 
  change (maxu (empty (rbuf s))) with (maxu (rbuf s)) in *. specialize (R ltac:(lia)). destruct (os_recv (remote s) (maxu (rbuf s))) as (d, r'). destruct d as [d|].
  - destruct R as (L & R). split; [reflexivity|]. split; [reflexivity|]. exists d. cbn [rbuf remote Z.to_nat skipn]. split; [|split; [exact R|lia]].
    cbn [empty maxu left fill ptr cells]. unfold set_used. split; cbn [maxu cells left fill ptr]; try lia.
    + exists (skipn (length d) (cells (rbuf s))). reflexivity.
    + rewrite app_length, map_length, skipn_length. pose proof (b_size _ _ _ B). lia.
    + destruct (zl d >? maxu (rbuf s)) eqn:E2; [lia|]. rewrite uwrap_id; lia.
  - split; [reflexivity|]. split; [reflexivity|]. exists []. cbn [rbuf remote Z.to_nat skipn app]. split; [|split; [congruence|discriminate]]. apply (bempty _ [] 0). exact (bempty _ _ _ B).
Qed.
Lemma split_rest (u X : list Z) p n : 0 <= p <= zl u -> 0 <= n -> let d := firstn (Z.to_nat n) (skipn (Z.to_nat p) u) in
  skipn (Z.to_nat p) u ++ X = d ++ skipn (Z.to_nat (p + zl d)) u ++ X /\ zl d = Z.min n (zl u - p).
Proof.
  intros P N d. assert (L : zl d = Z.min n (zl u - p)) by (unfold d; rewrite firstn_length, skipn_length; lia). split; [|exact L]. rewrite app_assoc. f_equal.
  replace (Z.to_nat (p + zl d)) with (length d + Z.to_nat p)%nat by lia. rewrite <- skipn_twice.
  transitivity (firstn (length d) (skipn (Z.to_nat p) u) ++ skipn (length d) (skipn (Z.to_nat p) u)); [symmetry; apply firstn_skipn|]. f_equal.
  unfold d at 2. unfold d. rewrite firstn_length. destruct (Nat.le_ge_cases (Z.to_nat n) (length (skipn (Z.to_nat p) u))) as [H|H].
  - rewrite Nat.min_l by exact H. reflexivity.
  - rewrite Nat.min_r by exact H. rewrite firstn_all, firstn_all2 by exact H. reflexivity.
Qed.
Lemma read_loop_ok : forall fuel s u p toRead n out, brep (rbuf s) u p -> 0 <= toRead -> toRead <= Z.of_nat fuel -> (toRead = 0 \/ p < zl u) ->
  exists ok k r s' u' p', read_loop fuel s toRead n out = Some (ok, k, out ++ r, s') /\ brep (rbuf s') u' p' /\ rcalib s' = rcalib s /\ rest_of s u p = r ++ rest_of s' u' p' /\
    zl r <= toRead /\ (ok = true -> k = n + zl r /\ zl r = toRead) /\ n <= k <= n + zl r.
Proof.
  induction fuel as [|fuel IH]; intros s u p toRead n out B T F Pr; cbn [read_loop].
  { replace (toRead >? 0) with false by lia. exists true, n, [], s, u, p. rewrite app_nil_r. cbn. split; [reflexivity|]. split; [exact B|]. repeat split; try reflexivity; lia. }
  destruct (toRead >? 0) eqn:E.
  2: { exists true, n, [], s, u, p. rewrite app_nil_r. cbn. split; [reflexivity|]. split; [exact B|]. repeat split; try reflexivity; lia. }
  destruct (bread _ _ _ toRead B T) as (b & ER & B' & M'). rewrite ER. destruct (split_rest u (coming (remote s)) p toRead (b_pos _ _ _ B) T) as (SR & LD).
  set (d := firstn (Z.to_nat toRead) (skipn (Z.to_nat p) u)) in *. fold (rest_of s u p) in SR.
  destruct (zl d =? toRead) eqn:ED; cbn [negb].
  - destruct (IH (RS b (rcalib s) (remote s)) u (p + zl d) (toRead - zl d) (n + zl d) (out ++ d)) as (ok & k & r & s' & u' & p' & EL & B2 & RC & RR & L & K1 & K2); try assumption; try lia.
    rewrite EL. exists ok, k, (d ++ r), s', u', p'. split; [rewrite <- app_assoc; reflexivity|]. split; [exact B2|]. split; [exact RC|]. split; [rewrite SR, <- app_assoc; f_equal; exact RR|].
    rewrite app_length. split; [lia|]. split; [|lia]. intros H. destruct (K1 H). lia.
  - pose proof (refill_ok (RS b (rcalib s) (remote s)) u (p + zl d) B') as RF. destruct (refill (RS b (rcalib s) (remote s))) as (ok1, s1). destruct RF as (_ & RC1 & u1 & B1 & RR1 & N1). cbn [remote rcalib] in *.
    pose proof (b_pos _ _ _ B) as PB. assert (p + zl d = zl u) by lia.
    assert (SR2 : rest_of s u p = d ++ rest_of s1 u1 0). { rewrite SR. f_equal. rewrite <- RR1. rewrite skipn_all2 by lia. reflexivity. }
    destruct ok1.
    + destruct (IH s1 u1 0 (toRead - zl d) (n + zl d) (out ++ d)) as (ok & k & r & s' & u' & p' & EL & B2 & RC & RR & L & K1 & K2); try assumption; try lia.
      rewrite EL. exists ok, k, (d ++ r), s', u', p'. split; [rewrite <- app_assoc; reflexivity|]. split; [exact B2|]. split; [congruence|]. split; [rewrite SR2, RR, app_assoc; reflexivity|].
      rewrite app_length. split; [lia|]. split; [|lia]. intros H2. destruct (K1 H2). lia.
    + exists false, n, d, s1, u1, 0. split; [reflexivity|]. split; [exact B1|]. split; [exact RC1|]. split; [exact SR2|]. split; [lia|]. split; [discriminate|lia].
Qed.
(** what one call does *)
Definition gives (s : rs) (u : list Z) (p : Z) (o : rop) (a : rans) (s' : rs) (u' : list Z) (p' : Z) : Prop :=
  brep (rbuf s') u' p' /\ rcalib s' = rcalib s /\ rest_of s u p = r_bytes a ++ rest_of s' u' p' /\ 0 <= r_num a <= zl (r_bytes a) /\ zl (r_bytes a) <= asked o /\
  (r_ok a = true -> r_num a = zl (r_bytes a) /\ (0 < asked o -> 0 < r_num a) /\ (rcalib s = 0 -> r_num a = asked o)).
Lemma read_ok s u p n : brep (rbuf s) u p -> 0 <= n < 2 ^ 32 -> exists ok k d s' u' p', read s n = Some (ok, k, d, s') /\ gives s u p (RRead n) (RAns ok k d) s' u' p'.
Proof.
  intros B N. unfold read. destruct (bread _ _ _ n B (proj1 N)) as (b & ER & B' & M'). rewrite ER. destruct (split_rest u (coming (remote s)) p n (b_pos _ _ _ B) (proj1 N)) as (SR & LD).
  set (d := firstn (Z.to_nat n) (skipn (Z.to_nat p) u)) in *. fold (rest_of s u p) in SR. pose proof (b_pos _ _ _ B) as PB. pose proof (b_max _ _ _ B) as MX. unfold gives. cbn [asked r_bytes r_num r_ok]. cbn [rbuf rcalib].
  destruct (zl d =? n) eqn:ED; cbn [negb].
  - exists true, (zl d), d, (RS b (rcalib s) (remote s)), u, (p + zl d). split; [reflexivity|]. split; [exact B'|]. split; [reflexivity|]. split; [exact SR|]. repeat split; lia.
  - assert (p + zl d = zl u) by lia. destruct (uwrap 32 ((n - zl d) * rcalib s) <? maxu b) eqn:EC.
    + pose proof (refill_ok (RS b (rcalib s) (remote s)) u (p + zl d) B') as RF. destruct (refill (RS b (rcalib s) (remote s))) as (ok1, s1). destruct RF as (_ & RC1 & u1 & B1 & RR1 & N1). cbn [remote rcalib] in *.
      assert (SR2 : rest_of s u p = d ++ rest_of s1 u1 0). { rewrite SR. f_equal. rewrite <- RR1. rewrite skipn_all2 by lia. reflexivity. }
      destruct ok1.
      * destruct (read_loop_ok (Z.to_nat n + 2) s1 u1 0 (n - zl d) (zl d) d) as (ok & k & r & s' & u' & p' & EL & B2 & RC & RR & L & K1 & K2); try assumption; try lia.
        rewrite EL. exists ok, k, (d ++ r), s', u', p'. split; [reflexivity|]. split; [exact B2|]. split; [congruence|]. split; [rewrite SR2, RR, app_assoc; reflexivity|].
        rewrite app_length, Nat2Z.inj_add. split; [lia|]. split; [lia|]. intros H2. destruct (K1 H2) as (-> & ->). lia.
      * exists false, (zl d), d, s1, u1, 0. split; [reflexivity|]. split; [exact B1|]. split; [exact RC1|]. split; [exact SR2|]. split; [lia|]. split; [lia|]. discriminate.
    + cbn [remote]. pose proof (recv_ok (remote s) (n - zl d) ltac:(lia)) as RV. destruct (os_recv (remote s) (n - zl d)) as (e, r'). destruct e as [e|].
      * destruct RV as (Le & Re). eexists _, _, _, _, u, (p + zl d). split; [reflexivity|]. cbn [rbuf rcalib]. split; [exact B'|]. split; [reflexivity|].
        split. { rewrite SR. rewrite <- app_assoc. f_equal. unfold rest_of. cbn [remote]. rewrite skipn_all2 by lia. exact Re. }
        rewrite app_length, Nat2Z.inj_add. split; [lia|]. split; [lia|]. intros _. split; [lia|]. split; [lia|]. intros C0. rewrite C0, Z.mul_0_r in EC. unfold uwrap in EC. rewrite Z.mod_0_l in EC by discriminate. lia.
      * eexists _, _, _, _, u, (p + zl d). split; [reflexivity|]. cbn [rbuf rcalib]. split; [exact B'|]. split; [reflexivity|].
        split. { rewrite SR. f_equal. unfold rest_of. cbn [remote]. congruence. }
        split; [lia|]. split; [lia|]. discriminate.
Qed.
Lemma fetch_ok s u p : brep (rbuf s) u p -> p < zl u -> exists c, peek (cells (rbuf s)) (ptr (rbuf s)) 1 = Some [c] /\ rest_of s u p = c :: rest_of s u (p + 1) /\
  brep (IOB (cells (rbuf s)) (maxu (rbuf s)) (left (rbuf s) - 1) (fill (rbuf s)) (ptr (rbuf s) + 1)) u (p + 1).
Proof.
  intros B L. destruct B as [[R Ce] Sz Mx Po Us Le Fi Pt]. rewrite Ce, Pt. rewrite StrStream_Proofs.peek_ok by lia.
  destruct (split_rest u (coming (remote s)) p 1 Po ltac:(lia)) as (SR & LD). cbn zeta in SR, LD. set (d := firstn (Z.to_nat 1) (skipn (Z.to_nat p) u)) in *. destruct d as [|c [|? ?]]; cbn [length] in LD; try lia.
  exists c. split; [reflexivity|]. split; [exact SR|]. split; cbn [cells maxu left fill ptr]; try lia; [exists R; reflexivity|]. rewrite <- Ce. exact Sz.
Qed.
Lemma getc_ok s u p : brep (rbuf s) u p -> exists c s' u' p', getc s = Some (c, s') /\ gives s u p RGetC (match c with Some c => RAns true 1 [c] | None => RAns false 0 [] end) s' u' p'.
Proof.
  intros B. unfold getc. destruct (bnum _ _ _ B) as (_ & _ & UL). rewrite UL. pose proof (b_pos _ _ _ B) as PB. destruct (zl u - p <=? 0) eqn:E.
  - pose proof (refill_ok s u p B) as RF. destruct (refill s) as (ok1, s1). destruct RF as (_ & RC1 & u1 & B1 & RR1 & N1). destruct (bnum _ _ _ B1) as (_ & _ & UL1). rewrite UL1.
    assert (SR : rest_of s u p = rest_of s1 u1 0). { rewrite <- RR1. unfold rest_of. rewrite skipn_all2 by lia. reflexivity. }
    destruct ok1; cbn [andb].
    + specialize (N1 eq_refl). replace (zl u1 - 0 =? 0) with false by lia. cbn [negb]. destruct (fetch_ok s1 u1 0 B1 N1) as (c & -> & R2 & B2).
      eexists (Some c), _, u1, 1. split; [reflexivity|]. split; [exact B2|]. split; [exact RC1|]. split; [rewrite SR, R2; reflexivity|]. cbn. repeat split; lia.
    + eexists None, s1, u1, 0. split; [reflexivity|]. split; [exact B1|]. split; [exact RC1|]. split; [exact SR|]. cbn. split; [lia|]. split; [lia|discriminate].
  - destruct (fetch_ok s u p B ltac:(lia)) as (c & -> & R2 & B2). eexists (Some c), _, u, (p + 1). split; [reflexivity|]. split; [exact B2|]. split; [reflexivity|]. split; [rewrite R2; reflexivity|]. cbn. repeat split; lia.
Qed.
Lemma rstep_ok s u p o : brep (rbuf s) u p -> read_call o -> exists a s' u' p', rstep s o = Some (a, s') /\ gives s u p o a s' u' p'.
Proof.
  intros B C. destruct o as [n|]; cbn [rstep].
  - destruct (read_ok s u p n B C) as (ok & k & d & s' & u' & p' & -> & G). exists (RAns ok k d), s', u', p'. auto.
  - destruct (getc_ok s u p B) as (c & s' & u' & p' & -> & G). destruct c as [c|]; eexists _, s', u', p'; (split; [reflexivity|exact G]).
Qed.
Definition answer (calib : Z) (o : rop) (a : rans) : Prop :=
  0 <= r_num a <= zl (r_bytes a) /\ zl (r_bytes a) <= asked o /\ (r_ok a = true -> r_num a = zl (r_bytes a) /\ (0 < asked o -> 0 < r_num a) /\ (calib = 0 -> r_num a = asked o)).
Lemma rrun_ok : forall ops s u p, brep (rbuf s) u p -> Forall read_call ops -> exists l s' rest, rrun s ops = Some (l, s') /\ Forall2 (answer (rcalib s)) ops l /\ rest_of s u p = stored l ++ rest.
Proof.
  induction ops as [|o ops IH]; intros s u p B C.
  - exists [], s, (rest_of s u p). split; [reflexivity|]. split; [constructor|reflexivity].
  - cbn [rrun]. destruct (rstep_ok s u p o B (Forall_inv C)) as (a & s1 & u1 & p1 & -> & (B1 & RC & R1 & G)). destruct (IH s1 u1 p1 B1 (Forall_inv_tail C)) as (l & s' & rest & -> & F & R2).
    exists (a :: l), s', rest. split; [reflexivity|]. split; [constructor; [exact G|rewrite <- RC; exact F]|]. cbn [stored flat_map]. rewrite R1, R2, app_assoc. reflexivity.
Qed.
