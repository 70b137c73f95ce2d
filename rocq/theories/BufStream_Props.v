(** C18: a single-buffer buffered stream is transparent. *)
From Verif Require Import Base Token_Model Token_Spec Token_Props StrStream_Model BufStream_Model BufStream_Spec BufStream_Proofs.

(** Every usable history gives the answers of the device and, after a flush, leaves the device as the direct
    operations would: for all device contents, positions, buffer sizes and sequences of operations. *)
Theorem C18_transparent_partial d ops : 0 <= off d <= os_size d -> os_size d + total_written ops < 2 ^ 62 ->
  usable d 32 false false ops ->
  exists answers s s', brun (sbs_new d) ops = Some (answers, s) /\ dhist d ops answers /\
    flush s = Some s' /\ device s' = dfinal d ops.
Proof.
  intros H B U. assert (TW : 0 <= total_written ops) by (clear; unfold total_written; induction ops as [|[] ops IH]; cbn [fold_right written]; lia).
  assert (D : dok d) by (split; auto; lia).
  pose proof (inv_clean (sbs_new d) d (new_buf 32) eq_refl D (bnew 32 ltac:(lia)) 32 eq_refl) as I.
  destruct (run_ok ops _ _ _ _ _ I U B) as (answers & s & size & w & big & E & A & I').
  destruct (flush_ok _ _ _ _ _ I') as (s' & F & _ & DV & _). exists answers, s, s'. auto.
Qed.

(** The three restrictions are needed: each of the following statements is false of the code. *)
(** A Read that reaches the end reports failure and loses count of bytes it has delivered. *)
Theorem C18_read_at_end_refuted :
  ~ (forall d n, 0 <= off d <= os_size d -> os_size d < 2 ^ 62 -> 0 <= n < 2 ^ 32 ->
     exists s, sbs_read (sbs_new d) n = Some (true, Z.of_nat (length (fst (os_read d n))), fst (os_read d n), s)).
Proof.
  intros H. destruct (H (Dev [1; 2; 3; 4; 5] 0) 6) as (s & E); [vm_compute; split; discriminate|vm_compute; reflexivity|lia|].
  vm_compute in E. discriminate.
Qed.
(** After a large Read a Seek back into the last bytes returns data from another place. *)
Definition ramp (n : nat) : list Z := map Z.of_nat (seq 0 n).
Theorem C18_seek_after_large_read_refuted :
  ~ (forall d n m p k, 0 <= p <= os_size d -> os_size d < 2 ^ 62 -> 0 <= n < 2 ^ 32 -> 0 <= m < 2 ^ 32 -> 0 <= k < 2 ^ 32 -> p + k <= os_size d -> n + m <= os_size d -> off d = 0 ->
     exists a s, brun (sbs_new d) [BRead n; BRead m; BSeek p; BRead k] = Some (a, s) /\ dhist d [BRead n; BRead m; BSeek p; BRead k] a).
Proof.
  intros H. destruct (H (Dev (ramp 100) 0) 4 60 40 1) as (a & s & E & A); try (vm_compute; split; congruence); try (vm_compute; congruence).
  vm_compute in E. injection E as <- <-. vm_compute in A. destruct A as (_ & _ & _ & (A & _) & _). discriminate.
Qed.
(** RelativeSeek in read mode beyond the buffer goes to the wrong place. *)
Theorem C18_relative_seek_refuted :
  ~ (forall d n k, 0 <= n < 2 ^ 32 -> n <= os_size d -> os_size d < 2 ^ 62 -> off d = 0 -> 0 <= n + k <= os_size d ->
     exists a s, brun (sbs_new d) [BRead n; BRel k; BPos] = Some (a, s) /\ dhist d [BRead n; BRel k; BPos] a).
Proof.
  intros H. destruct (H (Dev (ramp 200) 0) 4 40) as (a & s & E & A); try (vm_compute; split; congruence); try (vm_compute; congruence).
  vm_compute in E. injection E as <- <-. vm_compute in A. destruct A as (_ & _ & A & _). discriminate.
Qed.
Theorem C18_relative_seek_back_refuted :
  ~ (forall d n k, 0 <= n < 2 ^ 32 -> n <= os_size d -> os_size d < 2 ^ 62 -> off d = 0 -> 0 <= n + k <= os_size d ->
     exists a s, brun (sbs_new d) [BRead n; BRel k; BRead 1] = Some (a, s) /\ dhist d [BRead n; BRel k; BRead 1] a).
Proof.
  intros H. destruct (H (Dev (ramp 200) 0) 6 (-1)) as (a & s & E & A); try (vm_compute; split; congruence); try (vm_compute; congruence).
  vm_compute in E. injection E as <- <-. vm_compute in A. destruct A as (_ & _ & (A & _) & _). discriminate.
Qed.
(** Further back than the buffer reaches it also goes to the wrong place (the gap is subtracted where it should be added). *)
Theorem C18_relative_seek_far_back_refuted :
  ~ (forall d n m k, 0 <= n < 2 ^ 32 -> 0 <= m < 2 ^ 32 -> n + m <= os_size d -> os_size d < 2 ^ 62 -> off d = 0 -> 0 <= n + m + k <= os_size d -> k < - (n + m) / 2 ->
     exists a s, brun (sbs_new d) [BRead n; BRead m; BRel k; BPos] = Some (a, s) /\ dhist d [BRead n; BRead m; BRel k; BPos] a).
Proof.
  intros H. destruct (H (Dev (ramp 200) 0) 60 4 (-50)) as (a & s & E & A); try (vm_compute; split; congruence); try (vm_compute; congruence).
  vm_compute in E. injection E as <- <-. vm_compute in A. destruct A as (_ & _ & _ & A & _). discriminate.
Qed.

(** Character access: the stream is a source and a sink for GetToken and SkipTokens (C17). *)
Theorem C18_stream_is_source size : source sbs_getc (fun s l => exists A u C p, rsync s size A u C p /\ l = skipn (Z.to_nat p) u ++ C).
Proof.
  assert (FE : forall s A u C p, rsync s size A u C p -> p < Z.of_nat (length u) ->
    exists c l b', skipn (Z.to_nat p) u = c :: l /\
      match peek (cells (buf s)) (ptr (buf s)) 1 with
      | Some [c] => let b := buf s in Some (Some c, SBS (device s) (IOB (cells b) (maxu b) (left b - 1) (fill b) (ptr b + 1)) (wmode s))
      | _ => None
      end = Some (Some c, b') /\ rsync b' size A u C (p + 1) /\ skipn (Z.to_nat (p + 1)) u = l).
  { intros s A u C p (M & W & E & O & B) H. pose proof B as [[Rr Ce] Sz Mx Po Us Le Fi Pt].
    destruct (skipn (Z.to_nat p) u) as [|c l] eqn:ES.
    { pose proof (skipn_length (Z.to_nat p) u) as SL. rewrite ES in SL. cbn in SL. lia. }
    exists c, l. eexists. split; [reflexivity|]. rewrite Pt, Ce, StrStream_Proofs.peek_ok, ES by lia. change (Z.to_nat 1) with 1%nat. cbn [firstn].
    split; [reflexivity|]. split.
    - sp; cbn [device buf wmode maxu]; auto. split; cbn [cells maxu left fill ptr]; rewrite <- ?Ce; try lia. exists Rr. auto.
    - replace (Z.to_nat (p + 1)) with (1 + Z.to_nat p)%nat by lia. exact (skipn_next _ _ c l ES). }
  split.
  - intros s (A & u & C & p & RS & E). pose proof RS as (M & W & ED & O & B). symmetry in E. apply app_eq_nil in E. destruct E as [E1 E2]. subst C.
    pose proof (b_pos _ _ _ B) as BP. pose proof (skipn_length (Z.to_nat p) u) as SL. rewrite E1 in SL. cbn in SL.
    destruct (bnum _ _ _ B) as (_ & _ & UL). unfold sbs_getc. rewrite UL. replace (_ <=? 0) with true by lia.
    destruct (refill_ok s size (A ++ u) [] u p M W B) as (s2 & -> & M2 & W2 & E2 & O2 & B2); [rewrite ED, <- app_assoc; auto|rewrite app_length; lia|].
    cbn [length Z.of_nat Z.gtb Z.compare andb]. eexists. split; [reflexivity|].
    rewrite firstn_nil in *. exists (A ++ u), [], [], 0. split; [|reflexivity]. sp; auto. 
  - intros s c l (A & u & C & p & RS & E). pose proof RS as (M & W & ED & O & B). pose proof (b_pos _ _ _ B) as BP.
    destruct (bnum _ _ _ B) as (_ & _ & UL). unfold sbs_getc. rewrite UL.
    destruct (Z.of_nat (length u) - p <=? 0) eqn:EL.
    + rewrite skipn_all2 in E by lia. cbn [app] in E. subst C.
      destruct (refill_ok s size (A ++ u) (c :: l) u p M W B) as (s2 & -> & M2 & W2 & E2 & O2 & B2); [rewrite ED, <- app_assoc; auto|rewrite app_length; lia|].
      pose proof (b_max _ _ _ B) as MX. rewrite M in MX. set (u2 := firstn (Z.to_nat size) (c :: l)) in *.
      assert (L2 : 0 < Z.of_nat (length u2)) by (unfold u2; rewrite firstn_length; cbn [length]; lia).
      destruct (bnum _ _ _ B2) as (_ & _ & UL2). rewrite UL2. replace (Z.of_nat (length (c :: l)) >? 0) with true by (cbn [length]; lia).
      replace (Z.of_nat (length u2) - 0 =? 0) with false by lia. cbn [andb negb].
      assert (RS2 : rsync s2 size (A ++ u) u2 (skipn (Z.to_nat size) (c :: l)) 0).
      { sp; auto. unfold u2. rewrite firstn_skipn. auto. }
      destruct (FE _ _ _ _ _ RS2 ltac:(lia)) as (c' & l' & s3 & ES & EF & RS3 & EN). cbn [Z.to_nat skipn] in ES.
      assert (X : c :: l = c' :: l' ++ skipn (Z.to_nat size) (c :: l)) by (rewrite app_comm_cons, <- ES; unfold u2; rewrite firstn_skipn; auto).
      injection X as -> X. exists s3. split; [exact EF|]. exists (A ++ u), u2, (skipn (Z.to_nat size) (c' :: l)), (0 + 1). split; auto. rewrite EN. auto.
    + destruct (FE _ _ _ _ _ RS ltac:(lia)) as (c' & l' & s3 & ES & EF & RS3 & EN). rewrite ES in E. injection E as -> ->.
      exists s3. split; [exact EF|]. exists A, u, C, (p + 1). split; auto. rewrite EN. auto.
Qed.
Theorem C18_stream_is_sink d size cap : os_size d + Z.of_nat cap < 2 ^ 62 -> sink sbs_putc (fun s o => inv s (os_write d o) size true false /\ dok d) cap.
Proof.
  intros HB s o c [I D] L. unfold sbs_putc. pose proof I as (M & W & D1 & D' & u & B & E).
  assert (F : exists s2 u2, (if left (buf s) <=? 0 then flush s else Some s) = Some s2 /\ maxu (buf s2) = size /\ wmode s2 = true /\ dok (device s2) /\
    brep (buf s2) u2 (Z.of_nat (length u2)) /\ os_write d o = os_write (device s2) u2 /\ Z.of_nat (length u2) < size).
  { pose proof (b_left _ _ _ B) as BL. pose proof (b_max _ _ _ B) as MX. destruct (left (buf s) <=? 0) eqn:EL.
    - destruct (flush_ok _ _ _ _ _ I) as (s2 & -> & (M2 & W2 & _ & D2 & _) & E2 & B2). exists s2, []. cbn [length]. sp; auto; try lia. rewrite E2, os_write_nil; auto.
    - exists s, u. sp; auto. lia. }
  destruct F as (s2 & u2 & -> & M2 & W2 & D2 & B2 & E2 & L2).
  destruct (bwrite _ _ [c] B2) as (b' & EW & B3 & M3). rewrite M2 in *. cbn [length] in *. replace (Z.min (Z.of_nat 1) (size - Z.of_nat (length u2))) with 1 in * by lia.
  unfold io_write in EW. pose proof (b_left _ _ _ B2) as BL. replace (left (buf s2) =? 0) with false by lia. cbn [length] in EW.
  replace (Z.of_nat 1 >? left (buf s2)) with false in EW by lia. change (Z.of_nat 1 >? 0) with true in EW. cbn iota in EW. change (Z.to_nat (Z.of_nat 1)) with 1%nat in *. change (Z.to_nat 1) with 1%nat in *. cbn [firstn] in *.
  destruct (poke _ _ [c]) as [m|]; [|discriminate]. injection EW as <-. eexists. split; [reflexivity|]. split; [|exact D].
  pose proof (dok_write d o D ltac:(lia)) as DW. destruct (os_write_size d o D) as [S1 S2]. pose proof (dok_write d (o ++ [c]) D ltac:(rewrite app_length; cbn [length]; lia)) as DW2.
  sp; cbn [device buf wmode maxu]; auto. exists (u2 ++ [c]). split.
  - rewrite app_length, Nat2Z.inj_add. cbn [length]. rewrite <- M2. exact B3.
  - rewrite <- os_write_app, E2, os_write_app by auto. reflexivity.
Qed.

(** Non-vacuity: reads and writes mixed, small and large, across the buffer size, with seeks, in a file of 200 bytes. *)
Definition c18_ops := [BRead 4; BRead 60; BSeek 10; BRead 7; BSeek 12; BWrite (ramp 5); BRel (-3); BWrite (ramp 50); BRead 3; BPos; BSize; BSetBuf 9;
  BRead 2; BSeek 190; BRead 30; BWrite (ramp 2); BFlush].
Example C18_nonvacuous_usable : usable (Dev (ramp 200) 0) 32 false false c18_ops.
Proof. vm_compute. repeat (split || (left; reflexivity) || (intros; congruence)). Qed.
Example C18_nonvacuous_run : match brun (sbs_new (Dev (ramp 200) 0)) c18_ops with
  | Some (a, s) => map b_num a = [4; 60; 0; 7; 0; 5; 0; 50; 3; 67; 200; 0; 2; 0; 10; 2; 0] /\ length (data (device s)) = 202%nat
  | None => False end.
Proof. vm_compute. auto. Qed.

Print Assumptions C18_transparent_partial.
Print Assumptions C18_read_at_end_refuted.
Print Assumptions C18_seek_after_large_read_refuted.
Print Assumptions C18_relative_seek_refuted.
Print Assumptions C18_relative_seek_back_refuted.
Print Assumptions C18_relative_seek_far_back_refuted.
Print Assumptions C18_stream_is_source.
Print Assumptions C18_stream_is_sink.
