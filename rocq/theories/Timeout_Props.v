(** C15: timeouts. *)
From Verif Require Import Base Timeout_Model Timeout_Spec.

Definition range (t : timeout) : Prop := 0 <= usec t < 2 ^ 64.
(** The millisecond view agrees with the microseconds, saturating at 32 bits. *)
Definition coherent (t : timeout) : Prop := msec t = Z.min (usec t / 1000) 4294967295.

Lemma div1000 u : 0 <= u < 2 ^ 64 -> (if u / 1000 >? 4294967295 then 4294967295 else uwrap 32 (u / 1000)) = Z.min (u / 1000) 4294967295.
Proof.
  intros H. pose proof (Z.div_pos u 1000 ltac:(lia) ltac:(lia)). generalize dependent (u / 1000). intros q Hq.
  destruct (q >? 4294967295) eqn:E; [lia|]. rewrite uwrap_id by lia. lia.
Qed.

Lemma built_usec t u : built t u -> usec t = u /\ range t /\ coherent t.
Proof.
  unfold range, coherent. intros [m H|m H|w H].
  - unfold tt_of_int32. destruct (m <? 0) eqn:E; cbn [usec msec].
    + replace (Z.max 0 m) with 0 by lia. cbn. lia.
    + rewrite (uwrap_id 32 m) by lia. rewrite uwrap_id by lia. replace (Z.max 0 m) with m by lia.
      split; [auto|]. split; [lia|]. rewrite Z.div_mul by lia. lia.
  - unfold tt_of_uint32; cbn [usec msec]. rewrite uwrap_id by lia. split; [auto|]. split; [lia|]. rewrite Z.div_mul by lia. lia.
  - unfold tt_of_uint64; cbn [usec msec]. split; [auto|]. split; [lia|]. apply div1000. auto.
Qed.

Lemma sub_usec t e : range t -> elapsed_ok e -> usec (tt_sub t e) = remaining (usec t) (us_of e) /\ range (tt_sub t e).
Proof.
  unfold range, remaining. intros R E. destruct e as [m|u]; cbn [tt_sub us_of elapsed_ok] in *.
  - unfold tt_sub_ms. rewrite (uwrap_id 64 (m * 1000)) by lia. destruct (_ >? _) eqn:C; cbn [usec]; [rewrite uwrap_id by lia|]; lia.
  - unfold tt_sub_us. destruct (_ >? _) eqn:C; cbn [usec]; [rewrite uwrap_id by lia|]; lia.
Qed.

Lemma us_nonneg e : elapsed_ok e -> 0 <= us_of e.
Proof. destruct e; cbn; lia. Qed.
Lemma total_nonneg es : Forall elapsed_ok es -> 0 <= total es.
Proof. induction 1; cbn [total fold_right]; [lia|]. fold (total l). pose proof (us_nonneg x H). lia. Qed.

(** Subtracting any sequence of elapsed times leaves the remaining time or zero; it never wraps. *)
Theorem C15_remaining_or_zero t u es : built t u -> Forall elapsed_ok es ->
  usec (tt_run t es) = remaining u (total es).
Proof.
  intros B E. destruct (built_usec t u B) as (<- & R & _). clear B. revert t R. induction E as [|e es He E IH]; intros t R; cbn [tt_run fold_left].
  - unfold remaining. cbn. unfold range in R. lia.
  - destruct (sub_usec t e R He) as [U R']. fold (tt_run (tt_sub t e) es). rewrite IH by auto. rewrite U. unfold remaining.
    cbn [total fold_right]. fold (total es). pose proof (total_nonneg es E). pose proof (us_nonneg e He). lia.
Qed.

(** The millisecond view stays right when the timeout was given in milliseconds, or when only microseconds are subtracted. *)
Theorem C15_milliseconds t u es : built t u -> Forall elapsed_ok es ->
  (u / 1000 <= 4294967295 \/ Forall (fun e => exists x, e = Eus x) es) ->
  msec (tt_run t es) = Z.min (remaining u (total es) / 1000) 4294967295.
Proof.
  intros B E C. rewrite <- (C15_remaining_or_zero t u es B E). destruct (built_usec t u B) as (HU & R & CO). change (coherent (tt_run t es)).
  assert (C' : usec t / 1000 <= 4294967295 \/ Forall (fun e => exists x, e = Eus x) es) by (rewrite HU; auto). clear B HU C u.
  revert t R CO C'. induction E as [|e es He E IH]; intros t R CO C; cbn [tt_run fold_left]; [auto|].
  destruct (sub_usec t e R He) as [U R']. fold (tt_run (tt_sub t e) es). apply IH; auto.
  - unfold coherent. destruct e as [m|x]; cbn [tt_sub elapsed_ok] in *.
    + destruct C as [C|C]; [|inversion C as [|? ? [y Hy]]; discriminate].
      unfold range in *. unfold tt_sub_ms. rewrite (uwrap_id 64 (m * 1000)) by lia. destruct (_ >? _) eqn:G; cbn [msec usec]; [|reflexivity].
      rewrite (uwrap_id 64) by lia. assert ((usec t - m * 1000) / 1000 <= usec t / 1000) by (apply Z.div_le_mono; lia).
      pose proof (Z.div_pos (usec t - m * 1000) 1000 ltac:(lia) ltac:(lia)). rewrite uwrap_id by lia. lia.
    + unfold range in *. unfold tt_sub_us. destruct (_ >? _) eqn:G; cbn [msec usec]; [|reflexivity].
      rewrite (uwrap_id 64) by lia. apply div1000. lia.
  - destruct C as [C|C]; [left|right; inversion C; auto]. rewrite U. unfold remaining. pose proof (us_nonneg e He). unfold range in *.
    assert (Z.max 0 (usec t - us_of e) / 1000 <= usec t / 1000) by (apply Z.div_le_mono; lia). lia.
Qed.

(** Under the same condition a finite timeout stays finite. *)
Theorem C15_finite_stays_finite t u es : built t u -> Forall elapsed_ok es ->
  (u / 1000 <= 4294967295 \/ Forall (fun e => exists x, e = Eus x) es) ->
  tt_finite t = true -> tt_finite (tt_run t es) = true.
Proof.
  intros B E C F. unfold tt_finite in *. rewrite (C15_milliseconds t u es B E C).
  destruct (built_usec t u B) as (HU & R & CO). unfold coherent in CO. rewrite HU in CO.
  pose proof (total_nonneg es E). unfold range in R.
  assert (remaining u (total es) / 1000 <= u / 1000) by (apply Z.div_le_mono; unfold remaining; lia). lia.
Qed.

(** "Never turns an infinite timeout into a finite one" is false: TTInfiniteWait is the number 4294967295 ms. *)
Theorem C15_infinite_stays_infinite_refuted :
  ~ (forall e, elapsed_ok e -> tt_finite (tt_sub TTInfiniteWait e) = false).
Proof. intros H. specialize (H (Ems 2) ltac:(cbn; lia)). vm_compute in H. discriminate. Qed.
(** It stays infinite exactly while less than 1001 microseconds have been subtracted in total. *)
Theorem C15_infinite_lasts es : Forall elapsed_ok es ->
  (tt_finite (tt_run TTInfiniteWait es) = false <-> total es <= 1000).
Proof.
  intros E. unfold tt_finite, TTInfiniteWait. pose proof (total_nonneg es E).
  rewrite (C15_milliseconds _ _ es (BUint32 4294967295 ltac:(lia)) E) by (left; vm_compute; discriminate).
  unfold remaining. rewrite Z.ltb_ge. change (4294967295 * 1000) with 4294967295000.
  assert (D : forall z, 4294967294 <= z / 1000 <-> 4294967294000 <= z).
  { intros z. split; intros Hz; [pose proof (Z.mul_div_le z 1000 ltac:(lia)); lia|apply Z.div_le_lower_bound; lia]. }
  specialize (D (Z.max 0 (4294967295000 - total es))). lia.
Qed.
(** The millisecond view is wrong after subtracting milliseconds from a long microsecond timeout: the
    64-bit infinite timeout becomes finite after one millisecond, and infinite again after a microsecond. *)
Theorem C15_milliseconds_general_refuted :
  ~ (forall t u es, built t u -> Forall elapsed_ok es -> msec (tt_run t es) = Z.min (remaining u (total es) / 1000) 4294967295).
Proof.
  intros H. specialize (H _ _ [Ems 1] (BUint64 18446744073709551615 ltac:(lia)) ltac:(repeat constructor; cbn; lia)). vm_compute in H. discriminate.
Qed.
Theorem C15_finite_stays_finite_general_refuted :
  ~ (forall t es es', Forall elapsed_ok es -> Forall elapsed_ok es' -> (exists u, built t u) ->
     tt_finite (tt_run t es) = true -> tt_finite (tt_run t (es ++ es')) = true).
Proof.
  intros H. specialize (H TTInfiniteWait64 [Ems 1] [Eus 1]).
  specialize (H ltac:(repeat constructor; cbn; lia) ltac:(repeat constructor; cbn; lia) (ex_intro _ _ (BUint64 18446744073709551615 ltac:(lia))) ltac:(vm_compute; reflexivity)).
  vm_compute in H. discriminate.
Qed.
(** The two infinite constants compare different. *)
Theorem C15_infinite_constants_equal_refuted : tt_eq TTInfiniteWait TTInfiniteWait64 <> true.
Proof. vm_compute. discriminate. Qed.

Example C15_nonvacuous : built (tt_of_uint32 100) 100000 /\ Forall elapsed_ok [Ems 30; Eus 500; Ems 20] /\
  total [Ems 30; Eus 500; Ems 20] = 50500 /\ msec (tt_run (tt_of_uint32 100) [Ems 30; Eus 500; Ems 20]) = 49 /\
  usec (tt_run (tt_of_uint32 100) [Ems 30; Eus 500; Ems 80]) = 0.
Proof. split; [apply (BUint32 100); lia|]. split; [repeat constructor; cbn; lia|]. vm_compute. auto. Qed.

Print Assumptions C15_remaining_or_zero.
Print Assumptions C15_milliseconds.
Print Assumptions C15_finite_stays_finite.
Print Assumptions C15_infinite_stays_infinite_refuted.
Print Assumptions C15_infinite_lasts.
Print Assumptions C15_milliseconds_general_refuted.
Print Assumptions C15_finite_stays_finite_general_refuted.
Print Assumptions C15_infinite_constants_equal_refuted.
