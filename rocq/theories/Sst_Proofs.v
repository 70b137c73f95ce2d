From Verif Require Import Base StaticList_Model StaticList_Spec StaticList_Proofs Sst_Model Sst_Spec.

Lemma rev_nth_top (st : list (list Z)) p : (p < length st)%nat -> nth (length st - p - 1) (rev st) [] = nth p st [].
Proof.
  intros H. rewrite rev_nth by lia. f_equal. lia.
Qed.
Lemma remove_last {A} (l : list A) v : remove_at (length l) (l ++ [v]) = l.
Proof. unfold remove_at. rewrite firstn_app, Nat.sub_diag, firstn_all, skipn_all2 by (rewrite app_length; cbn; lia). cbn. rewrite !app_nil_r. reflexivity. Qed.

Lemma run_ok' e g : sizes_ok e g -> forall ops s st cap n, Rep e g s (rev st) cap ->
  (2 <= e \/ n + Z.of_nat (length ops) + 2 * g < 2 ^ 32) -> Z.of_nat (length st) <= n -> cap <= n + g ->
  Forall (Sst_Spec.good e) ops -> Sst_Spec.code_run s ops = Some (ideal_run e g st cap ops).
Proof.
  intros OK ops. induction ops as [|o ops IH]; intros s st cap n R HW Hn Hc G; [reflexivity|].
  pose proof (Forall_inv G) as Go. apply Forall_inv_tail in G. cbn [length] in HW.
  pose proof (rep_size _ _ _ _ _ R) as RS. pose proof (rep_le _ _ _ _ _ R) as RL. pose proof (rep_max _ _ _ _ _ R) as RM. rewrite rev_length in RS, RL.
  pose proof (len_fit e g cap (Z.of_nat (length st)) OK ltac:(lia) RM) as HF. destruct OK as (He & Hg & HX). assert (OK : sizes_ok e g) by (repeat split; assumption).
  destruct o as [v a| |p| |]; cbn [Sst_Spec.code_run Sst_Spec.code_step ideal_run Sst_Spec.good] in *.
  - destruct (add_ok e g s (rev st) cap v a OK R) as (s' & E & R'); [destruct HW; [left; assumption|right; lia]|exact Go|].
    cbn [StaticList_Spec.code_step seq_step] in E, R'. unfold grow, max_elements in E, R'. rewrite rev_length in E, R'. unfold push.
    destruct (sl_add s (Some v) a) as [(b, s1)|]; [|discriminate].
    destruct (Z.of_nat (length st) <? cap) eqn:E1.
    + cbn [fst snd] in E, R'. injection E as -> ->. change (rev st ++ [v]) with (rev (v :: st)) in R'.
      rewrite (IH s' (v :: st) cap (n + 1) R'); [reflexivity|destruct HW; [left; assumption|right; lia]|cbn [length]; lia|lia|exact G].
    + destruct a as [f|]; [|rewrite andb_false_r in E, R'].
      * rewrite andb_true_r in E, R'. destruct (cap + g <=? g * ((2 ^ 32 - 1) / (g * e))) eqn:E2; cbn [fst snd] in E, R'; injection E as -> ->.
        -- change (rev st ++ [v]) with (rev (v :: st)) in R'.
           rewrite (IH s' (v :: st) (cap + g) (n + 1) R'); [reflexivity|destruct HW; [left; assumption|right; lia]|cbn [length]; lia|lia|exact G].
        -- rewrite (IH s' st cap n R'); [reflexivity|destruct HW; [left; assumption|right; lia]|lia|lia|exact G].
      * cbn [fst snd] in E, R'. injection E as -> ->. rewrite (IH s' st cap n R'); [reflexivity|destruct HW; [left; assumption|right; lia]|lia|lia|exact G].
  - unfold pop. rewrite RS. unfold sl_extract. rewrite RS. destruct st as [|v st].
    + cbn [length]. change (uwrap 32 (Z.of_nat 0 - 1) >=? Z.of_nat 0) with true. cbn iota.
      rewrite (IH s [] cap n R); [reflexivity|destruct HW; [left; assumption|right; lia]|exact Hn|lia|exact G].
    + cbn [length] in *. rewrite uwrap_id by lia. replace (Z.of_nat (S (length st)) - 1 >=? Z.of_nat (S (length st))) with false by lia.
      assert (B : 0 <= Z.of_nat (S (length st)) - 1 < Z.of_nat (length (rev (v :: st)))) by (rewrite rev_length; cbn [length]; lia).
      rewrite (read_ok e g s _ cap _ OK R B). destruct (close_gap_ok e g s _ cap _ OK R B) as (s' & E & R'). rewrite E.
      replace (Z.to_nat (Z.of_nat (S (length st)) - 1)) with (length (rev st)) in * by (rewrite rev_length; lia).
      cbn [rev] in *. rewrite remove_last in R'. rewrite app_nth2, Nat.sub_diag by lia. cbn [nth].
      rewrite (IH s' st cap n R'); [reflexivity|destruct HW; [left; assumption|right; lia]|lia|lia|exact G].
  - unfold peek. rewrite RS. unfold sl_peek. rewrite RS.
    assert (U : uwrap 32 (uwrap 32 (Z.of_nat (length st) - p) - 1) = if p <? Z.of_nat (length st) then Z.of_nat (length st) - p - 1 else 2 ^ 32 + Z.of_nat (length st) - p - 1).
    { unfold uwrap. rewrite Zminus_mod_idemp_l. destruct (Z.ltb_spec p (Z.of_nat (length st))).
      - apply Z.mod_small. lia.
      - replace (Z.of_nat (length st) - p - 1) with (2 ^ 32 + Z.of_nat (length st) - p - 1 + (-1) * 2 ^ 32) by lia. rewrite Z.mod_add by lia. apply Z.mod_small. lia. }
    rewrite U. destruct (Z.ltb_spec p (Z.of_nat (length st))).
    + replace (Z.of_nat (length st) - p - 1 >=? Z.of_nat (length st)) with false by lia.
      rewrite (read_ok e g s _ cap (Z.of_nat (length st) - p - 1) OK R) by (rewrite rev_length; lia).
      replace (Z.to_nat (Z.of_nat (length st) - p - 1)) with (length st - Z.to_nat p - 1)%nat by lia. rewrite rev_nth_top by lia.
      rewrite (nth_error_nth' st [] (n := Z.to_nat p)) by lia.
      rewrite (IH s st cap n R); [reflexivity|destruct HW; [left; assumption|right; lia]|lia|lia|exact G].
    + replace (2 ^ 32 + Z.of_nat (length st) - p - 1 >=? Z.of_nat (length st)) with true by lia.
      destruct (nth_error st (Z.to_nat p)) eqn:N; [assert (X : nth_error st (Z.to_nat p) <> None) by congruence; apply nth_error_Some in X; lia|].
      rewrite (IH s st cap n R); [reflexivity|destruct HW; [left; assumption|right; lia]|lia|lia|exact G].
  - unfold get_size. rewrite RS. rewrite (IH s st cap n R); [reflexivity|destruct HW; [left; assumption|right; lia]|lia|lia|exact G].
  - destruct (step_ok e g s (rev st) cap OClean OK R) as (s' & E & R'); [destruct HW; [left; assumption|right; lia]|exact I|].
    cbn in E. injection E as <-. cbn [seq_step fst snd] in R'. unfold clean.
    rewrite (IH (sl_clean s) [] cap n R'); [reflexivity|destruct HW; [left; assumption|right; lia]|cbn; lia|lia|exact G].
Qed.
