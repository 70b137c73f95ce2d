From Verif Require Import Base StaticList_Model StaticList_Spec StaticList_Proofs Csl_Model Csl_Spec.
From Coq Require Import Arith.

Definition Inv (e : Z) (n : nat) (c : clist) (ever : list (list Z)) : Prop :=
  exists l cap, Rep e 10 (cl_list c) l cap /\ length l = n /\ (n <= length ever)%nat /\ cl_index c = Z.of_nat (length ever mod n) /\
    forall j, (length ever - n <= j < length ever)%nat -> nth (j mod n) l [] = nth j ever [].

Lemma set_at_len {A} i (v : A) l : (i < length l)%nat -> length (set_at i v l) = length l.
Proof. intros H. unfold set_at. rewrite app_length, firstn_length. cbn [length]. rewrite skipn_length. lia. Qed.
Lemma nth_set_same {A} i (v d : A) l : (i < length l)%nat -> nth i (set_at i v l) d = v.
Proof. intros H. unfold set_at. rewrite app_nth2; rewrite firstn_length; [|lia]. replace (i - _)%nat with 0%nat by lia. reflexivity. Qed.
Lemma nth_set_other {A} i j (v d : A) l : (i < length l)%nat -> j <> i -> nth j (set_at i v l) d = nth j l d.
Proof.
  revert i j. induction l as [|x l IH]; intros [|i] [|j] H Hn; cbn [length] in H; try lia; try reflexivity.
  change (nth j (set_at i v l) d = nth j l d). apply IH; lia.
Qed.

Lemma mod_next k n : (0 < n)%nat -> (S k mod n = if S (k mod n) =? n then 0 else S (k mod n))%nat.
Proof.
  intros Hn. pose proof (Nat.mod_upper_bound k n ltac:(lia)) as Hb. pose proof (Nat.div_mod k n ltac:(lia)) as Hd.
  destruct (Nat.eqb_spec (S (k mod n)) n) as [E|E].
  - symmetry. apply Nat.mod_unique with (q := S (k / n)); nia.
  - symmetry. apply Nat.mod_unique with (q := (k / n)%nat); nia.
Qed.
Lemma mod_window j k n : (0 < n)%nat -> (k - n < j < k)%nat -> (n <= k)%nat -> (j mod n <> k mod n)%nat.
Proof.
  intros Hn Hj Hk E. pose proof (Nat.div_mod j n ltac:(lia)) as Hd1. pose proof (Nat.div_mod k n ltac:(lia)) as Hd2. rewrite E in Hd1.
  assert (n * (k / n - j / n) = k - j)%nat by (rewrite Nat.mul_sub_distr_l; lia).
  destruct (k / n - j / n)%nat as [|q]; nia.
Qed.

Section Steps.
  Context (e : Z) (n : nat) (OK : sizes_ok e 10) (Hn : (0 < n)%nat).

  Lemma idx_lt (ever : list (list Z)) : (length ever mod n < n)%nat. Proof. apply Nat.mod_upper_bound. lia. Qed.

  Lemma push_inv c ever v : Inv e n c ever -> Z.of_nat (length v) = e -> exists c', cl_push c v = Some (true, c') /\ Inv e n c' (ever ++ [v]).
  Proof.
    intros (l & cap & R & Hl & Hle & Hi & Hw) Hv. pose proof (idx_lt ever) as Hx.
    destruct (set_ok e 10 (cl_list c) l cap (cl_index c) v OK R Hv) as (s' & E & R'); [lia|].
    unfold cl_push. rewrite E. pose proof (len_fit e 10 cap (Z.of_nat (length l)) OK) as Hf. destruct R as [_ _ _ _ _ _ _ Rle Rmax].
    specialize (Hf ltac:(lia) Rmax). rewrite uwrap_id by lia.
    rewrite Hi, Nat2Z.id in R'. pose proof (rep_size _ _ _ _ _ R') as Hs. rewrite set_at_len in Hs by lia.
    eexists; split; [reflexivity|]. exists (set_at (length ever mod n) v l), cap. cbn [cl_list cl_index].
    split; [exact R'|]. split; [rewrite set_at_len; lia|]. rewrite app_length; cbn [length]. split; [lia|]. split.
    - rewrite Hi, Hs, Hl. replace (length ever + 1)%nat with (S (length ever)) by lia. rewrite mod_next by exact Hn.
      destruct (Nat.eqb_spec (S (length ever mod n)) n), (Z.eqb_spec (Z.of_nat (length ever mod n) + 1) (Z.of_nat n)); lia.
    - intros j Hj. destruct (Nat.eq_dec j (length ever)) as [->|Hne].
      + rewrite nth_set_same by lia. rewrite app_nth2, Nat.sub_diag by lia. reflexivity.
      + rewrite nth_set_other; [|lia|apply mod_window; lia]. rewrite app_nth1 by lia. apply Hw. lia.
  Qed.
  Lemma peek_inv c ever p : Inv e n c ever -> (p < n)%nat -> forall j, (length ever - n <= j < length ever)%nat -> (j mod n = p)%nat ->
    sl_peek (cl_list c) (Z.of_nat p) = Some (true, nth j ever []).
  Proof.
    intros (l & cap & R & Hl & Hle & Hi & Hw) Hp j Hj E. unfold sl_peek. rewrite (rep_size _ _ _ _ _ R).
    replace (Z.of_nat p >=? Z.of_nat (length l)) with false by lia.
    rewrite (read_ok e 10 (cl_list c) l cap (Z.of_nat p) OK R) by lia. rewrite Nat2Z.id, <- E, Hw by exact Hj. reflexivity.
  Qed.
  Lemma last_nth {A} (l : list A) d : l <> [] -> last l d = nth (length l - 1) l d.
  Proof.
    induction l as [|x l IH]; [congruence|]. intros _. destruct l as [|y l]; [reflexivity|].
    change (last (x :: y :: l) d) with (last (y :: l) d). rewrite IH by discriminate. cbn [length]. 
    replace (S (S (length l)) - 1)%nat with (S (S (length l) - 1)) by lia. reflexivity.
  Qed.
  Lemma window_mod k : (n <= k)%nat -> ((k - n) mod n = k mod n)%nat.
  Proof. intros H. replace k with (k - n + 1 * n)%nat at 2 by lia. rewrite Nat.mod_add by lia. reflexivity. Qed.

  Lemma run_inv ops : forall c ever, Inv e n c ever -> Forall (good e) ops -> code_run c ops = Some (ideal_run n ever ops).
  Proof.
    induction ops as [|o ops IH]; intros c ever HI HG; [reflexivity|]. inversion HG as [|? ? Hg HG']; subst.
    pose proof HI as HI'. destruct HI' as (l & cap & R & Hl & Hle & Hi & Hw). pose proof (idx_lt ever) as Hx.
    destruct o as [v|v| | |]; cbn [code_run code_step ideal_run good] in *.
    - destruct (push_inv c ever v HI Hg) as (c' & -> & HI'). rewrite (IH _ _ HI' HG'). reflexivity.
    - unfold cl_push_out. rewrite Hi. rewrite (peek_inv c ever _ HI Hx (length ever - n)%nat) by (try lia; apply window_mod; lia).
      destruct (push_inv c ever v HI Hg) as (c' & -> & HI'). rewrite (IH _ _ HI' HG'). reflexivity.
    - assert (EL : cl_last c = Some (true, last ever [])).
      { assert (Hne : ever <> []) by (intros ->; cbn in Hle; lia). rewrite last_nth by exact Hne.
        assert (Hm : (length ever mod n = if S ((length ever - 1) mod n) =? n then 0 else S ((length ever - 1) mod n))%nat).
        { rewrite <- mod_next by exact Hn. f_equal. lia. }
        pose proof (Nat.mod_upper_bound (length ever - 1) n ltac:(lia)) as Hb.
        pose proof (len_fit e 10 cap (Z.of_nat (length l)) OK) as Hf. pose proof (rep_le _ _ _ _ _ R). pose proof (rep_max _ _ _ _ _ R).
        specialize (Hf ltac:(lia) ltac:(assumption)).
        unfold cl_last. rewrite Hi, (rep_size _ _ _ _ _ R), Hl.
        destruct (Z.ltb_spec 0 (Z.of_nat (length ever mod n))) as [L|L].
        - rewrite uwrap_id by lia. replace (Z.of_nat (length ever mod n) - 1) with (Z.of_nat ((length ever - 1) mod n)).
          + apply (peek_inv c ever _ HI Hb (length ever - 1)%nat); [lia|reflexivity].
          + rewrite Hm in L |- *. destruct (Nat.eqb_spec (S ((length ever - 1) mod n)) n); lia.
        - rewrite uwrap_id by lia. replace (Z.of_nat n - 1) with (Z.of_nat ((length ever - 1) mod n)).
          + apply (peek_inv c ever _ HI Hb (length ever - 1)%nat); [lia|reflexivity].
          + rewrite Hm in L. destruct (Nat.eqb_spec (S ((length ever - 1) mod n)) n); lia. }
      rewrite EL, (IH _ _ HI HG'). reflexivity.
    - rewrite (IH _ _ HI HG'), Hi, window_mod by lia. reflexivity.
    - rewrite (IH _ _ HI HG'), (rep_size _ _ _ _ _ R), Hl. reflexivity.
  Qed.

  (** The constructor *)
  Lemma fill_ok temps : forall s l cap k, Rep e 10 s l cap -> cap = 10 * k -> cap <= Z.of_nat (length l) + 10 ->
    Forall (fun t => Z.of_nat (length (fst t)) = e /\ snd t <> None) temps ->
    Z.of_nat (length l + length temps) <= max_elements e 10 -> (2 <= e \/ Z.of_nat (length l + length temps) + 20 < 2 ^ 32) ->
    exists s' cap', fill s temps = Some s' /\ Rep e 10 s' (l ++ map fst temps) cap'.
  Proof.
    induction temps as [|(v, a) temps IH]; intros s l cap k R Hk Hc HF HM HW.
    - exists s, cap. cbn [map]. rewrite app_nil_r. split; [reflexivity|exact R].
    - pose proof (Forall_inv HF) as (Hv & Ha). apply Forall_inv_tail in HF. rename HF into HF'. subst cap. cbn [fst snd length] in *.
      pose proof (rep_le _ _ _ _ _ R) as Rle. pose proof (rep_max _ _ _ _ _ R) as Rmax.
      destruct (add_ok e 10 s l (10 * k) v a OK R) as (s' & E & R'); [destruct HW; [left; assumption|right; lia]|exact Hv|].
      cbn [StaticList_Spec.code_step seq_step] in E, R'.
      assert (G : exists c k', grow e 10 l (10 * k) a = Some c /\ c = 10 * k' /\ c <= Z.of_nat (length l) + 11).
      { unfold grow. destruct (Z.ltb_spec (Z.of_nat (length l)) (10 * k)).
        - exists (10 * k), k. repeat split; lia.
        - exists (10 * k + 10), (k + 1). destruct a; [|congruence].
          assert (10 * k + 10 <= max_elements e 10).
          { assert (10 * k < max_elements e 10) by lia. unfold max_elements in *. set (m := (2 ^ 32 - 1) / (10 * e)) in *. clearbody m. lia. }
          replace (10 * k + 10 <=? max_elements e 10) with true by lia. repeat split; lia. }
      destruct G as (c & k' & G & Hk' & Hc'). rewrite G in E, R'. cbn [fst snd] in E, R'.
      cbn [fill]. destruct (sl_add s (Some v) a) as [(b, s1)|]; [|discriminate]. inversion E; subst s1 b. subst c.
      destruct (IH s' (l ++ [v]) (10 * k') k' R' eq_refl) as (s2 & cap2 & E2 & R2).
      + rewrite app_length; cbn [length]; lia.
      + exact HF'.
      + rewrite app_length; cbn [length]; lia.
      + rewrite app_length; cbn [length]. destruct HW; [left; assumption|right; lia].
      + exists s2, cap2. split; [exact E2|]. rewrite <- app_assoc in R2. exact R2.
  Qed.
End Steps.
