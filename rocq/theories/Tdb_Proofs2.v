(** Proofs about the database of the threads: the invariant. *)
From Coq Require Import String Permutation.
From Verif Require Import Base Tdb_Model Tdb_Spec Tdb_Proofs.

Notation len t := (Z.of_nat (List.length t)).

Lemma put_perm x y i : Permutation (occ (x ++ Used i :: y)) (i :: occ (x ++ Free :: y)).
Proof. rewrite !occ_app. cbn [occ]. symmetry. apply Permutation_middle. Qed.
Lemma tidy_put x y i : tidy (x ++ Free :: y) -> tidy (x ++ Used i :: y).
Proof. unfold tidy. rewrite !Forall_app. intros [A B]. split; [exact A|]. constructor; [discriminate|exact (Forall_inv_tail B)]. Qed.
Lemma tidy_drop x y i : tidy (x ++ Used i :: y) -> tidy (x ++ Free :: y).
Proof. unfold tidy. rewrite !Forall_app. intros [A B]. split; [exact A|]. constructor; [discriminate|exact (Forall_inv_tail B)]. Qed.

Lemma new_spec i t n : tidy t -> len (occ t) = n -> 1 <= n < len t -> len t < 2 ^ 32 - 1 ->
  (exists t', new_loop (S (List.length t)) (Db n (len t) (Some t)) i n = Some (true, Db (n + 1) (len t) (Some t')) /\
     List.length t' = List.length t /\ tidy t' /\ Permutation (occ t') (i :: occ t)) \/
  (new_loop (S (List.length t)) (Db n (len t) (Some t)) i n = Some (false, Db n (len t) (Some t)) /\ n + 1 = len t).
Proof.
  intros T N B L.
  pose proof (firstn_skipn (Z.to_nat n) t) as E. pose proof (firstn_length (Z.to_nat n) t) as L1. pose proof (skipn_length (Z.to_nat n) t) as L2.
  remember (firstn (Z.to_nat n) t) as t1. remember (skipn (Z.to_nat n) t) as t2. clear Heqt1 Heqt2.
  assert (K1 : len t1 = n) by lia. assert (K2 : len t2 = len t - n) by lia. clear L1 L2.
  destruct (exists_last (l := t1)) as (b & c0 & E1); [intros ->; cbn in K1; lia|].
  assert (T2 : tidy t2) by (subst t; apply Forall_app in T; exact (proj2 T)).
  destruct (new_first i n (len t) t2 t1 n (List.length t)) as [(x & y & X & S0)|[X S0]]; try lia; try assumption; try (rewrite E; reflexivity); try (rewrite <- E; reflexivity).
  - left. rewrite E in S0. exists (t1 ++ x ++ Used i :: y). rewrite S0. split; [reflexivity|]. rewrite <- E, X. rewrite !app_assoc. split; [|split].
    + rewrite !app_length. cbn. lia.
    + apply tidy_put. rewrite <- app_assoc, <- X, E. exact T.
    + apply put_perm.
  - specialize (S0 ltac:(intros ->; cbn in K2; lia)). rewrite E in S0. rewrite S0.
    replace (S (List.length t) - List.length t2)%nat with (S (Z.to_nat n)) by lia.
    assert (E2 : t = b ++ c0 :: t2) by (rewrite <- E, E1, <- app_assoc; reflexivity).
    assert (Kb : len b = n - 1) by (rewrite <- K1, E1, app_length; cbn; lia).
    destruct (new_second i n (len t) c0 t2 b [] 0 (Z.to_nat n)) as [(x & y & Y & S1)|[Y S1]]; cbn [app List.length] in *; try lia.
    + rewrite <- E2. exact T.
    + rewrite <- E2. reflexivity.
    + left. exists (x ++ Used i :: y ++ c0 :: t2). rewrite <- E2 in S1. rewrite S1. split; [reflexivity|].
      assert (E3 : t = x ++ Free :: y ++ c0 :: t2) by (rewrite E2, Y, <- app_assoc; reflexivity).
      split; [|split].
      * rewrite E3, !app_length. reflexivity.
      * apply tidy_put. rewrite <- E3. exact T.
      * rewrite E3. apply put_perm.
    + right. rewrite <- E2 in S1. rewrite S1. split; [reflexivity|].
      rewrite E2, occ_app in N. change (c0 :: t2) with ([c0] ++ t2) in N. rewrite occ_app, !app_length in N. pose proof (occ_length [c0]). cbn [List.length] in *. lia.
Qed.

(** Counting *)
Lemma count_from n m b : forall a k r fuel, k = len a -> tidy b -> m = len (a ++ b) -> m < 2 ^ 32 -> 0 <= r < 2 ^ 32 -> (List.length b <= fuel)%nat ->
  (r = 0 /\ count_loop fuel (Db n m (Some (a ++ b))) r k = Some (0, k)) \/
  (0 < r <= len (occ b) /\ exists x i y, b = x ++ Used i :: y /\ len (occ x) = r - 1 /\ count_loop fuel (Db n m (Some (a ++ b))) r k = Some (0, len (a ++ x) + 1)) \/
  (len (occ b) < r /\ exists q, 0 < q /\ count_loop fuel (Db n m (Some (a ++ b))) r k = Some (q, m)).
Proof.
  induction b as [|c b IH]; intros a k r fuel E T M L R F.
  - destruct (Z.eq_dec r 0) as [->|H].
    + left. split; [reflexivity|]. destruct fuel; reflexivity.
    + right; right. cbn [occ List.length]. split; [lia|]. exists r. split; [lia|]. rewrite app_nil_r in *.
      destruct fuel; cbn [count_loop max_of]; replace (k <? m) with false by lia; rewrite andb_false_r; replace k with m by lia; reflexivity.
  - destruct (Z.eq_dec r 0) as [->|H].
    + left. split; [reflexivity|]. destruct fuel; reflexivity.
    + destruct fuel as [|fuel]; [cbn in F; lia|]. cbn [count_loop max_of entries]. pose proof M as M'. rewrite app_length in M'. cbn [List.length] in M', F.
      replace (k <? m) with true by lia. replace (r =? 0) with false by lia. cbn [negb andb].
      pose proof (Forall_inv T) as Hc; pose proof (Forall_inv_tail T) as T'; cbv beta in Hc. rewrite read_mid by assumption. rewrite (u32_id (k + 1)) by lia.
      assert (Q : a ++ c :: b = (a ++ [c]) ++ b) by (rewrite <- app_assoc; reflexivity).
      assert (Ek : k + 1 = len (a ++ [c])) by (rewrite app_length; cbn; lia).
      assert (Em : m = len ((a ++ [c]) ++ b)) by (rewrite <- Q; exact M).
      rewrite Q. destruct c as [|i0|]; [| |congruence].
      * destruct (IH (a ++ [Free]) (k + 1) r fuel Ek T' Em L R ltac:(lia)) as [[Z0 _]|[[A (x & i & y & B & C & D)]|[A (q & B & C)]]]; [lia| |].
        -- right; left. cbn [occ]. split; [exact A|]. exists (Free :: x), i, y. rewrite D, B. repeat split; auto. rewrite <- app_assoc. reflexivity.
        -- right; right. cbn [occ]. split; [exact A|]. exists q. auto.
      * rewrite (u32_id (r - 1)) by lia.
        destruct (IH (a ++ [Used i0]) (k + 1) (r - 1) fuel Ek T' Em L ltac:(lia) ltac:(lia)) as [[Z0 D]|[[A (x & i & y & B & C & D)]|[A (q & B & C)]]].
        -- right; left. cbn [occ List.length]. split; [lia|]. exists [], i0, b. rewrite D, app_nil_r. repeat split; [cbn; lia|]. do 2 f_equal. lia.
        -- right; left. cbn [occ List.length]. split; [lia|]. exists (Used i0 :: x), i, y. rewrite D, B. split; [reflexivity|]. split; [cbn [occ List.length]; lia|]. rewrite <- app_assoc. reflexivity.
        -- right; right. cbn [occ List.length]. split; [lia|]. exists q. auto.
Qed.
(** GetThreadID in a table *)
Lemma thread_id_at t n : tidy t -> len t < 2 ^ 32 - 1 -> forall k, 0 <= k < 2 ^ 32 - 1 ->
  thread_id (Db n (len t) (Some t)) k = Some match nth_error (occ t) (Z.to_nat k) with Some i => tid i | None => 0 end.
Proof.
  intros T L k K. unfold thread_id. cbn [max_of]. rewrite Nat2Z.id, (u32_id (k + 1)) by lia.
  destruct (count_from n (len t) t [] 0 (k + 1) (List.length t)) as [[Z0 _]|[[A (x & i & y & B & C & D)]|[A (q & B & C)]]]; try assumption; try reflexivity; cbn [app] in *; try lia.
  - rewrite D. cbn [Z.eqb negb entries]. pose proof (f_equal (@List.length cell) B) as Lb. rewrite app_length in Lb. cbn [List.length] in Lb. rewrite u32_id by lia.
    assert (E : read (Some t) (len x + 1 - 1) = Some (Used i)) by (rewrite B; apply read_mid; [lia|discriminate]).
    rewrite E. rewrite B, occ_app. cbn [occ]. rewrite nth_error_app2 by lia. replace (Z.to_nat k - List.length (occ x))%nat with 0%nat by lia. reflexivity.
  - rewrite C. replace (q =? 0) with false by lia. cbn [negb]. rewrite (proj2 (nth_error_None _ _)) by lia. reflexivity.
Qed.
Lemma thread_id_empty k : 0 <= k < 2 ^ 32 - 1 -> thread_id (Db 0 0 None) k = Some 0.
Proof. intros K. unfold thread_id. cbn [max_of]. rewrite u32_id by lia. cbn [Z.to_nat count_loop max_of]. rewrite andb_false_r. replace (k + 1 =? 0) with false by lia. reflexivity. Qed.

(** The invariant *)
Definition inv (k : Z) (d : db) (live : list info) : Prop :=
  (d = start /\ live = []) \/
  (exists t, d = Db (len live) (len t) (Some t) /\ live <> [] /\ Permutation live (occ t) /\ tidy t /\ len t mod 64 = 0 /\ len t <= k + 63).

Lemma inv_mono k k' d live : inv k d live -> k <= k' -> inv k' d live.
Proof. intros [H|(t & A & B & C & D & E & F)] K; [left; exact H|]. right. exists t. repeat split; auto. lia. Qed.

Lemma alloc_grow t n : n = len t -> tidy t -> len t + 64 < 2 ^ 29 -> alloc_more true (Db n (len t) (Some t)) = Some (true, Db n (len t + 64) (Some (t ++ repeat Free 64))).
Proof.
  intros N T L. unfold alloc_more. cbn [max_of n_of entries]. replace (len t <=? n) with true by lia.
  rewrite (u32_id (granularity + len t)) by (unfold granularity; lia). rewrite u32_id by (unfold granularity, pointer_size; lia).
  rewrite u32_id by (unfold granularity; lia). unfold realloc. cbn [andb]. unfold pointer_size. replace (8 * (granularity + len t) =? 0) with false by (unfold granularity; lia). cbn [negb].
  replace (8 * (granularity + len t) / 8) with (granularity + len t) by (rewrite Z.mul_comm, Z.div_mul; lia).
  unfold granularity. replace (Z.to_nat (64 + len t)) with (List.length t + 64)%nat by lia. rewrite (firstn_all2 t) by lia.
  replace (List.length t + 64 - List.length t)%nat with 64%nat by lia. cbn [max_of n_of entries].
  replace (len t + 64 - 64) with (len t) by lia. rewrite u32_id by lia.
  change (Z.to_nat 64) with 64%nat. pose proof (clean_all (repeat Junk 64) t (len t) eq_refl) as C. rewrite repeat_length in C. rewrite C; [reflexivity|]. rewrite app_length, repeat_length. lia.
Qed.
Lemma alloc_first : alloc_more true start = Some (true, Db 0 64 (Some (repeat Free 64))).
Proof. reflexivity. Qed.
Lemma alloc_fails : alloc_more false start = Some (false, start).
Proof. reflexivity. Qed.
Lemma alloc_none m t n : n < len t -> alloc_more m (Db n (len t) (Some t)) = Some (true, Db n (len t) (Some t)).
Proof. intros N. unfold alloc_more. cbn [max_of n_of entries]. replace (len t <=? n) with false by lia. reflexivity. Qed.

Lemma new_step k d live i m : inv k d live -> 0 <= k < 2 ^ 28 -> len live <= k -> (m = false -> n_of d = 0) ->
  exists r d' live', step d (New i m) = Some (r, d') /\ answer live (New i m) r live' /\ inv (k + 1) d' live' /\ len live' <= k + 1.
Proof.
  intros I K LK M. cbn [step]. unfold new_entry. destruct I as [[-> ->]|(t & -> & Hn & P & T & Md & B)].
  - destruct m.
    + rewrite alloc_first. cbn [n_of max_of]. replace (0 <? 64) with true by reflexivity.
      exists (RBool true), (Db 1 64 (Some (Used i :: repeat Free 63))), [i]. split; [reflexivity|]. split; [constructor; reflexivity|]. split; [|cbn; lia].
      right. exists (Used i :: repeat Free 63). repeat split; try discriminate; try reflexivity; try (cbn; lia).
      constructor; [discriminate|apply tidy_free].
    + rewrite alloc_fails. exists (RBool false), start, []. split; [reflexivity|]. split; [apply refused; left; reflexivity|]. split; [left; auto|cbn; lia].
  - assert (N1 : 1 <= len live) by (destruct live; [congruence|cbn; lia]).
    assert (m = true) by (destruct m; [reflexivity|]; specialize (M eq_refl); cbn in M; lia). subst m. clear M.
    assert (Go : forall t', tidy t' -> occ t' = occ t -> len live < len t' -> len t' mod 64 = 0 -> len t' <= k + 64 ->
      exists r d' live', (match new_loop (S (List.length t')) (Db (len live) (len t') (Some t')) i (len live) with Some (b, d) => Some (RBool b, d) | None => None end) = Some (r, d') /\
        answer live (New i true) r live' /\ inv (k + 1) d' live' /\ len live' <= k + 1).
    { intros t' T' O L' M' B'. assert (Lo : len (occ t') = len live) by (rewrite O, (Permutation_length P); reflexivity).
      destruct (new_spec i t' (len live) T' Lo) as [(u & S0 & Lu & Tu & Pu)|[S0 E]]; try lia.
      - exists (RBool true), (Db (len live + 1) (len t') (Some u)), (i :: live). rewrite S0. split; [reflexivity|]. split; [constructor; reflexivity|]. split; [|cbn [List.length]; lia].
        right. exists u. rewrite Lu. repeat split; try discriminate; auto; try lia.
        + f_equal. cbn [List.length]. lia.
        + rewrite Pu, O. constructor. exact P.
      - exists (RBool false), (Db (len live) (len t') (Some t')), live. rewrite S0. split; [reflexivity|]. split; [constructor; right; rewrite E; exact M'|]. split; [|lia].
        right. exists t'. repeat split; auto; try lia. rewrite O. exact P. }
    assert (Le : len live <= len t) by (rewrite (Permutation_length P); pose proof (occ_length t); lia).
    destruct (Z.eq_dec (len live) (len t)) as [E|E].
    + rewrite (alloc_grow t (len live) E T) by lia. cbn [n_of max_of].
      assert (Lt : len (t ++ repeat Free 64) = len t + 64) by (rewrite app_length, repeat_length; lia).
      rewrite <- Lt. rewrite Nat2Z.id. replace (len live <? len (t ++ repeat Free 64)) with true by lia. apply Go.
      * apply Forall_app. split; [exact T|apply tidy_free].
      * rewrite occ_app, occ_free, app_nil_r. reflexivity.
      * lia.
      * rewrite Lt. replace (len t + 64) with (len t + 1 * 64) by lia. rewrite Z_mod_plus_full. exact Md.
      * lia.
    + rewrite alloc_none by lia. cbn [n_of max_of]. rewrite Nat2Z.id. replace (len live <? len t) with true by lia. apply Go; auto; lia.
Qed.

Lemma first_spec p n t : tidy t -> len t < 2 ^ 32 ->
  (first p (Db n (len t) (Some t)) = Some None /\ forall i, In i (occ t) -> p i = false) \/
  (exists x i y, t = x ++ Used i :: y /\ p i = true /\ first p (Db n (len t) (Some t)) = Some (Some (len x, i))).
Proof.
  intros T L. unfold first. cbn [max_of]. rewrite Nat2Z.id. exact (search_from p n (len t) t [] 0 (List.length t) eq_refl T eq_refl L (Nat.le_refl _)).
Qed.
Lemma in_mid x i y : In i (occ (x ++ Used i :: y)).
Proof. rewrite occ_app. apply in_or_app. right. left. reflexivity. Qed.
Lemma first_none p : first p start = Some None.
Proof. reflexivity. Qed.

Lemma other_step k d live c : inv k d live -> 0 <= k < 2 ^ 28 -> len live <= k -> sane c -> (forall i m, c <> New i m) -> (forall i, In i live -> tid i <> 0) ->
  exists r d' live', step d c = Some (r, d') /\ answer live c r live' /\ inv (k + 1) d' live' /\ len live' <= k + 1.
Proof.
  intros I K LK S NN NZ.
  assert (I' : inv (k + 1) d live) by (apply (inv_mono k); [exact I|lia]).
  assert (Gi : forall t0, exists r, get_info d t0 = Some r /\ ((exists i, r = Some i /\ In i live /\ tid i = t0) \/ (r = None /\ forall i, In i live -> tid i <> t0))).
  { intros t0. unfold get_info. destruct I as [[-> ->]|(t & -> & Hn & P & T & Md & B)].
    - exists None. split; [reflexivity|]. right. split; [reflexivity|contradiction].
    - destruct (first_spec (has_id t0) (len live) t T) as [[F A]|(x & i & y & E & Hp & F)]; [lia| |]; rewrite F.
      + exists None. split; [reflexivity|]. right. split; [reflexivity|]. intros i Hi. apply (Permutation_in _ P) in Hi. specialize (A i Hi). unfold has_id in A. lia.
      + exists (Some i). split; [reflexivity|]. left. exists i. split; [reflexivity|]. unfold has_id in Hp. split; [|lia].
        apply (Permutation_in _ (Permutation_sym P)). rewrite E. apply in_mid. }
  assert (Ti : forall n, 0 <= n < 2 ^ 32 - 1 -> (n < len live /\ exists i, In i live /\ thread_id d n = Some (tid i)) \/ (len live <= n /\ thread_id d n = Some 0)).
  { intros n Hn. destruct I as [[-> ->]|(t & -> & Hl & P & T & Md & B)].
    - right. split; [cbn; lia|]. apply thread_id_empty. exact Hn.
    - rewrite thread_id_at by (assumption || lia). rewrite (Permutation_length P).
      destruct (nth_error (occ t) (Z.to_nat n)) as [i|] eqn:E.
      + left. split; [assert (Z.to_nat n < List.length (occ t))%nat by (apply nth_error_Some; congruence); lia|].
        exists i. split; [|reflexivity]. apply (Permutation_in _ (Permutation_sym P)). exact (nth_error_In _ _ E).
      + right. apply nth_error_None in E. split; [lia|reflexivity]. }
  destruct c as [i m|t0|t0| |n|n|s]; cbn [step sane] in *.
  - exfalso. exact (NN i m eq_refl).
  - unfold remove_entry. destruct I as [[-> ->]|(t & -> & Hn & P & T & Md & B)].
    + exists (RInfo None), start, []. split; [reflexivity|]. split; [constructor; contradiction|]. split; [left; auto|cbn; lia].
    + destruct (first_spec (has_id t0) (len live) t T) as [[F A]|(x & i & y & E & Hp & F)]; [lia| |]; rewrite F.
      * exists (RInfo None), (Db (len live) (len t) (Some t)), live. split; [reflexivity|]. split; [|split; [exact I'|lia]].
        constructor. intros i Hi. apply (Permutation_in _ P) in Hi. specialize (A i Hi). unfold has_id in A. lia.
      * cbn [entries n_of max_of].
        assert (W : write (Some t) (len x) Free = Some (x ++ Free :: y)) by (rewrite E; apply write_mid; reflexivity).
        rewrite W.
        assert (Pu : Permutation live (i :: occ (x ++ Free :: y))) by (rewrite P, E; apply put_perm).
        assert (Lv : len live = len (occ (x ++ Free :: y)) + 1) by (rewrite (Permutation_length Pu); cbn [List.length]; lia).
        rewrite u32_id by lia. eexists (RInfo (Some i)), _, (occ (x ++ Free :: y)). split; [reflexivity|].
        split; [constructor; [unfold has_id in Hp; lia|exact Pu]|]. split; [|lia].
        assert (Lt : len (x ++ Free :: y) = len t) by (rewrite E, !app_length; reflexivity).
        destruct (len live - 1 =? 0) eqn:Z0.
        -- left. split; [unfold start; f_equal; lia|]. destruct (occ (x ++ Free :: y)); [reflexivity|cbn [List.length] in Lv; lia].
        -- right. exists (x ++ Free :: y). rewrite Lt. repeat split; auto; try lia.
           ++ f_equal. lia.
           ++ intros Q. rewrite Q in Lv. cbn in Lv. lia.
           ++ apply (tidy_drop x y i). rewrite <- E. exact T.
  - destruct (Gi t0) as (r & -> & [(i & -> & Hi & Ht)|[-> H]]).
    + exists (RInfo (Some i)), d, live. split; [reflexivity|]. split; [constructor; auto|split; [exact I'|lia]].
    + exists (RInfo None), d, live. split; [reflexivity|]. split; [constructor; auto|split; [exact I'|lia]].
  - exists (RNum (len live)), d, live. split; [|split; [constructor|split; [exact I'|lia]]].
    destruct I as [[-> ->]|(t & -> & _)]; reflexivity.
  - destruct (Ti n S) as [[L (i & Hi & ->)]|[L ->]].
    + exists (RNum (tid i)), d, live. split; [reflexivity|]. split; [constructor; auto|split; [exact I'|lia]].
    + exists (RNum 0), d, live. split; [reflexivity|]. split; [constructor; auto|split; [exact I'|lia]].
  - unfold info_at. destruct (Ti n S) as [[L (i & Hi & ->)]|[L ->]].
    + destruct (Gi (tid i)) as (r & -> & [(j & -> & Hj & Ht)|[-> H]]); [|exfalso; exact (H i Hi eq_refl)].
      exists (RInfo (Some j)), d, live. split; [reflexivity|]. split; [constructor; auto|split; [exact I'|lia]].
    + destruct (Gi 0) as (r & -> & [(j & -> & Hj & Ht)|[-> H]]); [exfalso; exact (NZ j Hj Ht)|].
      exists (RInfo None), d, live. split; [reflexivity|]. split; [constructor; auto|split; [exact I'|lia]].
  - unfold find_name. destruct I as [[-> ->]|(t & -> & Hn & P & T & Md & B)].
    + exists (RNum 0), start, []. split; [reflexivity|]. split; [constructor; contradiction|]. split; [left; auto|cbn; lia].
    + destruct (first_spec (has_name s) (len live) t T) as [[F A]|(x & i & y & E & Hp & F)]; [lia| |]; rewrite F.
      * exists (RNum 0), (Db (len live) (len t) (Some t)), live. split; [reflexivity|]. split; [|split; [exact I'|lia]].
        constructor. intros i Hi. apply (Permutation_in _ P) in Hi. specialize (A i Hi). unfold has_name in A. apply String.eqb_neq. exact A.
      * exists (RNum (tid i)), (Db (len live) (len t) (Some t)), live. split; [reflexivity|]. split; [|split; [exact I'|lia]].
        apply named; [|apply String.eqb_eq; exact Hp]. apply (Permutation_in _ (Permutation_sym P)). rewrite E. apply in_mid.
Qed.

Lemma ids_kept live c r live' : answer live c r live' -> sane c -> (forall i, In i live -> tid i <> 0) -> forall i, In i live' -> tid i <> 0.
Proof.
  intros A S H i Hi. destruct A as [j m l' P|j m o|t j l' E P|t q|t j u v|t q| |n j u v|n q|n j u v|n q v|s j u v|s q]; try (apply H; exact Hi).
  - apply (Permutation_in _ P) in Hi. destruct Hi as [<-|Hi]; [exact S|exact (H i Hi)].
  - apply H. apply (Permutation_in _ (Permutation_sym P)). right. exact Hi.
Qed.

Lemma run_app a : forall d b rs d', run d (a ++ b) = Some (rs, d') -> exists r1 d1 r2, run d a = Some (r1, d1) /\ run d1 b = Some (r2, d') /\ rs = r1 ++ r2.
Proof.
  induction a as [|c a IH]; intros d b rs d' H; cbn [app run] in *.
  - exists [], d, rs. auto.
  - destruct (step d c) as [[r d0]|]; [|discriminate]. destruct (run d0 (a ++ b)) as [[rs0 d1]|] eqn:E; [|discriminate]. injection H as <- <-.
    destruct (IH _ _ _ _ E) as (r1 & d2 & r2 & -> & H2 & ->). exists (r :: r1), d2, r2. auto.
Qed.
Lemma answers_app a r1 : forall l l1 b r2 l2, answers l a r1 l1 -> answers l1 b r2 l2 -> answers l (a ++ b) (r1 ++ r2) l2.
Proof. intros l l1 b r2 l2 A. induction A; intros B; cbn [app]; [exact B|]. econstructor; eauto. Qed.
Lemma run_snoc a : forall d r1 d1 c r d2, run d a = Some (r1, d1) -> step d1 c = Some (r, d2) -> run d (a ++ [c]) = Some (r1 ++ [r], d2).
Proof.
  induction a as [|c0 a IH]; intros d r1 d1 c r d2 H S; cbn [app run] in *.
  - injection H as <- <-. rewrite S. reflexivity.
  - destruct (step d c0) as [[r0 d0]|]; [|discriminate]. destruct (run d0 a) as [[rs0 d3]|] eqn:E; [|discriminate]. injection H as <- <-.
    rewrite (IH _ _ _ _ _ _ E S). reflexivity.
Qed.

Lemma reaches cs : Forall sane cs -> memory_kept cs -> len cs < 2 ^ 28 ->
  exists rs d live, run start cs = Some (rs, d) /\ answers [] cs rs live /\ inv (len cs) d live /\ len live <= len cs /\ (forall i, In i live -> tid i <> 0).
Proof.
  induction cs as [|c cs IH] using rev_ind; intros S M L.
  - exists [], start, []. repeat split; try (constructor; fail); [left; auto|cbn; lia|contradiction].
  - apply Forall_app in S. destruct S as [S Sc]. pose proof (Forall_inv Sc) as Hc. rewrite app_length in *. cbn [List.length] in *.
    destruct (IH S) as (rs & d & live & R & A & I & Lv & Nz).
    + intros a i b rs d E. apply (M a i (b ++ [c])). rewrite E, <- app_assoc. reflexivity.
    + lia.
    + assert (St : exists r d' live', step d c = Some (r, d') /\ answer live c r live' /\ inv (len cs + 1) d' live' /\ len live' <= len cs + 1).
      { destruct c as [i m| | | | | |]; try (apply other_step; auto; [lia|discriminate]).
        apply new_step; auto; [lia|]. intros ->. exact (M cs i [] rs d eq_refl R). }
      destruct St as (r & d' & live' & S1 & A1 & I1 & L1). exists (rs ++ [r]), d', live'. split; [exact (run_snoc _ _ _ _ _ _ _ R S1)|].
      split; [apply (answers_app _ _ _ live); [exact A|econstructor; [exact A1|constructor]]|].
      replace (Z.of_nat (List.length cs + 1)) with (len cs + 1) by lia. repeat split; auto. exact (ids_kept _ _ _ _ A1 Hc Nz).
Qed.
