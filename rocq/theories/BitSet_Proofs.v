From Verif Require Import Base BitsBase BitSet_Model BitSet_Spec.

Ltac zdm := Z.div_mod_to_equations; lia.

Lemma value_nonneg a : Forall is_word a -> 0 <= value a.
Proof. induction 1; cbn [value]; [lia|]. unfold is_word in *. lia. Qed.

Lemma word_bit_range w i : is_word w -> 32 <= i -> Z.testbit w i = false.
Proof.
  intros W Hi. unfold is_word in *. destruct (Z.eq_dec w 0) as [->|N]; [apply Z.bits_0|].
  apply Z.bits_above_log2; [lia|]. apply Z.log2_lt_pow2; [lia|]. apply Z.lt_le_trans with (2 ^ 32); [lia|]. apply Z.pow_le_mono_r; lia.
Qed.

Lemma value_cons_bit w r i : is_word w -> 0 <= i ->
  Z.testbit (w + 2 ^ 32 * value r) i = if i <? 32 then Z.testbit w i else Z.testbit (value r) (i - 32).
Proof.
  intros W Hi. replace (w + 2 ^ 32 * value r) with (Z.lor (Z.shiftl (value r) 32) w).
  2:{ rewrite lor_shiftl_add by (unfold is_word in *; lia). lia. }
  rewrite Z.lor_spec, shiftl_testbit by lia. destruct (i <? 32) eqn:E.
  - rewrite Z.testbit_neg_r by lia. reflexivity.
  - rewrite (word_bit_range w i), orb_false_r by (auto; lia). reflexivity.
Qed.

Lemma nth_error_nth0 (a : list Z) n : nth n a 0 = match nth_error a n with Some x => x | None => 0 end.
Proof. revert n; induction a; intros [|n]; cbn; auto. Qed.

Lemma member_word a : Forall is_word a -> forall i, 0 <= i -> member a i = Z.testbit (nth (Z.to_nat (i / 32)) a 0) (i mod 32).
Proof.
  unfold member. induction 1 as [|w r W F IH]; intros i Hi.
  - cbn. rewrite Z.bits_0. destruct (Z.to_nat (i / 32)); rewrite Z.bits_0; reflexivity.
  - cbn [value]. rewrite value_cons_bit by auto. destruct (i <? 32) eqn:E.
    + rewrite Z.div_small, Z.mod_small by lia. reflexivity.
    + rewrite IH by lia. replace (i / 32) with (1 + (i - 32) / 32) by (zdm). replace (i mod 32) with ((i - 32) mod 32) by (zdm).
      rewrite Z2Nat.inj_add by (try lia; apply Z.div_pos; lia). reflexivity.
Qed.

Lemma is_word_bits w : 0 <= w -> (forall i, 32 <= i -> Z.testbit w i = false) -> is_word w.
Proof.
  intros H0 H. split; [auto|]. destruct (Z.lt_ge_cases w (2 ^ 32)) as [L|L]; [auto|exfalso].
  assert (0 < w) by lia. assert (32 <= Z.log2 w) by (apply Z.log2_le_pow2; lia).
  specialize (H (Z.log2 w) ltac:(lia)). rewrite Z.bit_log2 in H by lia. discriminate.
Qed.

Lemma land_word a b : is_word a -> is_word b -> is_word (Z.land a b).
Proof. intros A B. apply is_word_bits; [apply Z.land_nonneg; left; apply A|]. intros i Hi. rewrite Z.land_spec, (word_bit_range a) by auto. reflexivity. Qed.
Lemma lor_word a b : is_word a -> is_word b -> is_word (Z.lor a b).
Proof. intros A B. apply is_word_bits; [apply Z.lor_nonneg; split; [apply A|apply B]|]. intros i Hi. rewrite Z.lor_spec, (word_bit_range a), (word_bit_range b) by auto. reflexivity. Qed.
Lemma lxor_word a b : is_word a -> is_word b -> is_word (Z.lxor a b).
Proof. intros A B. apply is_word_bits; [apply Z.lxor_nonneg; destruct A, B; lia|]. intros i Hi. rewrite Z.lxor_spec, (word_bit_range a), (word_bit_range b) by auto. reflexivity. Qed.
Lemma uwrap_word z : is_word (uwrap 32 z). Proof. apply uwrap_range; lia. Qed.

Lemma value_ext a b : Forall is_word a -> Forall is_word b -> (forall i, 0 <= i -> member a i = member b i) -> value a = value b.
Proof. intros A B H. apply Z.bits_inj'. exact H. Qed.

(** ** Bit *)
Lemma land_bit_nz w k : 0 <= k -> negb (Z.land w (2 ^ k) =? 0) = Z.testbit w k.
Proof.
  intros Hk. destruct (Z.testbit w k) eqn:E.
  - destruct (Z.land w (2 ^ k) =? 0) eqn:E2; [|reflexivity]. exfalso.
    assert (H : Z.testbit (Z.land w (2 ^ k)) k = false) by (replace (Z.land w (2 ^ k)) with 0 by lia; apply Z.bits_0).
    rewrite Z.land_spec, E, pow2_testbit, Z.eqb_refl in H by lia. discriminate.
  - replace (Z.land w (2 ^ k)) with 0; [reflexivity|]. symmetry. apply Z.bits_inj'. intros i Hi.
    rewrite Z.land_spec, pow2_testbit, Z.bits_0 by lia. destruct (i =? k) eqn:E2; [|apply andb_false_r].
    replace i with k by lia. rewrite E. reflexivity.
Qed.

Lemma mask_eq k : 0 <= k < 32 -> uwrap 32 (Z.shiftl 1 k) = 2 ^ k.
Proof.
  intros H. rewrite Z.shiftl_1_l. apply uwrap_id. split; [apply Z.pow_nonneg; lia|]. apply Z.pow_lt_mono_r; lia.
Qed.

Lemma bit_member a i : Forall is_word a -> 0 <= i -> bit a i = member a i.
Proof.
  intros F Hi. rewrite (member_word a F i Hi). unfold bit, word, nel. rewrite nth_error_nth0.
  replace (i - 32 * (i / 32)) with (i mod 32) by zdm. pose proof (Z.mod_pos_bound i 32 ltac:(lia)). pose proof (Z.div_pos i 32 Hi ltac:(lia)).
  destruct (i / 32 <? Z.of_nat (length a)) eqn:E.
  - destruct (nth_error a (Z.to_nat (i / 32))) as [w|] eqn:EN.
    + rewrite mask_eq by lia. apply land_bit_nz. lia.
    + rewrite Z.bits_0. reflexivity.
  - destruct (nth_error a (Z.to_nat (i / 32))) as [w|] eqn:EN; [|rewrite Z.bits_0; reflexivity].
    assert (HS : nth_error a (Z.to_nat (i / 32)) <> None) by congruence. apply nth_error_Some in HS. lia.
Qed.

(** ** Updating one word *)
Lemma upd_word_split a k f : 0 <= k < nel a -> exists x w y, a = x ++ w :: y /\ Z.of_nat (length x) = k /\ upd_word a k f = x ++ f w :: y.
Proof.
  intros H. unfold upd_word, nel in *. exists (firstn (Z.to_nat k) a).
  pose proof (firstn_skipn (Z.to_nat k) a) as E. destruct (skipn (Z.to_nat k) a) as [|w y] eqn:ES.
  - exfalso. apply (f_equal (@length Z)) in ES. rewrite skipn_length in ES. cbn in ES. lia.
  - exists w, y. split; [auto|]. split; [rewrite firstn_length; lia|reflexivity].
Qed.

Lemma nth_app_upd (x y : list Z) w v n : nth n (x ++ v :: y) 0 = if (n =? length x)%nat then v else nth n (x ++ w :: y) 0.
Proof.
  destruct (n =? length x)%nat eqn:E.
  - apply Nat.eqb_eq in E. subst. rewrite app_nth2, Nat.sub_diag by lia. reflexivity.
  - apply Nat.eqb_neq in E. destruct (Nat.lt_ge_cases n (length x)).
    + rewrite !app_nth1 by lia. reflexivity.
    + rewrite !app_nth2 by lia. destruct (n - length x)%nat eqn:E2; [lia|reflexivity].
Qed.

Lemma upd_word_bit a k f i : Forall is_word a -> 0 <= k < nel a -> (forall w, is_word w -> is_word (f w)) -> 0 <= i ->
  Forall is_word (upd_word a k f) /\ length (upd_word a k f) = length a /\
  member (upd_word a k f) i = if i / 32 =? k then Z.testbit (f (nth (Z.to_nat k) a 0)) (i mod 32) else member a i.
Proof.
  intros F Hk Hf Hi. destruct (upd_word_split a k f Hk) as (x & w & y & E & Lx & E2). rewrite E2.
  assert (F2 : Forall is_word (x ++ f w :: y)).
  { rewrite E in F. apply Forall_app in F. destruct F as [Fx Fy]. inversion Fy; subst. apply Forall_app. split; auto. }
  split; [exact F2|]. split; [rewrite E, !app_length; reflexivity|].
  rewrite (member_word _ F2 i Hi), (member_word _ F i Hi). rewrite (nth_app_upd x y w), <- E.
  pose proof (Z.div_pos i 32 Hi ltac:(lia)).
  destruct (i / 32 =? k) eqn:E3.
  - replace (Z.to_nat (i / 32) =? length x)%nat with true by lia. f_equal. f_equal.
    replace (Z.to_nat k) with (length x) by lia. rewrite E, app_nth2, Nat.sub_diag by lia. reflexivity.
  - replace (Z.to_nat (i / 32) =? length x)%nat with false by lia. reflexivity.
Qed.

Lemma app_zeros_member a n i : Forall is_word a -> 0 <= i -> Forall is_word (a ++ repeat 0 n) /\ member (a ++ repeat 0 n) i = member a i.
Proof.
  intros F Hi. assert (F2 : Forall is_word (a ++ repeat 0 n)).
  { apply Forall_app. split; [auto|]. apply Forall_forall. intros x Hx. apply repeat_spec in Hx. subst. unfold is_word. lia. }
  split; [auto|]. rewrite !member_word by auto. f_equal. destruct (Nat.lt_ge_cases (Z.to_nat (i / 32)) (length a)).
  - rewrite app_nth1 by lia. reflexivity.
  - rewrite app_nth2, nth_repeat by lia. rewrite nth_overflow by lia. reflexivity.
Qed.

Theorem set_member a i v j : Forall is_word a -> 0 <= i -> 0 <= j ->
  Forall is_word (set a i v) /\ nel (set a i v) = Z.max (nel a) (i / 32 + 1) /\
  member (set a i v) j = if j =? i then v else member a j.
Proof.
  intros F Hi Hj. unfold set.
  pose proof (Z.mod_pos_bound i 32 ltac:(lia)) as Hm. pose proof (Z.div_pos i 32 Hi ltac:(lia)) as Hd.
  replace (i - 32 * (i / 32)) with (i mod 32) by zdm. rewrite mask_eq by lia.
  set (b := if i / 32 >=? nel a then resize a (i / 32 + 1) else a).
  assert (B : Forall is_word b /\ nel b = Z.max (nel a) (i / 32 + 1) /\ member b j = member a j).
  { unfold b. destruct (i / 32 >=? nel a) eqn:E.
    - unfold resize. rewrite firstn_all2 by (unfold nel in *; lia). destruct (app_zeros_member a (Z.to_nat (i / 32 + 1) - length a) j F Hj) as [F2 M].
      split; [exact F2|]. split; [|exact M]. unfold nel in *. rewrite app_length, repeat_length. lia.
    - split; [auto|]. split; [lia|auto]. }
  destruct B as (FB & NB & MB). replace (i / 32 <? nel b) with true by lia.
  set (f := fun w => if v then Z.lor w (2 ^ (i mod 32)) else Z.land w (uwrap 32 (Z.lnot (2 ^ (i mod 32))))).
  assert (Hf : forall w, is_word w -> is_word (f w)).
  { intros w W. unfold f. destruct v; [apply lor_word; auto|apply land_word; auto; apply uwrap_word].
    split; [apply Z.pow_nonneg; lia|]. apply Z.pow_lt_mono_r; lia. }
  destruct (upd_word_bit b (i / 32) f j FB ltac:(lia) Hf Hj) as (FU & LU & MU).
  split; [exact FU|]. split; [unfold nel in *; rewrite LU; lia|]. rewrite MU.
  pose proof (Z.mod_pos_bound j 32 ltac:(lia)) as Hmj.
  destruct (j / 32 =? i / 32) eqn:E1.
  - assert (MB2 : Z.testbit (nth (Z.to_nat (i / 32)) b 0) (j mod 32) = member a j).
    { rewrite <- MB, (member_word b FB j Hj). do 3 f_equal. lia. }
    assert (JI : (j =? i) = (j mod 32 =? i mod 32)).
    { assert (D : j / 32 = i / 32) by lia. pose proof (Z.div_mod j 32 ltac:(lia)). pose proof (Z.div_mod i 32 ltac:(lia)). lia. }
    rewrite JI. unfold f. destruct v.
    + rewrite Z.lor_spec, pow2_testbit, MB2 by lia. destruct (j mod 32 =? i mod 32); [apply orb_true_r|apply orb_false_r].
    + rewrite Z.land_spec, uwrap_testbit, Z.lnot_spec, pow2_testbit, MB2 by lia.
      replace (j mod 32 <? 32) with true by lia. cbn [andb]. destruct (j mod 32 =? i mod 32); [apply andb_false_r|apply andb_true_r].
  - rewrite MB. replace (j =? i) with false; [reflexivity|]. symmetry. apply Z.eqb_neq. intros ->. lia.
Qed.

(** ** Word by word operators *)
Lemma zipw_nth f a b rest n : length rest = Nat.max (length a) (length b) ->
  nth n (zipw f a b rest) 0 = if (n <? Nat.min (length a) (length b))%nat then f (nth n a 0) (nth n b 0) else nth n rest 0.
Proof.
  intros L. unfold zipw. set (m := Nat.min (length a) (length b)).
  assert (LC : length (map (fun p => f (fst p) (snd p)) (combine a b)) = m) by (rewrite map_length, combine_length; reflexivity).
  destruct (n <? m)%nat eqn:E.
  - apply Nat.ltb_lt in E. rewrite app_nth1 by lia. clear LC L. unfold m in E. clear m. revert b n E.
    induction a as [|x a IH]; intros [|y b] n E; cbn [length] in E; try lia. destruct n; [reflexivity|]. cbn. apply IH. lia.
  - apply Nat.ltb_ge in E. rewrite app_nth2 by lia. rewrite LC. 
    clear LC. revert n E. generalize rest. clear. intros rest n E. revert n rest E. generalize m as k. intros k. induction k as [|k IH]; intros n rest E.
    + rewrite Nat.sub_0_r. reflexivity.
    + destruct n; [lia|]. destruct rest as [|x rest]; [cbn; destruct (n - k)%nat; reflexivity|]. cbn [skipn nth Nat.sub]. apply IH. lia.
Qed.

Lemma Forall_nth_word a n : Forall is_word a -> is_word (nth n a 0).
Proof.
  intros F. destruct (Nat.lt_ge_cases n (length a)); [rewrite Forall_forall in F; apply F, nth_In; auto|].
  rewrite nth_overflow by lia. unfold is_word. lia.
Qed.
Lemma Forall_of_nth a : (forall n, is_word (nth n a 0)) -> Forall is_word a.
Proof. intros H. apply Forall_forall. intros x Hx. apply (In_nth _ _ 0) in Hx. destruct Hx as (n & _ & <-). apply H. Qed.

Lemma zipw_length f a b rest : length rest = Nat.max (length a) (length b) -> length (zipw f a b rest) = Nat.max (length a) (length b).
Proof. intros L. unfold zipw. rewrite app_length, map_length, combine_length, skipn_length. lia. Qed.

Lemma longer_length a b : length (longer a b) = Nat.max (length a) (length b).
Proof. unfold longer, nel. destruct (_ >? _) eqn:E; lia. Qed.

Lemma longer_nth a b n : (n <? Nat.min (length a) (length b))%nat = false ->
  nth n (longer a b) 0 = Z.lor (nth n a 0) (nth n b 0) /\ nth n (longer a b) 0 = Z.lxor (nth n a 0) (nth n b 0).
Proof.
  intros E. apply Nat.ltb_ge in E. unfold longer, nel. destruct (_ >? _) eqn:G.
  - rewrite (nth_overflow a) by lia. rewrite Z.lor_0_l, Z.lxor_0_l. auto.
  - rewrite (nth_overflow b) by lia. rewrite Z.lor_0_r, Z.lxor_0_r. auto.
Qed.

Lemma binop_value (f : Z -> Z -> Z) (g : bool -> bool -> bool) a b c :
  (forall x y, is_word x -> is_word y -> is_word (f x y)) ->
  (forall x y i, Z.testbit (f x y) i = g (Z.testbit x i) (Z.testbit y i)) ->
  Forall is_word a -> Forall is_word b -> (forall n, nth n c 0 = f (nth n a 0) (nth n b 0)) ->
  Forall is_word c /\ forall i, 0 <= i -> member c i = g (member a i) (member b i).
Proof.
  intros W G A B N. assert (C : Forall is_word c) by (apply Forall_of_nth; intros n; rewrite N; apply W; apply Forall_nth_word; auto).
  split; [auto|]. intros i Hi. rewrite !member_word by auto. rewrite N, G. reflexivity.
Qed.

Lemma band_nth a b n : nth n (band a b) 0 = Z.land (nth n a 0) (nth n b 0).
Proof.
  unfold band. rewrite zipw_nth by apply repeat_length. destruct (_ <? _)%nat eqn:E; [reflexivity|].
  apply Nat.ltb_ge in E. rewrite nth_repeat. destruct (Nat.lt_ge_cases n (length a)).
  - rewrite (nth_overflow b) by lia. rewrite Z.land_0_r. reflexivity.
  - rewrite (nth_overflow a) by lia. rewrite Z.land_0_l. reflexivity.
Qed.
Lemma bor_nth a b n : nth n (bor a b) 0 = Z.lor (nth n a 0) (nth n b 0).
Proof. unfold bor. rewrite zipw_nth by apply longer_length. destruct (_ <? _)%nat eqn:E; [reflexivity|]. apply longer_nth; auto. Qed.
Lemma bxor_nth a b n : nth n (bxor a b) 0 = Z.lxor (nth n a 0) (nth n b 0).
Proof. unfold bxor. rewrite zipw_nth by apply longer_length. destruct (_ <? _)%nat eqn:E; [reflexivity|]. apply longer_nth; auto. Qed.

Theorem band_value a b : Forall is_word a -> Forall is_word b -> value (band a b) = Z.land (value a) (value b).
Proof.
  intros A B. destruct (binop_value Z.land andb a b (band a b) land_word Z.land_spec A B (band_nth a b)) as [F M].
  apply Z.bits_inj'. intros i Hi. rewrite Z.land_spec. apply (M i Hi).
Qed.
Theorem bor_value a b : Forall is_word a -> Forall is_word b -> value (bor a b) = Z.lor (value a) (value b).
Proof.
  intros A B. destruct (binop_value Z.lor orb a b (bor a b) lor_word Z.lor_spec A B (bor_nth a b)) as [F M].
  apply Z.bits_inj'. intros i Hi. rewrite Z.lor_spec. apply (M i Hi).
Qed.
Theorem bxor_value a b : Forall is_word a -> Forall is_word b -> value (bxor a b) = Z.lxor (value a) (value b).
Proof.
  intros A B. destruct (binop_value Z.lxor xorb a b (bxor a b) lxor_word Z.lxor_spec A B (bxor_nth a b)) as [F M].
  apply Z.bits_inj'. intros i Hi. rewrite Z.lxor_spec. apply (M i Hi).
Qed.
Lemma binops_words a b : Forall is_word a -> Forall is_word b ->
  (Forall is_word (band a b) /\ Forall is_word (bor a b) /\ Forall is_word (bxor a b)) /\
  (length (band a b) = Nat.max (length a) (length b) /\ length (bor a b) = Nat.max (length a) (length b) /\ length (bxor a b) = Nat.max (length a) (length b)).
Proof.
  intros A B. split.
  - split; [apply (binop_value Z.land andb a b _ land_word Z.land_spec A B (band_nth a b))|].
    split; [apply (binop_value Z.lor orb a b _ lor_word Z.lor_spec A B (bor_nth a b))|apply (binop_value Z.lxor xorb a b _ lxor_word Z.lxor_spec A B (bxor_nth a b))].
  - unfold band, bor, bxor. rewrite !zipw_length by (try apply repeat_length; apply longer_length). auto.
Qed.

Theorem bnot_member a i : Forall is_word a -> 0 <= i -> member (bnot a) i = (i <? 32 * nel a) && negb (member a i).
Proof.
  intros F Hi. assert (F2 : Forall is_word (bnot a)).
  { apply Forall_forall. intros x Hx. apply in_map_iff in Hx. destruct Hx as (w & <- & _). apply uwrap_word. }
  rewrite !member_word by auto. pose proof (Z.mod_pos_bound i 32 ltac:(lia)). pose proof (Z.div_pos i 32 Hi ltac:(lia)).
  pose proof (Z.div_mod i 32 ltac:(lia)) as DM. unfold nel. destruct (i <? 32 * Z.of_nat (length a)) eqn:E; cbn [andb].
  - assert (Z.to_nat (i / 32) < length a)%nat by lia.
    unfold bnot. rewrite (nth_indep _ 0 (uwrap 32 (Z.lnot 0))) by (rewrite map_length; auto).
    rewrite (map_nth (fun w => uwrap 32 (Z.lnot w))). rewrite uwrap_testbit, Z.lnot_spec by lia.
    replace (i mod 32 <? 32) with true by lia. reflexivity.
  - rewrite nth_overflow by (unfold bnot; rewrite map_length; lia). apply Z.bits_0.
Qed.

(** ** Shifts *)
Lemma put_bit_member new pos j : Forall is_word new -> 0 <= pos < 2 ^ 32 -> pos / 32 < nel new -> 0 <= j ->
  Forall is_word (put_bit new pos) /\ nel (put_bit new pos) = nel new /\ member (put_bit new pos) j = (j =? pos) || member new j.
Proof.
  intros F Hp Hn Hj. unfold put_bit. replace (pos / 32 <? nel new) with true by lia.
  pose proof (Z.mod_pos_bound pos 32 ltac:(lia)) as Hm. pose proof (Z.div_pos pos 32 ltac:(lia) ltac:(lia)) as Hd.
  pose proof (Z.div_mod pos 32 ltac:(lia)) as DM.
  rewrite (uwrap_id 32 (pos / 32 * 32)) by lia. replace (pos - pos / 32 * 32) with (pos mod 32) by lia. rewrite (uwrap_id 32 (pos mod 32)) by lia.
  rewrite mask_eq by lia.
  destruct (upd_word_bit new (pos / 32) (fun w => Z.lor w (2 ^ (pos mod 32))) j F ltac:(lia)) as (FU & LU & MU); auto.
  { intros w W. apply lor_word; auto. split; [apply Z.pow_nonneg; lia|apply Z.pow_lt_mono_r; lia]. }
  split; [exact FU|]. split; [unfold nel; rewrite LU; reflexivity|]. rewrite MU.
  pose proof (Z.div_mod j 32 ltac:(lia)) as DMj. pose proof (Z.mod_pos_bound j 32 ltac:(lia)) as Hmj.
  destruct (j / 32 =? pos / 32) eqn:E.
  - rewrite Z.lor_spec, pow2_testbit by lia. rewrite (member_word new F j Hj). replace (Z.to_nat (j / 32)) with (Z.to_nat (pos / 32)) by lia.
    rewrite orb_comm. f_equal. lia.
  - replace (j =? pos) with false by lia. reflexivity.
Qed.

Lemma zeros_words n : Forall is_word (repeat 0 n).
Proof. apply Forall_forall. intros x Hx. apply repeat_spec in Hx. subst. unfold is_word. lia. Qed.
Lemma zeros_member n i : 0 <= i -> member (repeat 0 n) i = false.
Proof. intros Hi. rewrite (member_word _ (zeros_words n) i Hi), nth_repeat. apply Z.bits_0. Qed.

Lemma shl_loop_ok a r N : Forall is_word a -> 0 <= r -> forall n, Z.of_nat n + r <= 2 ^ 32 -> (Z.of_nat n + r <= 32 * Z.of_nat N) ->
  let c := shl_loop a r (repeat 0 N) n in
  Forall is_word c /\ nel c = Z.of_nat N /\ forall j, 0 <= j -> member c j = (r <=? j) && (j <? r + Z.of_nat n) && member a (j - r).
Proof.
  intros F Hr. induction n as [|n IH]; intros B1 B2; cbn [shl_loop].
  - split; [apply zeros_words|]. split; [unfold nel; rewrite repeat_length; reflexivity|].
    intros j Hj. rewrite zeros_member by auto. destruct (r <=? j) eqn:E1; [|reflexivity]. replace (j <? r + Z.of_nat 0) with false by lia. reflexivity.
  - destruct (IH ltac:(lia) ltac:(lia)) as (FC & NC & MC). set (c := shl_loop a r (repeat 0 N) n) in *.
    rewrite bit_member by (auto; lia). rewrite uwrap_id by lia.
    destruct (member a (Z.of_nat n)) eqn:EB.
    + assert (HB : (Z.of_nat n + r) / 32 < nel c) by (apply Z.div_lt_upper_bound; lia).
      split; [apply (put_bit_member c (Z.of_nat n + r) 0 FC ltac:(lia) HB ltac:(lia))|]. split; [rewrite <- NC; apply (put_bit_member c (Z.of_nat n + r) 0 FC ltac:(lia) HB ltac:(lia))|].
      intros j Hj. destruct (put_bit_member c (Z.of_nat n + r) j FC ltac:(lia) HB Hj) as (_ & _ & ->). rewrite MC by auto.
      destruct (j =? Z.of_nat n + r) eqn:E1; cbn [orb].
      * replace (r <=? j) with true by lia. replace (j <? r + Z.of_nat (S n)) with true by lia. cbn [andb].
        replace (j - r) with (Z.of_nat n) by lia. auto.
      * replace (j <? r + Z.of_nat (S n)) with (j <? r + Z.of_nat n) by lia. reflexivity.
    + split; [auto|]. split; [auto|]. intros j Hj. rewrite MC by auto.
      destruct (j =? Z.of_nat n + r) eqn:E1.
      * replace (j <? r + Z.of_nat n) with false by lia. rewrite andb_false_r. cbn [andb].
        replace (j - r) with (Z.of_nat n) by lia. rewrite EB, andb_false_r. reflexivity.
      * replace (j <? r + Z.of_nat (S n)) with (j <? r + Z.of_nat n) by lia. reflexivity.
Qed.

Lemma member_above a i : Forall is_word a -> 32 * nel a <= i -> member a i = false.
Proof.
  intros F Hi. unfold nel in Hi. rewrite member_word by (auto; lia). rewrite nth_overflow; [apply Z.bits_0|].
  pose proof (Z.div_le_lower_bound i 32 (Z.of_nat (length a)) ltac:(lia) ltac:(lia)). lia.
Qed.

Theorem bshl_value a r : bitset a -> 0 <= r -> 32 * nel a + r < 2 ^ 32 -> value (bshl a r) = value a * 2 ^ r /\ Forall is_word (bshl a r).
Proof.
  intros [F B] Hr HB. unfold bshl. assert (0 <= nel a) by (unfold nel; lia).
  pose proof (Z.div_mod r 32 ltac:(lia)) as DM. pose proof (Z.mod_pos_bound r 32 ltac:(lia)). pose proof (Z.div_pos r 32 Hr ltac:(lia)).
  rewrite (uwrap_id 32 (nel a + r / 32 + 1)) by lia. rewrite (uwrap_id 32 (32 * nel a)) by lia.
  destruct (shl_loop_ok a r (Z.to_nat (nel a + r / 32 + 1)) F Hr (Z.to_nat (32 * nel a)) ltac:(lia) ltac:(lia)) as (FC & _ & MC).
  split; [|exact FC]. apply Z.bits_inj'. intros i Hi. rewrite <- Z.shiftl_mul_pow2, shiftl_testbit by lia.
  specialize (MC i Hi). unfold member in MC. rewrite MC. destruct (r <=? i) eqn:E; cbn [andb].
  - destruct (i <? r + Z.of_nat (Z.to_nat (32 * nel a))) eqn:E2; cbn [andb]; [reflexivity|].
    symmetry. apply (member_above a (i - r) F). lia.
  - symmetry. apply Z.testbit_neg_r. lia.
Qed.

Lemma shr_loop_ok a r : Forall is_word a -> 0 <= r -> forall n, r + Z.of_nat n <= 2 ^ 32 -> Z.of_nat n <= 32 * nel a ->
  let c := shr_loop a r (repeat 0 (length a)) n in
  Forall is_word c /\ nel c = nel a /\ forall j, 0 <= j -> member c j = (j <? Z.of_nat n) && member a (j + r).
Proof.
  intros F Hr. induction n as [|n IH]; intros B1 B2; cbn [shr_loop].
  - split; [apply zeros_words|]. split; [unfold nel; rewrite repeat_length; reflexivity|].
    intros j Hj. rewrite zeros_member by auto. replace (j <? Z.of_nat 0) with false by lia. reflexivity.
  - destruct (IH ltac:(lia) ltac:(lia)) as (FC & NC & MC). set (c := shr_loop a r (repeat 0 (length a)) n) in *.
    rewrite bit_member by (auto; lia). replace (r + Z.of_nat n - r) with (Z.of_nat n) by lia. rewrite uwrap_id by lia.
    destruct (member a (r + Z.of_nat n)) eqn:EB.
    + assert (HB : Z.of_nat n / 32 < nel c) by (apply Z.div_lt_upper_bound; lia).
      split; [apply (put_bit_member c (Z.of_nat n) 0 FC ltac:(lia) HB ltac:(lia))|]. split; [rewrite <- NC; apply (put_bit_member c (Z.of_nat n) 0 FC ltac:(lia) HB ltac:(lia))|].
      intros j Hj. destruct (put_bit_member c (Z.of_nat n) j FC ltac:(lia) HB Hj) as (_ & _ & ->). rewrite MC by auto.
      destruct (j =? Z.of_nat n) eqn:E1; cbn [orb].
      * replace (j <? Z.of_nat (S n)) with true by lia. cbn [andb]. replace (j + r) with (r + Z.of_nat n) by lia. auto.
      * replace (j <? Z.of_nat (S n)) with (j <? Z.of_nat n) by lia. reflexivity.
    + split; [auto|]. split; [auto|]. intros j Hj. rewrite MC by auto.
      destruct (j =? Z.of_nat n) eqn:E1.
      * replace (j <? Z.of_nat n) with false by lia. replace (j + r) with (r + Z.of_nat n) by lia. rewrite EB, !andb_false_r. reflexivity.
      * replace (j <? Z.of_nat (S n)) with (j <? Z.of_nat n) by lia. reflexivity.
Qed.

Theorem bshr_value a r : bitset a -> 0 <= r -> value (bshr a r) = value a / 2 ^ r /\ Forall is_word (bshr a r).
Proof.
  intros [F B] Hr. unfold bshr. assert (0 <= nel a) by (unfold nel; lia).
  rewrite (uwrap_id 32 (32 * nel a)) by lia.
  destruct (Z.le_gt_cases r (32 * nel a)) as [C|C].
  - destruct (shr_loop_ok a r F Hr (Z.to_nat (32 * nel a - r)) ltac:(lia) ltac:(lia)) as (FC & _ & MC).
    split; [|exact FC]. apply Z.bits_inj'. intros i Hi. rewrite <- Z.shiftr_div_pow2, shiftr_testbit by lia.
    specialize (MC i Hi). unfold member in MC. rewrite MC.
    destruct (i <? Z.of_nat (Z.to_nat (32 * nel a - r))) eqn:E2; cbn [andb]; [reflexivity|].
    symmetry. apply (member_above a (i + r) F). lia.
  - replace (Z.to_nat (32 * nel a - r)) with 0%nat by lia. cbn [shr_loop]. split; [|apply zeros_words].
    apply Z.bits_inj'. intros i Hi. rewrite <- Z.shiftr_div_pow2, shiftr_testbit by lia.
    change (Z.testbit (value (repeat 0 (length a))) i) with (member (repeat 0 (length a)) i). rewrite zeros_member by auto.
    symmetry. apply (member_above a (i + r) F). lia.
Qed.

(** ** Comparisons and conversions *)
Lemma value_zero a : Forall is_word a -> (forallb (fun w => w =? 0) a = true <-> value a = 0).
Proof.
  induction 1 as [|w r W F IH]; cbn [forallb value]; [tauto|]. pose proof (value_nonneg r F). unfold is_word in W.
  rewrite andb_true_iff, IH, Z.eqb_eq. lia.
Qed.

Lemma beq_cons x a y b : beq (x :: a) (y :: b) = (y =? x) && beq a b.
Proof.
  unfold beq. cbn [combine forallb fst snd length Nat.min].
  replace (skipn (S (Nat.min (length a) (length b))) (longer (x :: a) (y :: b))) with (skipn (Nat.min (length a) (length b)) (longer a b)).
  - rewrite andb_assoc. reflexivity.
  - unfold longer, nel. cbn [length]. replace (Z.of_nat (S (length b)) >? Z.of_nat (S (length a))) with (Z.of_nat (length b) >? Z.of_nat (length a)) by lia.
    destruct (_ >? _); reflexivity.
Qed.

Theorem beq_value a b : Forall is_word a -> Forall is_word b -> (beq a b = true <-> value a = value b).
Proof.
  revert b. induction a as [|x a IH]; intros b A B.
  - unfold beq. cbn [combine forallb andb Nat.min length skipn]. unfold longer, nel. destruct b as [|y b]; [cbn; tauto|].
    cbn [length]. replace (Z.of_nat (S (length b)) >? Z.of_nat 0) with true by lia. rewrite value_zero by auto. cbn [value]. intuition lia.
  - destruct b as [|y b].
    + unfold beq. cbn [combine forallb andb Nat.min length skipn]. unfold longer, nel. cbn [length].
      replace (Z.of_nat 0 >? Z.of_nat (S (length a))) with false by lia. rewrite value_zero by auto. cbn [value]. tauto.
    + rewrite beq_cons, andb_true_iff. inversion A; inversion B; subst. rewrite IH by auto. cbn [value]. unfold is_word in *. lia.
Qed.

Theorem beq_u32_value a v : Forall is_word a -> 0 <= v < 2 ^ 32 -> (beq_u32 a v = true <-> value a = v).
Proof.
  intros A Hv. destruct a as [|w r]; cbn [beq_u32 value]; [rewrite Z.eqb_eq; intuition lia|].
  inversion A; subst. pose proof (value_nonneg r H2). unfold is_word in *. destruct (w =? v) eqn:E; cbn [negb].
  - rewrite value_zero by auto. lia.
  - split; [discriminate|]. lia.
Qed.

Theorem beq_u64_value a v : Forall is_word a -> 0 <= v < 2 ^ 64 -> nel a <> 1 ->
  exists b, beq_u64 a v = Some b /\ (b = true <-> value a = v).
Proof.
  intros A Hv N. destruct a as [|w [|w1 r]]; cbn [beq_u64]; [|unfold nel in N; cbn in N; lia|].
  - exists (v =? 0). split; [auto|]. rewrite Z.eqb_eq. cbn. intuition lia.
  - replace (nel (w :: w1 :: r) =? 1) with false by (unfold nel; cbn [length]; lia). cbn [andb orb].
    inversion A; subst. inversion H2; subst. pose proof (value_nonneg r H4). unfold is_word in *.
    change 4294967295 with (2 ^ 32 - 1). rewrite land_ones_mod by lia. rewrite Z.shiftr_div_pow2 by lia.
    pose proof (Z.div_mod v (2 ^ 32) ltac:(lia)). pose proof (Z.mod_pos_bound v (2 ^ 32) ltac:(lia)).
    cbn [value]. destruct (w =? v mod 2 ^ 32) eqn:E1; cbn [negb].
    + destruct (w1 =? v / 2 ^ 32) eqn:E2; cbn [negb].
      * eexists. split; [reflexivity|]. rewrite value_zero by auto. nia.
      * exists false. split; [auto|]. split; [discriminate|]. intros E. exfalso. assert (0 <= v / 2^32 < 2^32) by (split; [apply Z.div_pos; lia|apply Z.div_lt_upper_bound; lia]). nia.
    + exists false. split; [auto|]. split; [discriminate|]. intros E. exfalso. nia.
Qed.

Theorem to_u32_value a : Forall is_word a -> to_u32 a = value a mod 2 ^ 32.
Proof.
  destruct 1 as [|w r W F]; [reflexivity|]. cbn [to_u32 value]. rewrite Z.mul_comm, Z_mod_plus_full. unfold is_word in W. rewrite Z.mod_small; lia.
Qed.
Theorem to_u64_value a : Forall is_word a -> nel a <= 2 -> to_u64 a = value a.
Proof.
  intros A N. unfold to_u64. destruct a as [|w [|w1 [|w2 r]]]; unfold nel in *; cbn [length] in *; try lia.
  - reflexivity.
  - cbn. lia.
  - inversion A; subst. inversion H2; subst. unfold is_word in *. replace (Z.of_nat 2 =? 2) with true by reflexivity. cbn [nth value].
    rewrite Z.shiftl_mul_pow2 by lia. rewrite uwrap_id by lia. lia.
Qed.
Lemma of_u64_value v : 0 <= v < 2 ^ 64 -> value (of_u64 v) = v /\ Forall is_word (of_u64 v).
Proof.
  intros H. unfold of_u64. split; [|constructor; [apply uwrap_word|constructor; [apply uwrap_word|constructor]]].
  cbn [value]. unfold uwrap. rewrite Z.shiftr_div_pow2 by lia. rewrite (Z.mod_small (v / 2 ^ 32)) by (split; [apply Z.div_pos; lia|apply Z.div_lt_upper_bound; lia]).
  pose proof (Z.div_mod v (2 ^ 32) ltac:(lia)). lia.
Qed.
