(** Md5_Model computes MD5: the functions, the 64 operations and the compression of a block. *)
From Verif Require Import Base BitsBase Md5_Model Md5_Spec.

Section Width.
Variable w : Z.
Hypothesis Hw : 32 <= w.

Lemma m32_bit z i : 0 <= i -> Z.testbit (m32 z) i = (i <? 32) && Z.testbit z i.
Proof. intros Hi. apply (uwrap_testbit 32 z i); lia. Qed.
Lemma m32_range z : 0 <= m32 z < 2 ^ 32. Proof. apply Z.mod_pos_bound. lia. Qed.
Lemma m32_idem z : m32 (m32 z) = m32 z. Proof. apply Zmod_mod. Qed.
Lemma m32_ul z : m32 (ul w z) = m32 z.
Proof.
  apply Z.bits_inj'. intros i Hi. unfold ul. rewrite !m32_bit, uwrap_testbit by lia.
  destruct (i <? 32) eqn:E; [|reflexivity]. replace (i <? w) with true by lia. reflexivity.
Qed.
Ltac bits := apply Z.bits_inj'; intros i Hi; repeat (rewrite ?m32_bit, ?Z.lor_spec, ?Z.land_spec, ?Z.lxor_spec by lia); destruct (i <? 32); cbn [andb];
  repeat match goal with |- context[Z.testbit ?a i] => destruct (Z.testbit a i) end; reflexivity.
Lemma m32_lor a b : m32 (Z.lor a b) = Z.lor (m32 a) (m32 b). Proof. bits. Qed.
Lemma m32_land a b : m32 (Z.land a b) = Z.land (m32 a) (m32 b). Proof. bits. Qed.
Lemma m32_lxor a b : m32 (Z.lxor a b) = Z.lxor (m32 a) (m32 b). Proof. bits. Qed.
Lemma m32_add a b : m32 (a + b) = m32 (m32 a + m32 b). Proof. apply Zplus_mod. Qed.
Lemma m32_add_r a b : m32 (a + m32 b) = m32 (a + b). Proof. apply Zplus_mod_idemp_r. Qed.
Lemma m32_add_l a b : m32 (m32 a + b) = m32 (a + b). Proof. apply Zplus_mod_idemp_l. Qed.
Lemma not32_lnot z : not32 (m32 z) = m32 (Z.lnot z).
Proof.
  unfold not32, m32, Z.lnot. pose proof (Z.div_mod z (2 ^ 32) ltac:(lia)). pose proof (Z.mod_pos_bound z (2 ^ 32) ltac:(lia)).
  apply Z.mod_unique with (- (z / 2 ^ 32) - 1); [left; lia|lia].
Qed.
Definition aux_of (f : fn) : Z -> Z -> Z -> Z := match f with F1 => F | F2 => G | F3 => H | F4 => I end.
Lemma apply_low f x y z : m32 (apply w f x y z) = aux_of f (m32 x) (m32 y) (m32 z).
Proof.
  destruct f; cbn [apply aux_of]; unfold F, G, H, I; rewrite ?not32_lnot.
  - apply Z.bits_inj'; intros i Hi; repeat (rewrite ?m32_bit, ?Z.lor_spec, ?Z.land_spec, ?Z.lxor_spec, ?Z.lnot_spec by lia). destruct (i <? 32), (Z.testbit x i), (Z.testbit y i), (Z.testbit z i); reflexivity.
  - apply Z.bits_inj'; intros i Hi; repeat (rewrite ?m32_bit, ?Z.lor_spec, ?Z.land_spec, ?Z.lxor_spec, ?Z.lnot_spec by lia). destruct (i <? 32), (Z.testbit x i), (Z.testbit y i), (Z.testbit z i); reflexivity.
  - rewrite !m32_lxor. apply Z.lxor_assoc.
  - rewrite m32_lxor, m32_lor, m32_ul. reflexivity.
Qed.

Lemma lor_add_disjoint a b n : 0 <= n -> 0 <= b < 2 ^ n -> Z.lor (a * 2 ^ n) b = a * 2 ^ n + b.
Proof.
  intros Hn Hb. rewrite <- Z.lxor_lor; [symmetry; apply Z.add_nocarry_lxor|];
    (apply Z.bits_inj'; intros i Hi; rewrite Z.land_spec, Z.bits_0; destruct (i <? n) eqn:E;
     [rewrite Z.mul_pow2_bits_low by lia; reflexivity|
      rewrite andb_comm; rewrite <- (Z.mod_small b (2 ^ n)) by lia; rewrite Z.mod_pow2_bits_high by lia; reflexivity]).
Qed.
Lemma rot_low x n : 0 <= n <= 32 -> m32 (rot w x n) = rotl (m32 x) n.
Proof.
  intros Hn. unfold rot, rotl. rewrite m32_lor, m32_ul, Z.shiftl_mul_pow2 by lia.
  change 4294967295 with (Z.ones 32). rewrite Z.land_ones by lia. fold (m32 x). rewrite Z.shiftr_div_pow2 by lia.
  pose proof (m32_range x) as R.
  assert (D : m32 x / 2 ^ (32 - n) < 2 ^ n).
  { apply Z.div_lt_upper_bound; [lia|]. rewrite <- Z.pow_add_r by lia. replace (32 - n + n) with 32 by lia. lia. }
  assert (D0 : 0 <= m32 x / 2 ^ (32 - n)) by (apply Z.div_pos; lia).
  assert (P : 2 ^ n <= 2 ^ 32) by (apply Z.pow_le_mono_r; lia).
  replace (m32 (m32 x / 2 ^ (32 - n))) with (m32 x / 2 ^ (32 - n)) by (symmetry; apply Z.mod_small; lia).
  replace (m32 (x * 2 ^ n)) with (m32 (m32 x * 2 ^ n)) by (apply Zmult_mod_idemp_l).
  set (y := m32 x) in *.
  assert (E : m32 (y * 2 ^ n) = (y mod 2 ^ (32 - n)) * 2 ^ n).
  { unfold m32. replace (2 ^ 32) with (2 ^ (32 - n) * 2 ^ n) by (rewrite <- Z.pow_add_r by lia; f_equal; lia).
    rewrite Z.mul_mod_distr_r by lia. reflexivity. }
  rewrite E. apply lor_add_disjoint; lia.
Qed.

(** ** The 64 lines *)
Definition fn_of (i : nat) : fn := if (i <? 16)%nat then F1 else if (i <? 32)%nat then F2 else if (i <? 48)%nat then F3 else F4.
Definition order (i : nat) : list reg :=
  nth (i mod 4)%nat [[RA; RB; RC; RD]; [RD; RA; RB; RC]; [RC; RD; RA; RB]; [RB; RC; RD; RA]] [].
Definition reg_at (i j : nat) : reg := nth j (order i) RA.
Definition line_of (i : nat) : line := P (fn_of i) (reg_at i 0) (reg_at i 1) (reg_at i 2) (reg_at i 3) (word_of i) (shift_of i) (nth i T 0).
Lemma lines_are : lines = map line_of (seq 0 64). Proof. vm_compute. reflexivity. Qed.
Lemma aux_fn i : aux i = aux_of (fn_of i).
Proof. unfold aux, fn_of. destruct (i <? 16)%nat, (i <? 32)%nat, (i <? 48)%nat; reflexivity. Qed.
Lemma shift_range i : 0 <= shift_of i <= 32.
Proof.
  unfold shift_of. pose proof (Nat.mod_upper_bound i 4 ltac:(lia)).
  destruct (i mod 4)%nat as [|[|[|[|n]]]]; [..|lia]; destruct (i <? 16)%nat, (i <? 32)%nat, (i <? 48)%nat; cbn [nth]; lia.
Qed.

(** The registers before operation i, renamed. *)
Definition view (i : nat) (r : regs) : state4 :=
  (m32 (get r (reg_at i 0)), m32 (get r (reg_at i 1)), m32 (get r (reg_at i 2)), m32 (get r (reg_at i 3))).
Lemma mod4_cases i : (i mod 4 = 0 /\ S i mod 4 = 1 \/ i mod 4 = 1 /\ S i mod 4 = 2 \/ i mod 4 = 2 /\ S i mod 4 = 3 \/ i mod 4 = 3 /\ S i mod 4 = 0)%nat.
Proof.
  pose proof (Nat.div_mod i 4 ltac:(lia)) as D. pose proof (Nat.mod_upper_bound i 4 ltac:(lia)) as B.
  pose proof (Nat.div_mod (S i) 4 ltac:(lia)) as D'. pose proof (Nat.mod_upper_bound (S i) 4 ltac:(lia)) as B'.
  clear - D B D' B'. lia.
Qed.
Lemma get_set r x v : get (set r x v) x = v. Proof. destruct x; reflexivity. Qed.
Lemma m32_ex z : exists k, m32 z = z + k * 2 ^ 32.
Proof. exists (- (z / 2 ^ 32)). unfold m32. pose proof (Z.div_mod z (2 ^ 32) ltac:(lia)). lia. Qed.
Lemma ul_ex z : exists k, ul w z = z + k * 2 ^ 32.
Proof.
  exists (- (z / 2 ^ w) * 2 ^ (w - 32)). unfold ul, uwrap. rewrite <- Z.mul_assoc, <- Z.pow_add_r by lia.
  replace (w - 32 + 32) with w by lia. pose proof (Z.div_mod z (2 ^ w) ltac:(lia)). lia.
Qed.
Lemma exec_low X X' i r : (forall k, nth k X' 0 = m32 (nth k X 0)) ->
  view (S i) (exec w X r (line_of i)) = op X' (view i r) i.
Proof.
  intros HX.
  assert (V : forall a b c d, get r (reg_at i 0) = a -> get r (reg_at i 1) = b -> get r (reg_at i 2) = c -> get r (reg_at i 3) = d ->
     let v := ul w (rot w (ul w (a + ul w (ul w (apply w (fn_of i) b c d + nth (word_of i) X 0) + nth i T 0))) (shift_of i) + b) in
     m32 v = m32 (m32 b + rotl (m32 (m32 a + aux i (m32 b) (m32 c) (m32 d) + nth (word_of i) X' 0 + nth i T 0)) (shift_of i))).
  { intros a b c d _ _ _ _ v. subst v. rewrite HX, aux_fn, <- apply_low.
    match goal with |- m32 (ul w (rot w (ul w ?V) _ + b)) = m32 (m32 b + rotl (m32 ?W) _) => assert (E : m32 V = m32 W) end.
    2:{ rewrite m32_ul, m32_add, rot_low by apply shift_range. rewrite m32_ul, E. f_equal. apply Z.add_comm. }
    set (f := apply w (fn_of i) b c d). set (x := nth (word_of i) X 0). set (t := nth i T 0).
    destruct (ul_ex (ul w (f + x) + t)) as [k1 ->]. destruct (ul_ex (f + x)) as [k2 ->].
    destruct (m32_ex a) as [k3 ->]. destruct (m32_ex f) as [k4 ->]. destruct (m32_ex x) as [k5 ->].
    unfold m32. replace (a + k3 * 2 ^ 32 + (f + k4 * 2 ^ 32) + (x + k5 * 2 ^ 32) + t) with (a + f + x + t + (k3 + k4 + k5) * 2 ^ 32) by lia.
    replace (a + (f + x + k2 * 2 ^ 32 + t + k1 * 2 ^ 32)) with (a + f + x + t + (k1 + k2) * 2 ^ 32) by lia.
    rewrite !Z_mod_plus_full. reflexivity. }
  specialize (V _ _ _ _ eq_refl eq_refl eq_refl eq_refl). cbn zeta in V.
  unfold line_of, exec. rewrite get_set. unfold view, op.
  destruct (mod4_cases i) as [[E E']|[[E E']|[[E E']|[E E']]]]; unfold reg_at, order in V |- *; rewrite ?E, ?E' in *; cbn [nth get set rA rB rC rD] in *; rewrite V; reflexivity.
Qed.
Lemma run_low X X' r n : (forall k, nth k X' 0 = m32 (nth k X 0)) ->
  view n (fold_left (exec w X) (map line_of (seq 0 n)) r) = fold_left (op X') (seq 0 n) (view 0 r).
Proof.
  intros HX. induction n as [|n IH]; [reflexivity|].
  rewrite seq_S, map_app, !fold_left_app. cbn [plus map fold_left]. rewrite (exec_low X X'), IH by exact HX. reflexivity.
Qed.

Definition low (r : regs) : state4 := (m32 (rA r), m32 (rB r), m32 (rC r), m32 (rD r)).
Definition bytes (l : list Z) : Prop := Forall byte l.
Lemma nth_byte l i : bytes l -> byte (nth i l 0).
Proof.
  intros B. destruct (Nat.lt_ge_cases i (length l)) as [L|L]; [|rewrite nth_overflow by lia; split; lia].
  unfold bytes in B. rewrite Forall_forall in B. apply B, nth_In, L.
Qed.
Lemma nth_skip (l : list Z) n i : nth i (skipn n l) 0 = nth (n + i) l 0.
Proof. revert l. induction n as [|n IH]; intros l; [reflexivity|]. destruct l as [|x l]; [destruct i; reflexivity|apply IH]. Qed.
Lemma get32_low b i : bytes b -> get32 w b i = le32 (skipn i b).
Proof.
  intros B. unfold get32, le32. rewrite !nth_skip. rewrite Nat.add_0_r.
  pose proof (nth_byte b i B) as B0. pose proof (nth_byte b (i + 1) B) as B1. pose proof (nth_byte b (i + 2) B) as B2. pose proof (nth_byte b (i + 3) B) as B3.
  unfold byte in *. set (x0 := nth i b 0) in *. set (x1 := nth (i + 1) b 0) in *. set (x2 := nth (i + 2) b 0) in *. set (x3 := nth (i + 3) b 0) in *.
  assert (P : 2 ^ 32 <= 2 ^ w) by (apply Z.pow_le_mono_r; lia).
  unfold ul. rewrite !Z.shiftl_mul_pow2, !uwrap_id by lia.
  rewrite (Z.lor_comm x0), lor_add_disjoint by lia.
  rewrite (Z.lor_comm (x1 * 2 ^ 8 + x0)), (lor_add_disjoint x2) by lia.
  rewrite (Z.lor_comm (x2 * 2 ^ 16 + _)), (lor_add_disjoint x3) by lia. lia.
Qed.
Lemma le32_range b : bytes b -> 0 <= le32 b < 2 ^ 32.
Proof.
  intros B. unfold le32. pose proof (nth_byte b 0 B). pose proof (nth_byte b 1 B). pose proof (nth_byte b 2 B). pose proof (nth_byte b 3 B). unfold byte in *. lia.
Qed.
Lemma bytes_skipn n l : bytes l -> bytes (skipn n l).
Proof. intros B. unfold bytes in *. rewrite <- (firstn_skipn n l) in B. apply Forall_app in B. tauto. Qed.
Lemma bytes_firstn n l : bytes l -> bytes (firstn n l).
Proof. intros B. unfold bytes in *. rewrite <- (firstn_skipn n l) in B. apply Forall_app in B. tauto. Qed.
Lemma view_0 r : view 0 r = low r. Proof. reflexivity. Qed.
Lemma view_64 r : view 64 r = low r. Proof. reflexivity. Qed.
Lemma process_low st block : bytes block -> low (process w st block) = compress (low st) block.
Proof.
  intros B. unfold process, compress. rewrite lines_are.
  set (X := map (fun i => get32 w block (4 * i)) (seq 0 16)). set (X' := map (fun i => le32 (skipn (4 * i) block)) (seq 0 16)).
  assert (HX : forall k, nth k X' 0 = m32 (nth k X 0)).
  { intros k. subst X X'. destruct (Nat.lt_ge_cases k 16) as [L|L].
    - rewrite (nth_indep _ 0 (le32 (skipn (4 * 0) block))) by (rewrite map_length, seq_length; lia).
      rewrite (nth_indep (map (fun i => get32 w block (4 * i)) _) 0 (get32 w block (4 * 0))) by (rewrite map_length, seq_length; lia).
      rewrite (map_nth (fun i => le32 (skipn (4 * i) block))), (map_nth (fun i => get32 w block (4 * i))), !seq_nth by lia.
      rewrite get32_low by exact B. symmetry. apply Z.mod_small. apply le32_range, bytes_skipn, B.
    - rewrite !nth_overflow by (rewrite map_length, seq_length; lia). reflexivity. }
  pose proof (run_low X X' st 64 HX) as R. rewrite view_0, view_64 in R.
  clearbody X X'. generalize dependent (fold_left (exec w X) (map line_of (seq 0 64)) st). intros r R.
  generalize dependent (fold_left (op X') (seq 0 64) (low st)). intros v R. subst v. clear HX.
  unfold low. cbn [rA rB rC rD]. rewrite !m32_ul.
  rewrite (m32_add (rA st)), (m32_add (rB st)), (m32_add (rC st)), (m32_add (rD st)). reflexivity.
Qed.
End Width.
