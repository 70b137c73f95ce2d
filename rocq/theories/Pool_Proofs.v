(** The invariant of a pool created free. *)
From Verif Require Import Base BitsBase Conc Pool_Model.
Ltac zdm := Z.div_mod_to_equations; lia.

(** * Bits *)
Lemma land_pow2 x j : 0 <= j -> (Z.land x (2^j) =? 0) = negb (Z.testbit x j).
Proof.
  intros J. destruct (Z.testbit x j) eqn:E.
  - apply Z.eqb_neq. intros H. assert (T : Z.testbit (Z.land x (2^j)) j = false) by (rewrite H; apply Z.testbit_0_l).
    rewrite Z.land_spec, E, Z.pow2_bits_true in T by lia. discriminate.
  - apply Z.eqb_eq. apply Z.bits_inj'. intros k K. rewrite Z.land_spec, Z.testbit_0_l, Z.pow2_bits_eqb by lia.
    destruct (j =? k) eqn:EJ; [apply Z.eqb_eq in EJ; subst k; rewrite E; reflexivity|apply andb_false_r].
Qed.
Lemma bit_of_sum j m e : 0 <= j -> 0 <= e <= 1 -> Z.testbit (2^(j+1)*m + e*2^j) j = (e =? 1).
Proof.
  intros J E. rewrite Z.testbit_eqb by lia. replace (2^(j+1)*m + e*2^j) with ((2*m+e)*2^j) by (rewrite Z.pow_add_r by lia; ring).
  rewrite Z.div_mul by lia. rewrite Z.add_comm, Z.mul_comm, Z_mod_plus_full. destruct (Z.eq_dec e 0) as [->|]; [reflexivity|].
  replace e with 1 by lia. reflexivity.
Qed.
Lemma lor_pow2 x j : 0 <= j -> Z.testbit x j = false -> Z.lor x (2^j) = x + 2^j.
Proof.
  intros J E. symmetry. rewrite Z.add_nocarry_lxor.
  - rewrite Z.lxor_lor; [reflexivity|]. apply Z.eqb_eq. rewrite land_pow2 by lia. rewrite E. reflexivity.
  - apply Z.eqb_eq. rewrite land_pow2 by lia. rewrite E. reflexivity.
Qed.
Lemma ldiff_pow2 x j : 0 <= j -> Z.testbit x j = true -> Z.ldiff x (2^j) = x - 2^j.
Proof.
  intros J E. symmetry. apply Z.sub_nocarry_ldiff. apply Z.bits_inj'. intros k K.
  rewrite Z.ldiff_spec, Z.testbit_0_l, Z.pow2_bits_eqb by lia. destruct (j =? k) eqn:EJ; auto. apply Z.eqb_eq in EJ. subst k. rewrite E. reflexivity.
Qed.
Lemma pow_succ_shift j : 0 <= j < 31 -> uwrap 32 (Z.shiftl (2^j) 1) = 2^(j+1).
Proof.
  intros J. rewrite Z.shiftl_mul_pow2 by lia. rewrite <- Z.pow_add_r by lia. apply uwrap_id.
  split; [lia|]. apply Z.pow_lt_mono_r; lia.
Qed.
Lemma pow_shiftr j : 0 <= j -> Z.shiftr (2^(j+1)) 1 = 2^j.
Proof. intros J. rewrite Z.shiftr_div_pow2 by lia. rewrite Z.pow_add_r by lia. change (2^1) with 2. apply Z.div_mul. lia. Qed.

(** * The tree *)
(** grow gives the smallest power of two not below n. *)
Lemma grow_ok n : 1 <= n <= 2^31 -> exists h, 0 <= h <= 31 /\ grow 32 1 n = 2^h /\ n <= 2^h /\ (h = 0 \/ 2^(h-1) < n).
Proof.
  intros N.
  assert (G : forall fuel j, 0 <= j <= 31 -> 31 - j < Z.of_nat fuel -> (j = 0 \/ 2^(j-1) < n) ->
    exists h, 0 <= h <= 31 /\ grow fuel (2^j) n = 2^h /\ n <= 2^h /\ (h = 0 \/ 2^(h-1) < n)).
  { induction fuel as [|f IH]; intros j J F L; [lia|]. cbn [grow]. destruct (2^j <? n) eqn:E.
    - apply Z.ltb_lt in E. assert (j < 31). { destruct (Z.eq_dec j 31) as [->|]; [lia|lia]. }
      rewrite pow_succ_shift by lia. apply IH; try lia. right. replace (j + 1 - 1) with j by lia. exact E.
    - apply Z.ltb_ge in E. exists j. auto. }
  destruct (G 32%nat 0 ltac:(lia) ltac:(lia) (or_introl eq_refl)) as (h & A). exists h. exact A.
Qed.
(** The height h of the tree: n <= 2^h, and treeHalf is 2^(h-1), or 0 when h = 0. *)
Definition height (n h : Z) : Prop := 0 <= h <= 31 /\ n <= 2^h /\ tree_half n = (if h =? 0 then 0 else 2^(h-1)).
Lemma height_ex n : 1 <= n <= 2^31 -> exists h, height n h.
Proof.
  intros N. destruct (grow_ok n N) as (h & H & G & L & _). exists h. split; [exact H|]. split; [exact L|].
  unfold tree_half. rewrite G. destruct (h =? 0) eqn:E; [apply Z.eqb_eq in E; subst h; reflexivity|]. apply Z.eqb_neq in E.
  replace h with (h - 1 + 1) at 1 by lia. apply pow_shiftr. lia.
Qed.
Lemma le_half n h j : height n h -> 0 <= j -> (2^j <=? tree_half n) = (j <? h).
Proof.
  intros (H & _ & ->) J. destruct (h =? 0) eqn:E.
  - apply Z.eqb_eq in E. subst h. replace (j <? 0) with false by (symmetry; apply Z.ltb_ge; lia). apply Z.leb_gt. lia.
  - apply Z.eqb_neq in E. destruct (j <? h) eqn:EJ.
    + apply Z.ltb_lt in EJ. apply Z.leb_le. apply Z.pow_le_mono_r; lia.
    + apply Z.ltb_ge in EJ. apply Z.leb_gt. apply Z.pow_lt_mono_r; lia.
Qed.
Lemma half_nonneg n h : height n h -> 0 <= tree_half n.
Proof. intros (H & _ & ->). destruct (h =? 0); lia. Qed.

(** Clearing the k low bits. *)
Definition clr (k x : Z) : Z := x / 2^k * 2^k.
Lemma clr_0 x : clr 0 x = x. Proof. unfold clr. rewrite Z.div_1_r. lia. Qed.
Lemma clr_mult k j m : 0 <= k <= j -> clr k (2^j * m) = 2^j * m.
Proof.
  intros K. unfold clr. replace (2^j) with (2^(j-k) * 2^k) by (rewrite <- Z.pow_add_r by lia; f_equal; lia).
  replace (2^(j-k) * 2^k * m) with (2^(j-k) * m * 2^k) by ring. rewrite Z.div_mul by lia. reflexivity.
Qed.
Lemma clr_small k x : 0 <= k -> 0 <= x < 2^k -> clr k x = 0.
Proof. intros K X. unfold clr. rewrite Z.div_small by lia. lia. Qed.
Lemma clr_bounds k x : 0 <= k -> clr k x <= x < clr k x + 2^k.
Proof. intros K. unfold clr. pose proof (Z.div_mod x (2^k) ltac:(lia)). pose proof (Z.mod_pos_bound x (2^k) ltac:(lia)). lia. Qed.
Lemma clr_range k x m : 0 <= k -> 2^k * m <= x < 2^k * m + 2^k -> clr k x = 2^k * m.
Proof. intros K X. unfold clr. replace (x / 2^k) with m; [ring|]. apply (Z.div_unique_pos x (2^k) m (x - 2^k * m)); lia. Qed.

(** q is an ancestor of x (or x itself) in the tree of height h. *)
Definition anc (h q x : Z) : bool := existsb (fun k => q =? clr (Z.of_nat k) x) (seq 0 (S (Z.to_nat h))).
Lemma anc_iff h q x : 0 <= h -> anc h q x = true <-> exists k, 0 <= k <= h /\ q = clr k x.
Proof.
  intros H. unfold anc. rewrite existsb_exists. split.
  - intros (k & I & E). apply in_seq in I. apply Z.eqb_eq in E. exists (Z.of_nat k). split; [lia|exact E].
  - intros (k & K & E). exists (Z.to_nat k). split; [apply in_seq; lia|]. rewrite Z2Nat.id by lia. apply Z.eqb_eq. exact E.
Qed.
Lemma anc_refl h x : 0 <= h -> anc h x x = true.
Proof. intros H. apply anc_iff; auto. exists 0. rewrite clr_0. split; [lia|reflexivity]. Qed.
(** The ancestors of a left child: j is the lowest set bit. *)
Lemma anc_up h q x j m : 0 <= j < h -> x = 2^(j+1) * m + 2^j -> 0 <= m ->
  (anc h q x && negb (q =? x)) = anc h q (x - 2^j).
Proof.
  intros J X M. apply Bool.eq_true_iff_eq. rewrite andb_true_iff, negb_true_iff, Z.eqb_neq, !anc_iff by lia.
  assert (X1 : x = 2^j * (2*m+1)) by (rewrite X, Z.pow_add_r by lia; ring).
  assert (X2 : x - 2^j = 2^(j+1) * m) by lia.
  assert (HI : forall k, j + 1 <= k -> clr k x = clr k (x - 2^j)).
  { intros k K. rewrite X2. rewrite X. unfold clr. f_equal.
    replace (2^k) with (2^(j+1) * 2^(k-j-1)) by (rewrite <- Z.pow_add_r by lia; f_equal; lia). rewrite <- !Z.div_div by lia. f_equal.
    rewrite (Z.mul_comm (2^(j+1)) m). rewrite Z.div_mul by lia. rewrite Z.div_add_l by lia. rewrite (Z.div_small (2^j)); [lia|]. split; [lia|]. apply Z.pow_lt_mono_r; lia. }
  split.
  - intros ((k & K & E) & NE). destruct (Z_le_gt_dec k j) as [KJ|KJ].
    + exfalso. apply NE. rewrite E, X1, clr_mult by lia. reflexivity.
    + exists k. split; [lia|]. rewrite E. apply HI. lia.
  - intros (k & K & E). split.
    + destruct (Z_le_gt_dec k j) as [KJ|KJ].
      * exists (j + 1). split; [lia|]. rewrite HI by lia. rewrite E, X2, !clr_mult by lia. reflexivity.
      * exists k. split; [lia|]. rewrite E. symmetry. apply HI. lia.
    + intros ->. pose proof (clr_bounds k (x - 2^j) ltac:(lia)). lia.
Qed.
(** Descendants of a node are a range. *)
Lemma anc_range h q x j m : 0 <= j <= h -> q = 2^(j+1) * m + 2^j -> 0 <= x -> anc h q x = (q <=? x) && (x <? q + 2^j).
Proof.
  intros J Q X. apply Bool.eq_true_iff_eq. rewrite andb_true_iff, Z.leb_le, Z.ltb_lt, anc_iff by lia.
  assert (Q1 : q = 2^j * (2*m+1)) by (rewrite Q, Z.pow_add_r by lia; ring). split.
  - intros (k & K & E). pose proof (clr_bounds k x ltac:(lia)) as B. destruct (Z_le_gt_dec k j) as [KJ|KJ].
    + rewrite <- E in B. split; [lia|]. assert (2^k <= 2^j) by (apply Z.pow_le_mono_r; lia). lia.
    + exfalso. unfold clr in E. assert (D : (2^(j+1) | q)). { exists (x / 2^k * 2^(k-(j+1))). rewrite E. replace (2^k) with (2^(k-(j+1)) * 2^(j+1)) at 2 by (rewrite <- Z.pow_add_r by lia; f_equal; lia). ring. }
      destruct D as (c & D). rewrite D, Z.pow_add_r in Q1 by lia. assert (P : 2^j <> 0) by lia. change (2^1) with 2 in Q1.
      assert (E2 : 2^j * (2*c) = 2^j * (2*m+1)) by (rewrite <- Q1; ring). apply Z.mul_reg_l in E2; lia.
  - intros B. exists j. split; [lia|]. rewrite Q1. symmetry. apply clr_range; lia.
Qed.
Lemma anc_zero h x : 0 <= h -> 0 <= x < 2^h -> anc h 0 x = true.
Proof. intros H X. apply anc_iff; auto. exists h. split; [lia|]. symmetry. apply clr_small; lia. Qed.
Lemma anc_of_zero h q : 0 <= h -> anc h q 0 = (q =? 0).
Proof.
  intros H. apply Bool.eq_true_iff_eq. rewrite anc_iff, Z.eqb_eq by lia. split.
  - intros (k & K & E). rewrite clr_small in E by lia. exact E.
  - intros ->. exists 0. split; [lia|reflexivity].
Qed.

(** * Counting *)
Definition b2z (b : bool) : Z := if b then 1 else 0.
Fixpoint sumn (f : nat -> Z) (k : nat) : Z := match k with O => 0 | S k => sumn f k + f k end.
Lemma sumn_ext f g k : (forall i, (i < k)%nat -> f i = g i) -> sumn f k = sumn g k.
Proof. induction k as [|k IH]; intros H; [reflexivity|]. cbn. rewrite IH by (intros; apply H; lia). rewrite H by lia. reflexivity. Qed.
Lemma sumn_change f g k t : (t < k)%nat -> (forall i, i <> t -> f i = g i) -> sumn g k = sumn f k + (g t - f t).
Proof.
  intros T H. induction k as [|k IH]; [lia|]. cbn. destruct (Nat.eq_dec t k) as [->|NE].
  - rewrite (sumn_ext g f k) by (intros i Hi; symmetry; apply H; lia). lia.
  - rewrite IH by lia. rewrite (H k) by lia. lia.
Qed.
Lemma sumn_zero f k : (forall i, (i < k)%nat -> f i = 0) -> sumn f k = 0.
Proof. induction k as [|k IH]; intros H; [reflexivity|]. cbn. rewrite IH by (intros; apply H; lia). rewrite H by lia. reflexivity. Qed.
Lemma sumn_nonneg f k : (forall i, (i < k)%nat -> 0 <= f i) -> 0 <= sumn f k.
Proof. induction k as [|k IH]; intros H; cbn; [lia|]. pose proof (H k ltac:(lia)). specialize (IH ltac:(intros; apply H; lia)). lia. Qed.
(** How many of the resources 0..n-1 satisfy P. *)
Definition count (n : Z) (P : Z -> bool) : Z := sumn (fun i => b2z (P (Z.of_nat i))) (Z.to_nat n).
Lemma count_ext n P Q : (forall i, 0 <= i < n -> P i = Q i) -> count n P = count n Q.
Proof. intros H. apply sumn_ext. intros i I. rewrite H by lia. reflexivity. Qed.
Lemma count_change n P Q i : 0 <= i < n -> (forall x, x <> i -> P x = Q x) -> count n Q = count n P + (b2z (Q i) - b2z (P i)).
Proof.
  intros I H. unfold count. rewrite (sumn_change (fun i => b2z (P (Z.of_nat i))) _ _ (Z.to_nat i)); [|lia|].
  - rewrite Z2Nat.id by lia. reflexivity.
  - intros k K. cbn. rewrite H by lia. reflexivity.
Qed.
Lemma count_none n P : (forall i, 0 <= i < n -> P i = false) -> count n P = 0.
Proof. intros H. apply sumn_zero. intros i I. rewrite H by lia. reflexivity. Qed.
Lemma count_nonneg n P : 0 <= count n P.
Proof. apply sumn_nonneg. intros i I. destruct (P _); cbn; lia. Qed.
Lemma count_pos n P : 0 < count n P <-> exists i, 0 <= i < n /\ P i = true.
Proof.
  unfold count. assert (G : forall k, 0 < sumn (fun i => b2z (P (Z.of_nat i))) k <-> exists i, 0 <= i < Z.of_nat k /\ P i = true).
  { induction k as [|k IH].
    - cbn. split; [lia|]. intros (i & I & _). lia.
    - cbn [sumn]. pose proof (sumn_nonneg (fun i => b2z (P (Z.of_nat i))) k ltac:(intros i0 _; unfold b2z; destruct (P (Z.of_nat i0)); lia)) as NN.
      destruct (P (Z.of_nat k)) eqn:E; cbn [b2z].
      + split; [|lia]. intros _. exists (Z.of_nat k). split; [lia|exact E].
      + rewrite Z.add_0_r, IH. split; intros (i & I & Q); exists i; split; auto; [lia|]. destruct (Z.eq_dec i (Z.of_nat k)) as [->|]; [congruence|lia]. }
  destruct (Z_le_gt_dec 0 n) as [NN|NN].
  - rewrite G. rewrite Z2Nat.id by lia. reflexivity.
  - replace (Z.to_nat n) with O by lia. cbn. split; [lia|]. intros (i & I & _). lia.
Qed.
Lemma count_all n P : 0 <= n -> (forall i, 0 <= i < n -> P i = true) -> count n P = n.
Proof.
  intros N H. unfold count. rewrite <- (Z2Nat.id n) at 2 by lia.
  assert (G : forall k, (forall i, 0 <= i < Z.of_nat k -> P i = true) -> sumn (fun i => b2z (P (Z.of_nat i))) k = Z.of_nat k).
  { induction k as [|k IH]; intros HH; [reflexivity|]. cbn [sumn]. rewrite IH by (intros; apply HH; lia). rewrite HH by lia. cbn [b2z]. lia. }
  apply G. intros. apply H. lia.
Qed.
Lemma count_split n P Q R : (forall i, 0 <= i < n -> b2z (P i) = b2z (Q i) + b2z (R i)) -> count n P = count n Q + count n R.
Proof.
  intros H. unfold count. assert (G : forall k, (Z.of_nat k <= n) -> sumn (fun i => b2z (P (Z.of_nat i))) k = sumn (fun i => b2z (Q (Z.of_nat i))) k + sumn (fun i => b2z (R (Z.of_nat i))) k).
  { induction k as [|k IH]; intros K; [reflexivity|]. cbn [sumn]. rewrite IH by lia. rewrite H by lia. lia. }
  destruct (Z_le_gt_dec 0 n); [apply G; lia|replace (Z.to_nat n) with O by lia; reflexivity].
Qed.

Lemma put_same f i v : put f i v i = v. Proof. unfold put. rewrite Z.eqb_refl. reflexivity. Qed.
Lemma put_other f i v x : x <> i -> put f i v x = f x. Proof. intros H. unfold put. apply Z.eqb_neq in H. rewrite H. reflexivity. Qed.
Lemma inside_iff n i : inside n i = true <-> 0 <= i < n.
Proof. unfold inside. rewrite andb_true_iff, Z.leb_le, Z.ltb_lt. reflexivity. Qed.

(** * The invariant *)
Section Inv.
Variables (n h : Z) (threads : nat).
Hypothesis (N : 1 <= n <= 2^31) (H : height n h).
Notation step := (step n false threads).

(** A position reached while walking up: its j low bits are clear. *)
Definition walk (temp bit : Z) : Prop := exists j m, 0 <= j <= h /\ bit = 2^j /\ temp = 2^j * m /\ 0 <= temp < n.
(** The search: [pos] follows the bits of [path] above [bit]. *)
Definition search (bit pos path ret : Z) : Prop :=
  0 <= pos < n /\ (forall k, 0 <= k -> Z.testbit ret k && Z.testbit path k = false) /\
  ((bit = 0 /\ path = pos) \/ (exists j m e, 0 <= j <= h /\ bit = 2^j /\ pos = 2^(j+1) * m /\ path = pos + e * 2^j /\ 0 <= e <= 1)).
Definition pc_ok (p : pc) : Prop :=
  match p with
  | THead bit pos path ret => search bit pos path ret
  | TTot bit pos path ret tot => search bit pos path ret /\ path = pos /\ exists j, 0 <= j < h /\ bit = 2^j
  | TDec pos temp bit | TDecLoop pos temp bit => 0 <= pos < n /\ walk temp bit
  | TRet (Some i) => 0 <= i < n
  | RStore i => 0 <= i < n
  | RInc temp bit | RLoop temp bit => walk temp bit
  | _ => True
  end.
(** The thread has resource i: it took it and has not returned from Take, or it is about to give it back. *)
Definition tok (p : pc) (i : Z) : Prop :=
  match p with TDec pos _ _ | TDecLoop pos _ _ | TRet (Some pos) => pos = i | RStore j => j = i | _ => False end.
(** Updates of the sizes that the thread still has to do. *)
Definition pend (p : pc) (q : Z) : Z :=
  match p with
  | TDec _ temp _ => b2z (anc h q temp)
  | TDecLoop _ temp _ => b2z (anc h q temp && negb (q =? temp))
  | RInc temp _ => - b2z (anc h q temp)
  | RLoop temp _ => - b2z (anc h q temp && negb (q =? temp))
  | _ => 0
  end.
Record inv (s : sys) : Prop := {
  i_pc : forall t, pc_ok (pcs s t);
  i_ids : forall t, (threads <= t)%nat -> pcs s t = Idle;
  i_sem : forall i, sem s i = 0 \/ sem s i = 1;
  i_free : forall i, sem s i = 0 -> out false (log s) i = false /\ forall t, ~ tok (pcs s t) i;
  i_busy : forall i, sem s i = 1 -> out false (log s) i = true \/ exists t, tok (pcs s t) i;
  i_one : forall i t u, tok (pcs s t) i -> tok (pcs s u) i -> t = u;
  i_not_out : forall i t, tok (pcs s t) i -> out false (log s) i = false;
  i_size : forall q, size s q = count n (fun i => (sem s i =? 0) && anc h q i) + sumn (fun t => pend (pcs s t) q) threads
}.

(** A thread that moves without touching the shared state. *)
Lemma inv_local s t p : inv s -> (t < threads)%nat -> pc_ok p -> (forall i, tok p i <-> tok (pcs s t) i) -> (forall q, pend p q = pend (pcs s t) q) ->
  inv (Sys (sem s) (size s) (upd (pcs s) t p) (log s)).
Proof.
  intros [I1 I2 I3 I4 I5 I6 I7 I8] T P K Q.
  assert (TK : forall x i, tok (upd (pcs s) t p x) i <-> tok (pcs s x) i).
  { intros x i. destruct (upd_cases (pcs s) t p x) as [[-> ->]|[NE ->]]; [apply K|reflexivity]. }
  constructor; cbn [sem size pcs log].
  - intros x. destruct (upd_cases (pcs s) t p x) as [[-> ->]|[NE ->]]; auto.
  - intros x X. rewrite upd_other by lia. auto.
  - exact I3.
  - intros i E. destruct (I4 i E) as [A B]. split; auto. intros x. rewrite TK. apply B.
  - intros i E. destruct (I5 i E) as [A|[x A]]; auto. right. exists x. apply TK. exact A.
  - intros i x y. rewrite !TK. apply I6.
  - intros i x. rewrite TK. apply I7.
  - intros q. rewrite I8. f_equal. apply sumn_ext. intros x X. destruct (upd_cases (pcs s) t p x) as [[-> ->]|[NE ->]]; auto.
Qed.
(** A thread that changes one size as it promised. *)
Lemma inv_size s t p temp d : inv s -> (t < threads)%nat -> pc_ok p -> (forall i, tok p i <-> tok (pcs s t) i) ->
  (forall q, pend p q = pend (pcs s t) q + if q =? temp then d else 0) ->
  inv (Sys (sem s) (put (size s) temp (size s temp + d)) (upd (pcs s) t p) (log s)).
Proof.
  intros [I1 I2 I3 I4 I5 I6 I7 I8] T P K Q.
  assert (TK : forall x i, tok (upd (pcs s) t p x) i <-> tok (pcs s x) i).
  { intros x i. destruct (upd_cases (pcs s) t p x) as [[-> ->]|[NE ->]]; [apply K|reflexivity]. }
  constructor; cbn [sem size pcs log].
  - intros x. destruct (upd_cases (pcs s) t p x) as [[-> ->]|[NE ->]]; auto.
  - intros x X. rewrite upd_other by lia. auto.
  - exact I3.
  - intros i E. destruct (I4 i E) as [A B]. split; auto. intros x. rewrite TK. apply B.
  - intros i E. destruct (I5 i E) as [A|[x A]]; auto. right. exists x. apply TK. exact A.
  - intros i x y. rewrite !TK. apply I6.
  - intros i x. rewrite TK. apply I7.
  - intros q. rewrite (sumn_change (fun t => pend (pcs s t) q) _ _ t T).
    + rewrite upd_same, Q. unfold put. destruct (q =? temp) eqn:E; [apply Z.eqb_eq in E; subst q; rewrite I8; lia|rewrite I8; lia].
    + intros x X. rewrite upd_other; auto.
Qed.

Lemma walk_up temp bit : walk temp bit -> bit <= tree_half n ->
  let t' := if negb (Z.land temp bit =? 0) then temp - bit else temp in
  walk t' (uwrap 32 (Z.shiftl bit 1)) /\
  (negb (Z.land temp bit =? 0) = true -> forall q, anc h q temp && negb (q =? temp) = anc h q t').
Proof.
  intros (j & m & J & -> & -> & T) HB. apply Z.leb_le in HB. rewrite (le_half n h) in HB by (auto; lia). apply Z.ltb_lt in HB.
  pose proof H as (H0 & H1 & H2). cbn zeta. rewrite land_pow2 by lia. rewrite negb_involutive. rewrite pow_succ_shift by lia.
  pose proof (Z.div_mod m 2 ltac:(lia)) as DM. pose proof (Z.mod_pos_bound m 2 ltac:(lia)) as MB.
  assert (TB : Z.testbit (2^j*m) j = (m mod 2 =? 1)).
  { rewrite <- (bit_of_sum j (m/2) (m mod 2)) by lia. f_equal. rewrite Z.pow_add_r by lia. rewrite DM at 1. ring. }
  rewrite TB. destruct (m mod 2 =? 1) eqn:EM.
  - apply Z.eqb_eq in EM. rewrite EM in DM. split.
    + exists (j+1), (m/2). assert (2^j*m - 2^j = 2^(j+1)*(m/2)) as E by (rewrite Z.pow_add_r by lia; rewrite DM at 1; change (2^1) with 2; ring).
      split; [lia|]. split; [reflexivity|]. split; [exact E|]. split; [|lia]. assert (0 <= m / 2) by (apply Z.div_pos; nia). lia.
    + intros _ q. apply (anc_up h q _ j (m/2)); [lia| |]. { rewrite DM at 1. rewrite Z.pow_add_r by lia. change (2^1) with 2. ring. }
      apply Z.div_pos; nia.
  - apply Z.eqb_neq in EM. split; [|discriminate]. exists (j+1), (m/2). split; [lia|]. split; [reflexivity|]. split; [|lia].
    rewrite Z.pow_add_r by lia. replace m with (2*(m/2)) at 1 by lia. ring.
Qed.
Lemma walk_top temp bit : walk temp bit -> ~ bit <= tree_half n -> temp = 0.
Proof.
  intros (j & m & J & -> & -> & T) HB. rewrite <- Z.leb_le in HB. rewrite (le_half n h) in HB by (auto; lia). apply not_true_is_false in HB. apply Z.ltb_ge in HB.
  pose proof H as (H0 & H1 & H2). assert (j = h) by lia. subst j. assert (PH : 0 < 2^h) by lia. clear - T H1 PH. set (p := 2^h) in *. clearbody p. assert (m = 0) by nia. subst m. lia.
Qed.

(** The search never leaves the array. *)
Lemma search_start : search (tree_half n) 0 0 0.
Proof.
  pose proof H as (H0 & H1 & H2). split; [lia|]. split; [intros k K; rewrite Z.testbit_0_l; reflexivity|]. rewrite H2. destruct (h =? 0) eqn:E; [left; auto|].
  apply Z.eqb_neq in E. right. exists (h-1), 0, 0. repeat split; lia.
Qed.
Lemma search_fail pos path ret : search 0 pos path ret -> search 1 (if negb (Z.land path 1 =? 0) then pos - 1 else pos) path ret.
Proof.
  pose proof H as (H0 & _). intros (P & D & [[_ E]|(j & m & e & J & B & _)]); [|exfalso; assert (0 < 2^j) by lia; lia].
  subst path. change 1 with (2^0) at 2. rewrite land_pow2 by lia. rewrite negb_involutive.
  pose proof (Z.div_mod pos 2 ltac:(lia)) as DM. pose proof (Z.mod_pos_bound pos 2 ltac:(lia)) as MB.
  assert (TB : Z.testbit pos 0 = (pos mod 2 =? 1)). { rewrite <- (bit_of_sum 0 (pos/2) (pos mod 2)) by lia. f_equal. change (2^(0+1)) with 2. change (2^0) with 1. lia. }
  rewrite TB. destruct (pos mod 2 =? 1) eqn:E; [apply Z.eqb_eq in E|apply Z.eqb_neq in E].
  - split; [lia|]. split; [exact D|]. right. exists 0, (pos/2), 1. change (2^(0+1)) with 2. change (2^0) with 1. repeat split; lia.
  - split; [lia|]. split; [exact D|]. right. exists 0, (pos/2), 0. change (2^(0+1)) with 2. change (2^0) with 1. repeat split; lia.
Qed.
Lemma search_bit bit pos path ret : search bit pos path ret -> bit <> 0 -> bit <= tree_half n ->
  exists j m e, 0 <= j < h /\ bit = 2^j /\ pos = 2^(j+1) * m /\ path = pos + e * 2^j /\ 0 <= e <= 1 /\ Z.testbit path j = (e =? 1) /\
    (forall k, k < j -> Z.testbit path k = false) /\ 0 <= pos < n /\ (forall k, 0 <= k -> Z.testbit ret k && Z.testbit path k = false) /\ 0 <= m.
Proof.
  intros (P & D & [[E _]|(j & m & e & J & B & PM & PE & E)]) NB HB; [contradiction|]. subst bit.
  apply Z.leb_le in HB. rewrite (le_half n h) in HB by (auto; lia). apply Z.ltb_lt in HB.
  exists j, m, e. split; [lia|]. split; [reflexivity|]. split; [exact PM|]. split; [exact PE|]. split; [exact E|].
  split; [rewrite PE, PM; apply bit_of_sum; lia|]. split; [|split; [exact P|split; [exact D|]]].
  - intros k K. destruct (Z_lt_ge_dec k 0); [apply Z.testbit_neg_r; lia|]. rewrite PE, PM.
    replace (2^(j+1)*m + e*2^j) with ((2*m+e)*2^j) by (rewrite Z.pow_add_r by lia; ring). apply Z.mul_pow2_bits_low. lia.
  - assert (0 < 2^(j+1)) by lia. nia.
Qed.
Lemma search_back bit pos path ret : search bit pos path ret -> bit <> 0 -> bit <= tree_half n -> negb (Z.land ret bit =? 0) = true ->
  search (uwrap 32 (Z.shiftl bit 1)) (if negb (Z.land path (uwrap 32 (Z.shiftl bit 1)) =? 0) then pos - uwrap 32 (Z.shiftl bit 1) else pos) path (Z.ldiff ret bit).
Proof.
  intros SR NB HB R. destruct (search_bit _ _ _ _ SR NB HB) as (j & m & e & J & -> & PM & PE & E & TB & LO & P & D & M).
  pose proof H as (H0 & H1 & H2). rewrite land_pow2, negb_involutive in R by lia. rewrite pow_succ_shift by lia.
  assert (e = 0). { pose proof (D j ltac:(lia)) as X. rewrite R, TB in X. destruct (e =? 1) eqn:EE; [discriminate|]. apply Z.eqb_neq in EE. lia. }
  subst e. assert (PP : path = pos) by lia. clear PE. subst path. rewrite land_pow2, negb_involutive by lia.
  pose proof (Z.div_mod m 2 ltac:(lia)) as DM. pose proof (Z.mod_pos_bound m 2 ltac:(lia)) as MB.
  assert (T1 : Z.testbit pos (j+1) = (m mod 2 =? 1)).
  { rewrite <- (bit_of_sum (j+1) (m/2) (m mod 2)) by lia. f_equal. rewrite PM. rewrite (Z.pow_add_r 2 (j+1) 1) by lia. rewrite DM at 1. ring. }
  assert (DD : forall k, 0 <= k -> Z.testbit (Z.ldiff ret (2^j)) k && Z.testbit pos k = false).
  { intros k K. rewrite Z.ldiff_spec. pose proof (D k K) as X. destruct (Z.testbit pos k); [rewrite andb_true_r in *; rewrite X; reflexivity|apply andb_false_r]. }
  assert (0 <= m / 2) by (apply Z.div_pos; lia).
  rewrite T1. destruct (m mod 2 =? 1) eqn:EM; [apply Z.eqb_eq in EM|apply Z.eqb_neq in EM].
  - assert (PX : pos - 2^(j+1) = 2^(j+1+1) * (m/2)). { rewrite PM. rewrite (Z.pow_add_r 2 (j+1) 1) by lia. rewrite DM at 1. rewrite EM. change (2^1) with 2. ring. }
    split; [assert (0 < 2^(j+1)) by lia; assert (0 <= 2^(j+1+1) * (m/2)) by (apply Z.mul_nonneg_nonneg; lia); lia|]. split; [exact DD|]. right. exists (j+1), (m/2), 1. repeat split; try lia.
  - split; [exact P|]. split; [exact DD|]. right. exists (j+1), (m/2), 0. split; [lia|]. split; [reflexivity|]. split; [|lia].
    rewrite PM. rewrite (Z.pow_add_r 2 (j+1) 1) by lia. rewrite DM at 1. change (2^1) with 2. replace (m mod 2) with 0 by lia. ring.
Qed.
Lemma pow_half j : 0 <= j < 31 -> 0 < 2^j <= 2^30.
Proof. intros J. split; [lia|]. apply Z.pow_le_mono_r; lia. Qed.
(** One level down, on the right or on the left. *)
Lemma search_down j m pos ret : 0 <= j <= h -> 0 <= pos < n -> pos = 2^j * m -> (forall k, 0 <= k -> Z.testbit ret k && Z.testbit pos k = false) ->
  search (Z.shiftr (2^j) 1) pos pos ret.
Proof.
  intros J P PM D. split; [exact P|]. split; [exact D|]. destruct (Z.eq_dec j 0) as [->|].
  - left. split; reflexivity.
  - right. exists (j-1), m, 0. split; [lia|]. replace j with (j-1+1) at 1 by lia. rewrite pow_shiftr by lia. split; [reflexivity|].
    replace (j-1+1) with j by lia. repeat split; lia.
Qed.
Lemma search_right bit pos path ret : search bit pos path ret -> bit <> 0 -> bit <= tree_half n -> negb (Z.land ret bit =? 0) = false -> negb (Z.land path bit =? 0) = false ->
  uwrap 32 (pos + bit) = pos + bit /\ Z.lor path bit = pos + bit /\ search bit pos (pos + bit) ret /\
  (pos + bit < n -> search (Z.shiftr bit 1) (pos + bit) (pos + bit) ret).
Proof.
  intros SR NB HB R L. destruct (search_bit _ _ _ _ SR NB HB) as (j & m & e & J & -> & PM & PE & E & TB & LO & P & D & M).
  pose proof H as (H0 & H1 & H2). rewrite land_pow2, negb_involutive in R, L by lia. rewrite TB in L. apply Z.eqb_neq in L.
  assert (e = 0) by lia. subst e. assert (path = pos) by lia. clear PE. subst path. pose proof (pow_half j ltac:(lia)) as PH.
  assert (LB : Z.lor pos (2^j) = pos + 2^j) by (apply lor_pow2; [lia|rewrite TB; reflexivity]).
  assert (DD : forall k, 0 <= k -> Z.testbit ret k && Z.testbit (pos + 2^j) k = false).
  { intros k K. rewrite <- LB, Z.lor_spec, Z.pow2_bits_eqb by lia. destruct (j =? k) eqn:EK.
    - apply Z.eqb_eq in EK. subst k. rewrite R. reflexivity.
    - rewrite orb_false_r. apply D. exact K. }
  split; [apply uwrap_id; lia|]. split; [exact LB|]. split.
  - split; [exact P|]. split; [exact DD|]. right. exists j, m, 1. repeat split; lia.
  - intros PN. apply (search_down j (2*m+1)); auto; [lia|lia|]. rewrite PM, Z.pow_add_r by lia. ring.
Qed.
Lemma search_left bit pos path ret : search bit pos path ret -> bit <> 0 -> bit <= tree_half n -> negb (Z.land ret bit =? 0) = false -> negb (Z.land path bit =? 0) = true ->
  Z.ldiff path bit = pos /\ search bit pos pos (Z.lor ret bit) /\ uwrap 32 (pos + bit) = pos + bit /\ exists j m, 0 <= j < h /\ bit = 2^j /\ pos = 2^(j+1)*m.
Proof.
  intros SR NB HB R L. destruct (search_bit _ _ _ _ SR NB HB) as (j & m & e & J & -> & PM & PE & E & TB & LO & P & D & M).
  pose proof H as (H0 & H1 & H2). rewrite land_pow2, negb_involutive in R, L by lia. pose proof L as L1. rewrite TB in L1. apply Z.eqb_eq in L1.
  subst e. pose proof (pow_half j ltac:(lia)) as PH.
  assert (LB : Z.ldiff path (2^j) = pos) by (rewrite ldiff_pow2 by (auto; lia); lia).
  assert (DD : forall k, 0 <= k -> Z.testbit (Z.lor ret (2^j)) k && Z.testbit pos k = false).
  { intros k K. rewrite <- LB, Z.lor_spec, Z.ldiff_spec, Z.pow2_bits_eqb by lia. destruct (j =? k) eqn:EK.
    - rewrite andb_false_r. apply andb_false_r.
    - rewrite orb_false_r, andb_true_r. apply D. exact K. }
  split; [exact LB|]. split.
  - split; [exact P|]. split; [exact DD|]. right. exists j, m, 0. repeat split; lia.
  - split; [apply uwrap_id; lia|]. exists j, m. auto.
Qed.

Lemma inv_step s a s' : inv s -> step s a = Some s' -> inv s'.
Proof.
  intros I S. pose proof H as (H0 & H1 & H2).
  assert (LT : forall t, pcs s t <> Idle -> (t < threads)%nat). { intros t X. destruct (Nat.lt_ge_cases t threads) as [|GE]; auto. exfalso. apply X. apply (i_ids _ I). exact GE. }
  destruct a as [t e|t]; cbn [Pool_Model.step] in S.
  - (* calls *)
    destruct (Nat.ltb t threads) eqn:TT; [|discriminate]. apply Nat.ltb_lt in TT. destruct (pcs s t) eqn:EP; try discriminate.
    destruct e; try discriminate.
    + injection S as <-. assert (I' := inv_local s t TSize I TT Logic.I). rewrite EP in I'. specialize (I' ltac:(intros; reflexivity) ltac:(intros; reflexivity)).
      destruct I' as [I1 I2 I3 I4 I5 I6 I7 I8]. constructor; auto.
    + destruct (inside n i) eqn:EI; cbn [andb] in S; [|discriminate]. apply inside_iff in EI. destruct (out false (log s) i) eqn:EO; [|discriminate]. injection S as <-.
      destruct I as [I1 I2 I3 I4 I5 I6 I7 I8].
      assert (NT : forall t, ~ tok (pcs s t) i). { intros x X. rewrite (I7 _ _ X) in EO. discriminate. }
      assert (S1 : sem s i = 1). { destruct (I3 i) as [Z|Z]; auto. destruct (I4 i Z) as [Y _]. congruence. }
      constructor; cbn [sem size pcs log out].
      * intros x. destruct (upd_cases (pcs s) t (RStore i) x) as [[-> ->]|[NE ->]]; auto.
      * intros x X. rewrite upd_other by lia. auto.
      * exact I3.
      * intros k Z. destruct (I4 k Z) as [A B]. destruct (i =? k) eqn:EK; [apply Z.eqb_eq in EK; subst k; congruence|]. apply Z.eqb_neq in EK. split; auto.
        intros x. destruct (upd_cases (pcs s) t (RStore i) x) as [[-> ->]|[NE ->]]; cbn; auto.
      * intros k Z. destruct (i =? k) eqn:EK; [apply Z.eqb_eq in EK; subst k; right; exists t; rewrite upd_same; reflexivity|].
        destruct (I5 k Z) as [A|[x A]]; auto. right. exists x. destruct (upd_cases (pcs s) t (RStore i) x) as [[-> _]|[NE ->]]; auto. rewrite EP in A. contradiction.
      * intros k x y. destruct (upd_cases (pcs s) t (RStore i) x) as [[-> ->]|[NE ->]]; destruct (upd_cases (pcs s) t (RStore i) y) as [[-> ->]|[NE' ->]]; cbn [tok]; auto.
        -- intros -> X. exfalso. exact (NT _ X).
        -- intros X ->. exfalso. exact (NT _ X).
        -- apply I6.
      * intros k x. destruct (upd_cases (pcs s) t (RStore i) x) as [[-> ->]|[NE ->]]; cbn [tok].
        -- intros ->. rewrite Z.eqb_refl. reflexivity.
        -- intros X. destruct (i =? k); auto. apply (I7 k x X).
      * intros q. rewrite I8. f_equal. apply sumn_ext. intros x X. destruct (upd_cases (pcs s) t (RStore i) x) as [[-> ->]|[NE ->]]; auto. rewrite EP. reflexivity.
  - pose proof (i_pc _ I t) as OK. destruct (pcs s t) as [ | |bit pos path ret|bit pos path ret tot|pos temp bit|pos temp bit|r|i|temp bit|temp bit| ] eqn:EP; try discriminate;
      (assert (TT : (t < threads)%nat) by (apply LT; rewrite EP; discriminate)).
    (* moves that only change the local state *)
    all: assert (LOC : forall p, pc_ok p -> (forall i, tok p i <-> tok (pcs s t) i) -> (forall q, pend p q = pend (pcs s t) q) -> inv (Sys (sem s) (size s) (upd (pcs s) t p) (log s))) by (intros; apply inv_local; auto).
    all: rewrite EP in LOC.
    + (* TSize *)
      destruct (inside n 0); [|discriminate]. injection S as <-. apply LOC; destruct (size s 0 =? 0); cbn [pc_ok tok pend]; try exact Logic.I; try (intros; reflexivity). apply search_start.
    + (* THead *)
      cbn [pc_ok] in OK. destruct (bit <=? tree_half n) eqn:EB; [apply Z.leb_le in EB|injection S as <-; apply LOC; [exact Logic.I|intros; reflexivity|intros; reflexivity]].
      destruct (bit =? 0) eqn:E0.
      * apply Z.eqb_eq in E0. subst bit. destruct (inside n pos) eqn:EI; [|discriminate]. apply inside_iff in EI.
        destruct (sem s pos =? 0) eqn:ES.
        -- (* the test and set succeeds *)
           apply Z.eqb_eq in ES. injection S as <-. destruct I as [I1 I2 I3 I4 I5 I6 I7 I8]. destruct (I4 pos ES) as [NO NT].
           constructor; cbn [sem size pcs log].
           ++ intros x. destruct (upd_cases (pcs s) t (TDec pos pos 1) x) as [[-> ->]|[NE ->]]; auto. cbn [pc_ok]. split; [exact EI|].
              exists 0, pos. change (2^0) with 1. repeat split; lia.
           ++ intros x X. rewrite upd_other by lia. auto.
           ++ intros i. unfold put. destruct (i =? pos); auto.
           ++ intros i. destruct (Z.eq_dec i pos) as [->|NE]; [rewrite put_same; discriminate|rewrite put_other by auto]. intros Z. destruct (I4 i Z) as [A B]. split; auto.
              intros x. destruct (upd_cases (pcs s) t (TDec pos pos 1) x) as [[-> ->]|[NE' ->]]; cbn; auto.
           ++ intros i. destruct (Z.eq_dec i pos) as [->|NE]; [intros _; right; exists t; rewrite upd_same; reflexivity|rewrite put_other by auto]. intros Z.
              destruct (I5 i Z) as [A|[x A]]; auto. right. exists x. destruct (upd_cases (pcs s) t (TDec pos pos 1) x) as [[-> _]|[NE' ->]]; auto. rewrite EP in A. contradiction.
           ++ intros k x y. destruct (upd_cases (pcs s) t (TDec pos pos 1) x) as [[-> ->]|[NE ->]]; destruct (upd_cases (pcs s) t (TDec pos pos 1) y) as [[-> ->]|[NE' ->]]; cbn [tok]; auto.
              ** intros <- X. exfalso. exact (NT _ X).
              ** intros X <-. exfalso. exact (NT _ X).
              ** apply I6.
           ++ intros k x. destruct (upd_cases (pcs s) t (TDec pos pos 1) x) as [[-> ->]|[NE ->]]; cbn [tok]; [intros <-; exact NO|apply I7].
           ++ intros q. rewrite (sumn_change (fun t => pend (pcs s t) q) _ _ t TT) by (intros x0 X0; cbv beta; rewrite (upd_other _ _ _ x0) by auto; reflexivity). rewrite I8. rewrite upd_same, EP. cbn [pend].
              rewrite (count_change n (fun i => (sem s i =? 0) && anc h q i) (fun i => (put (sem s) pos 1 i =? 0) && anc h q i) pos EI).
              ** rewrite put_same, ES. cbn [Z.eqb andb b2z]. destruct (anc h q pos); cbn [b2z]; lia.
              ** intros x X. rewrite put_other; auto.
        -- (* it fails *)
           apply Z.eqb_neq in ES. assert (S1 : sem s pos = 1) by (destruct (i_sem _ I pos); [contradiction|auto]). injection S as <-.
           set (p := THead 1 (if negb (Z.land path 1 =? 0) then pos - 1 else pos) path ret).
           assert (I' : inv (Sys (sem s) (size s) (upd (pcs s) t p) (log s))) by (apply LOC; [apply search_fail; exact OK|intros; reflexivity|intros; reflexivity]).
           destruct I' as [I1 I2 I3 I4 I5 I6 I7 I8]. assert (PX : forall i, put (sem s) pos 1 i = sem s i) by (intros i; unfold put; destruct (i =? pos) eqn:E; auto; apply Z.eqb_eq in E; congruence).
           constructor; cbn [sem size pcs log] in *; auto; try (intros i; rewrite PX; auto; fail).
           intros q. rewrite I8. f_equal. apply count_ext. intros i _. rewrite PX. reflexivity.
      * apply Z.eqb_neq in E0. destruct (negb (Z.land ret bit =? 0)) eqn:ER.
        -- injection S as <-. apply LOC; [|intros; reflexivity|intros; reflexivity]. cbn [pc_ok]. apply search_back; auto.
        -- destruct (negb (Z.land path bit =? 0)) eqn:EL.
           ++ destruct (inside n pos); [|discriminate]. injection S as <-. apply LOC; [|intros; reflexivity|intros; reflexivity]. cbn [pc_ok].
              destruct (search_left _ _ _ _ OK E0 EB ER EL) as (A & B & C & j & m & J & J1 & J2). rewrite A. split; [exact B|]. split; [reflexivity|]. exists j. auto.
           ++ destruct (search_right _ _ _ _ OK E0 EB ER EL) as (A & B & C & D). rewrite A, B in S. destruct (pos + bit <? n) eqn:EN.
              ** apply Z.ltb_lt in EN. destruct (inside n (pos + bit)); [|discriminate].
                 destruct (size s (pos + bit) >? 0); injection S as <-; (apply LOC; [|intros; reflexivity|intros; reflexivity]); cbn [pc_ok]; auto.
              ** injection S as <-. apply LOC; [|intros; reflexivity|intros; reflexivity]. exact C.
    + (* TTot *)
      destruct OK as (OK & -> & j & J & ->).
      assert (G : forall b : bool, search (if b then Z.shiftr (2^j) 1 else 2^j) pos pos ret).
      { intros [|]; [|exact OK]. destruct OK as (P & D & [[E _]|(j' & m & e & J' & B & PM & PE & E)]); [exfalso; assert (0 < 2^j) by lia; lia|].
        assert (EJ : j' = j) by (apply (Z.pow_inj_r 2); lia). subst j'. apply (search_down j (2*m)); [lia|exact P|rewrite PM, Z.pow_add_r by lia; ring|exact D]. }
      destruct (uwrap 32 (pos + 2^j) <? n); [destruct (inside n (uwrap 32 (pos + 2^j))); [|discriminate]|]; injection S as <-; (apply LOC; [apply G|intros; reflexivity|intros; reflexivity]).
    + (* TDec *)
      cbn [pc_ok] in OK. destruct OK as [OK W]. destruct (inside n temp) eqn:EI; [|discriminate]. injection S as <-.
      replace (size s temp - 1) with (size s temp + -1) by lia. apply inv_size; auto; rewrite ?EP; cbn [pc_ok tok pend]; auto; try (intros; reflexivity).
      intros q. destruct (q =? temp) eqn:EQ; [apply Z.eqb_eq in EQ; subst q; rewrite anc_refl by lia; reflexivity|]. rewrite andb_true_r. lia.
    + (* TDecLoop *)
      cbn [pc_ok] in OK. destruct OK as [OK W]. injection S as <-. destruct (bit <=? tree_half n) eqn:EB; [apply Z.leb_le in EB|apply Z.leb_gt in EB].
      * destruct (walk_up _ _ W EB) as [W1 W2]. cbn zeta in W1, W2. destruct (negb (Z.land temp bit =? 0)).
        -- apply LOC; cbn [pc_ok tok pend]; auto; try (intros; reflexivity). intros q. rewrite W2 by auto. reflexivity.
        -- apply LOC; cbn [pc_ok tok pend]; auto; intros; reflexivity.
      * apply LOC; cbn [pc_ok tok pend]; auto; try (intros; reflexivity). intros q. rewrite (walk_top _ _ W) by lia. rewrite anc_of_zero by lia. destruct (q =? 0); reflexivity.
    + (* TRet *)
      injection S as <-. destruct I as [I1 I2 I3 I4 I5 I6 I7 I8].
      assert (OUT : forall k, out false ((t, ERetTake r) :: log s) k = match r with Some j => if j =? k then true else out false (log s) k | None => out false (log s) k end) by (intros k; destruct r; reflexivity).
      constructor; cbn [sem size pcs log].
      * intros x. destruct (upd_cases (pcs s) t Idle x) as [[-> ->]|[NE ->]]; auto. exact Logic.I.
      * intros x X. rewrite upd_other by lia. auto.
      * exact I3.
      * intros k Z. rewrite OUT. destruct (I4 k Z) as [A B]. split.
        -- destruct r as [j|]; auto. destruct (j =? k) eqn:EK; auto. apply Z.eqb_eq in EK. subst k. exfalso. apply (B t). rewrite EP. reflexivity.
        -- intros x. destruct (upd_cases (pcs s) t Idle x) as [[-> ->]|[NE ->]]; cbn; auto.
      * intros k Z. rewrite OUT. destruct (I5 k Z) as [A|[x A]].
        -- left. destruct r as [j|]; auto. destruct (j =? k); auto.
        -- destruct (Nat.eq_dec x t) as [->|NE].
           ++ rewrite EP in A. destruct r as [j|]; [|contradiction]. cbn in A. subst k. left. rewrite Z.eqb_refl. reflexivity.
           ++ right. exists x. rewrite upd_other by auto. exact A.
      * intros k x y. destruct (upd_cases (pcs s) t Idle x) as [[-> ->]|[NE ->]]; destruct (upd_cases (pcs s) t Idle y) as [[-> ->]|[NE' ->]]; cbn [tok]; auto; try contradiction. apply I6.
      * intros k x. rewrite OUT. destruct (upd_cases (pcs s) t Idle x) as [[-> ->]|[NE ->]]; cbn [tok]; [contradiction|]. intros X. destruct r as [j|]; [|apply (I7 k x X)].
        destruct (j =? k) eqn:EK; [|apply (I7 k x X)]. apply Z.eqb_eq in EK. subst k. exfalso. apply NE. apply (I6 j); auto. rewrite EP. reflexivity.
      * intros q. rewrite I8. f_equal. apply sumn_ext. intros x X. destruct (upd_cases (pcs s) t Idle x) as [[-> ->]|[NE ->]]; auto. rewrite EP. reflexivity.
    + (* RStore *)
      cbn [pc_ok] in OK. destruct (inside n i); [|discriminate]. injection S as <-. destruct I as [I1 I2 I3 I4 I5 I6 I7 I8].
      assert (TI : tok (pcs s t) i) by (rewrite EP; reflexivity).
      assert (S1 : sem s i = 1). { destruct (I3 i) as [Z|Z]; auto. destruct (I4 i Z) as [_ Y]. exfalso. exact (Y t TI). }
      constructor; cbn [sem size pcs log].
      * intros x. destruct (upd_cases (pcs s) t (RInc i 1) x) as [[-> ->]|[NE ->]]; auto. cbn [pc_ok]. exists 0, i. change (2^0) with 1. repeat split; lia.
      * intros x X. rewrite upd_other by lia. auto.
      * intros k. unfold put. destruct (k =? i); auto.
      * intros k. destruct (Z.eq_dec k i) as [->|NE].
        -- intros _. split; [apply (I7 i t TI)|]. intros x. destruct (upd_cases (pcs s) t (RInc i 1) x) as [[-> ->]|[NE ->]]; [exact (fun X => X)|]. intros X. apply NE. apply (I6 i); auto.
        -- rewrite put_other by auto. intros Z. destruct (I4 k Z) as [A B]. split; auto. intros x. destruct (upd_cases (pcs s) t (RInc i 1) x) as [[-> ->]|[NE' ->]]; cbn; auto.
      * intros k. destruct (Z.eq_dec k i) as [->|NE]; [rewrite put_same; discriminate|rewrite put_other by auto]. intros Z. destruct (I5 k Z) as [A|[x A]]; auto.
        right. exists x. destruct (upd_cases (pcs s) t (RInc i 1) x) as [[-> _]|[NE' ->]]; auto. rewrite EP in A. cbn in A. congruence.
      * intros k x y. destruct (upd_cases (pcs s) t (RInc i 1) x) as [[-> ->]|[NE ->]]; destruct (upd_cases (pcs s) t (RInc i 1) y) as [[-> ->]|[NE' ->]]; cbn [tok]; auto; try contradiction. apply I6.
      * intros k x. destruct (upd_cases (pcs s) t (RInc i 1) x) as [[-> ->]|[NE ->]]; cbn [tok]; [contradiction|apply I7].
      * intros q. rewrite (sumn_change (fun t => pend (pcs s t) q) _ _ t TT) by (intros x0 X0; cbv beta; rewrite (upd_other _ _ _ x0) by auto; reflexivity). rewrite I8. rewrite upd_same, EP. cbn [pend].
        rewrite (count_change n (fun i => (sem s i =? 0) && anc h q i) (fun k => (put (sem s) i 0 k =? 0) && anc h q k) i OK).
        -- rewrite put_same, S1. cbn [Z.eqb andb b2z]. destruct (anc h q i); cbn [b2z]; lia.
        -- intros x X. rewrite put_other; auto.
    + (* RInc *)
      cbn [pc_ok] in OK. destruct (inside n temp) eqn:EI; [|discriminate]. injection S as <-. apply inv_size; auto; rewrite ?EP; cbn [pc_ok tok pend]; auto; try (intros; reflexivity).
      intros q. destruct (q =? temp) eqn:EQ; [apply Z.eqb_eq in EQ; subst q; rewrite anc_refl by lia; reflexivity|]. rewrite andb_true_r. lia.
    + (* RLoop *)
      cbn [pc_ok] in OK. injection S as <-. destruct (bit <=? tree_half n) eqn:EB; [apply Z.leb_le in EB|apply Z.leb_gt in EB].
      * destruct (walk_up _ _ OK EB) as [W1 W2]. cbn zeta in W1, W2. destruct (negb (Z.land temp bit =? 0)).
        -- apply LOC; cbn [pc_ok tok pend]; auto; try (intros; reflexivity). intros q. rewrite W2 by auto. reflexivity.
        -- apply LOC; cbn [pc_ok tok pend]; auto; intros; reflexivity.
      * apply LOC; cbn [pc_ok tok pend]; auto; try (intros; reflexivity). intros q. rewrite (walk_top _ _ OK) by lia. rewrite anc_of_zero by lia. destruct (q =? 0); reflexivity.
    + (* RRet *)
      injection S as <-. assert (I' := LOC Idle Logic.I ltac:(intros; reflexivity) ltac:(intros; reflexivity)). destruct I' as [I1 I2 I3 I4 I5 I6 I7 I8]. constructor; auto.
Qed.

(** The constructor establishes it. *)
Lemma return_loop_ok : forall fuel bit temp sz j, 0 <= j <= h -> bit = 2^j -> walk temp bit -> h - j < Z.of_nat fuel ->
  forall q, return_loop fuel (tree_half n) bit temp sz q = sz q + b2z (anc h q temp && negb (q =? temp)).
Proof.
  pose proof H as (H0 & H1 & H2). induction fuel as [|f IH]; intros bit temp sz j J EB W F q; [lia|]. cbn [return_loop].
  destruct (bit <=? tree_half n) eqn:E; [apply Z.leb_le in E|apply Z.leb_gt in E].
  - destruct (walk_up _ _ W E) as [W1 W2]. cbn zeta in W1, W2. pose proof E as E'. rewrite EB in E'. apply Z.leb_le in E'. rewrite (le_half n h) in E' by (auto; lia). apply Z.ltb_lt in E'.
    assert (B2 : uwrap 32 (Z.shiftl bit 1) = 2^(j+1)) by (rewrite EB; apply pow_succ_shift; lia).
    destruct (negb (Z.land temp bit =? 0)) eqn:EL.
    + rewrite (IH _ _ _ (j+1)) by (auto; lia). rewrite W2 by auto. unfold put. destruct (q =? temp - bit) eqn:EQ.
      * apply Z.eqb_eq in EQ. subst q. rewrite anc_refl by lia. cbn. lia.
      * rewrite andb_true_r. reflexivity.
    + rewrite (IH _ _ _ (j+1)) by (auto; lia). reflexivity.
  - rewrite (walk_top _ _ W) by lia. rewrite anc_of_zero by lia. destruct (q =? 0); cbn; lia.
Qed.
Lemma return_one_ok i sz q : 0 <= i < n -> return_one (tree_half n) i sz q = sz q + b2z (anc h q i).
Proof.
  intros I. pose proof H as (H0 & H1 & H2). unfold return_one. rewrite (return_loop_ok _ _ _ _ 0) by (try lia; try (exists 0, i; change (2^0) with 1; repeat split; lia)).
  unfold put. destruct (q =? i) eqn:E; [apply Z.eqb_eq in E; subst q; rewrite anc_refl by lia; cbn; lia|]. rewrite andb_true_r. reflexivity.
Qed.
Lemma inv_init : inv (init n false).
Proof.
  constructor; cbn [init sem size pcs log tok out].
  - intros t. exact Logic.I.
  - reflexivity.
  - auto.
  - auto.
  - discriminate.
  - contradiction.
  - contradiction.
  - intros q. rewrite (sumn_zero _ threads) by (intros; reflexivity). rewrite Z.add_0_r. unfold count.
    assert (G : forall k, Z.of_nat k <= n -> fold_left (fun sz i => return_one (tree_half n) (Z.of_nat i) sz) (seq 0 k) (fun _ => 0) q = sumn (fun i => b2z ((0 =? 0) && anc h q (Z.of_nat i))) k).
    { induction k as [|k IH]; intros K; [reflexivity|]. rewrite seq_S, fold_left_app. cbn [fold_left sumn]. rewrite return_one_ok by lia. rewrite IH by lia. reflexivity. }
    apply G. lia.
Qed.
Lemma inv_exec sched s : exec step (init n false) sched = Some s -> inv s.
Proof. apply (exec_inv step inv inv_step). exact inv_init. Qed.
End Inv.
