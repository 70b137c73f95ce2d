(** Proofs about the functions on C texts. *)
From Verif Require Import Base Shp_Model Shp_Spec.

Lemma not_in_cons (c : Z) s : ~ In 0 (c :: s) -> c <> 0 /\ ~ In 0 s.
Proof. cbn. intros H. split; [intros ->; auto|auto]. Qed.
Ltac nz H := let A := fresh "Hc" in let B := fresh "Hs" in destruct (not_in_cons _ _ H) as [A B].

Lemma length_text m s : text m s -> length_of m = Some (len s).
Proof.
  intros (r & -> & H). induction s as [|c s IH]; cbn [app length_of length]; [reflexivity|].
  nz H. replace (c =? 0) with false by lia. rewrite IH by assumption. f_equal. lia.
Qed.

(** Order *)
Lemma at_diff a p x r : a ++ [0] = p ++ x :: r -> nth (length p) a 0 = x.
Proof.
  intros E. assert (L : (length p <= length a)%nat) by (apply (f_equal (@length Z)) in E; rewrite !app_length in E; cbn in E; lia).
  assert (N : nth (length p) (a ++ [0]) 0 = x) by (rewrite E, app_nth2, Nat.sub_diag by lia; reflexivity).
  destruct (Nat.eq_dec (length p) (length a)) as [Q|Q].
  - rewrite Q in *. rewrite app_nth2, Nat.sub_diag in N by lia. rewrite nth_overflow by lia. exact N.
  - rewrite app_nth1 in N by lia. exact N.
Qed.
Lemma before_diff a p x r k : a ++ [0] = p ++ x :: r -> (k < length p)%nat -> nth k a 0 = nth k p 0.
Proof.
  intros E K. assert (L : (length p <= length a)%nat) by (apply (f_equal (@length Z)) in E; rewrite !app_length in E; cbn in E; lia).
  pose proof (f_equal (fun l => nth k l 0) E) as N. cbv beta in N. rewrite !app_nth1 in N by lia. exact N.
Qed.
Lemma nth_cut (n k : nat) (a : list Z) : (k < n)%nat -> nth k (firstn n a) 0 = nth k a 0.
Proof. revert n k. induction a as [|x a IH]; intros [|n] [|k] H; cbn; try lia; auto. apply IH. lia. Qed.
Lemma less_asym n n' a b : less n a b -> less n' b a -> False.
Proof.
  intros (p & x & y & ra & rb & A & B & L & _) (q & x' & y' & ra' & rb' & B' & A' & L' & _).
  pose proof (at_diff _ _ _ _ A). pose proof (at_diff _ _ _ _ B). pose proof (at_diff _ _ _ _ A'). pose proof (at_diff _ _ _ _ B').
  destruct (lt_eq_lt_dec (length p) (length q)) as [[G|G]|G].
  - pose proof (before_diff _ _ _ _ _ A' G). pose proof (before_diff _ _ _ _ _ B' G). lia.
  - rewrite G in *. lia.
  - pose proof (before_diff _ _ _ _ _ A G). pose proof (before_diff _ _ _ _ _ B G). lia.
Qed.
Lemma less_not_equal n a b : less (Some n) a b -> firstn (Z.to_nat n) a <> firstn (Z.to_nat n) b.
Proof.
  intros (p & x & y & ra & rb & A & B & L & N) E.
  pose proof (at_diff _ _ _ _ A) as HA. pose proof (at_diff _ _ _ _ B) as HB.
  rewrite <- (nth_cut (Z.to_nat n)) in HA by lia. rewrite <- (nth_cut (Z.to_nat n)) in HB by lia. rewrite E in HA. lia.
Qed.
Lemma less_irrefl a b : less None a b -> a <> b.
Proof. intros (p & x & y & ra & rb & A & B & L & N) <-. rewrite A in B. apply app_inv_head in B. injection B. lia. Qed.
Lemma less_cons n c a b : less (Some (n - 1)) a b -> less (Some n) (c :: a) (c :: b).
Proof.
  intros (p & x & y & ra & rb & A & B & L & N). exists (c :: p), x, y, ra, rb. cbn [app length]. rewrite A, B. repeat split; auto. lia.
Qed.
Lemma less_cons0 c a b : less None a b -> less None (c :: a) (c :: b).
Proof. intros (p & x & y & ra & rb & A & B & L & N). exists (c :: p), x, y, ra, rb. cbn [app]. rewrite A, B. repeat split; auto. Qed.
Lemma head_char s : exists r, s ++ [0] = hd 0 s :: r.
Proof. destruct s as [|c s]; cbn; eauto. Qed.
Lemma less_head n a b : hd 0 a < hd 0 b -> match n with None => True | Some n => 0 < n end -> less n a b.
Proof. intros L N. destruct (head_char a) as (ra & A). destruct (head_char b) as (rb & B). exists [], (hd 0 a), (hd 0 b), ra, rb. repeat split; auto. Qed.

Lemma compare_text s1 : forall s2 r1 r2, ~ In 0 s1 -> ~ In 0 s2 -> exists r, compare (s1 ++ 0 :: r1) (s2 ++ 0 :: r2) = Some r /\
  ((r = 0 /\ s1 = s2) \/ (r = 1 /\ less None s1 s2) \/ (r = 2 /\ less None s2 s1)).
Proof.
  induction s1 as [|c1 s1 IH]; intros [|c2 s2] r1 r2 H1 H2; cbn [app compare].
  - exists 0. auto.
  - nz H2. destruct (0 >? c2) eqn:G; [exists 2|destruct (0 <? c2) eqn:G2; [exists 1|lia]]; (split; [reflexivity|]); [right; right|right; left]; (split; [reflexivity|]); apply less_head; cbn; auto; lia.
  - nz H1. destruct (c1 >? 0) eqn:G; [exists 2|destruct (c1 <? 0) eqn:G2; [exists 1|lia]]; (split; [reflexivity|]); [right; right|right; left]; (split; [reflexivity|]); apply less_head; cbn; auto; lia.
  - nz H1. nz H2. destruct (c1 >? c2) eqn:G; [exists 2; split; [reflexivity|]; right; right; split; [reflexivity|]; apply less_head; cbn; auto; lia|].
    destruct (c1 <? c2) eqn:G2; [exists 1; split; [reflexivity|]; right; left; split; [reflexivity|]; apply less_head; cbn; auto; lia|].
    assert (c1 = c2) by lia. subst c2. replace (c1 =? 0) with false by lia. cbn [andb].
    destruct (IH s2 r1 r2) as (r & E & C); auto. exists r. split; [exact E|]. destruct C as [[-> ->]|[[-> C]|[-> C]]]; auto using less_cons0.
Qed.
Lemma compare_n_text s1 : forall s2 r1 r2 n, ~ In 0 s1 -> ~ In 0 s2 -> exists r, compare_n (s1 ++ 0 :: r1) (s2 ++ 0 :: r2) n = Some r /\
  ((r = 0 /\ firstn (Z.to_nat n) s1 = firstn (Z.to_nat n) s2) \/ (r = 1 /\ less (Some n) s1 s2) \/ (r = 2 /\ less (Some n) s2 s1)).
Proof.
  induction s1 as [|c1 s1 IH]; intros [|c2 s2] r1 r2 n H1 H2; cbn [app compare_n]; (destruct (0 <? n) eqn:N; [|exists 0; split; [reflexivity|]; left; split; [reflexivity|]; replace (Z.to_nat n) with 0%nat by lia; reflexivity]).
  - exists 0. auto.
  - nz H2. destruct (0 >? c2) eqn:G; [exists 2|destruct (0 <? c2) eqn:G2; [exists 1|lia]]; (split; [reflexivity|]); [right; right|right; left]; (split; [reflexivity|]); apply less_head; cbn; auto; lia.
  - nz H1. destruct (c1 >? 0) eqn:G; [exists 2|destruct (c1 <? 0) eqn:G2; [exists 1|lia]]; (split; [reflexivity|]); [right; right|right; left]; (split; [reflexivity|]); apply less_head; cbn; auto; lia.
  - nz H1. nz H2. destruct (c1 >? c2) eqn:G; [exists 2; split; [reflexivity|]; right; right; split; [reflexivity|]; apply less_head; cbn; auto; lia|].
    destruct (c1 <? c2) eqn:G2; [exists 1; split; [reflexivity|]; right; left; split; [reflexivity|]; apply less_head; cbn; auto; lia|].
    assert (c1 = c2) by lia. subst c2. replace (c1 =? 0) with false by lia. cbn [andb].
    destruct (IH s2 r1 r2 (n - 1)) as (r & E & C); auto. exists r. split; [exact E|]. destruct C as [[-> C]|[[-> C]|[-> C]]]; auto using less_cons.
    left. split; [reflexivity|]. replace (Z.to_nat n) with (S (Z.to_nat (n - 1))) by lia. cbn. rewrite C. reflexivity.
Qed.
Lemma lower_small c : lower c = small c.
Proof. unfold lower, small. cbv zeta. pose proof (Z.mod_pos_bound c 256 ltac:(lia)). destruct ((65 <=? c mod 256) && (c mod 256 <=? 90)) eqn:E; [|reflexivity]. apply Z.mod_small. lia. Qed.
Lemma small_zero c : -128 <= c <= 127 -> (small c =? 0) = (c =? 0).
Proof.
  intros R. unfold small. cbv zeta. pose proof (Z.mod_pos_bound c 256 ltac:(lia)). destruct (c =? 0) eqn:E; [assert (c = 0) by lia; subst c; reflexivity|].
  assert (c mod 256 <> 0). { intros Z0. apply Z.mod_divide in Z0; [|lia]. destruct Z0 as (k & ->). lia. }
  destruct ((65 <=? c mod 256) && (c mod 256 <=? 90)) eqn:F; lia.
Qed.
Lemma nocase_map m1 : forall m2 n, Forall (fun c => -128 <= c <= 127) m1 -> Forall (fun c => -128 <= c <= 127) m2 ->
  compare_nocase m1 m2 n = compare_n (map small m1) (map small m2) n.
Proof.
  induction m1 as [|c1 m1 IH]; intros [|c2 m2] n F1 F2; cbn [compare_nocase compare_n map]; destruct (0 <? n); try reflexivity.
  pose proof (Forall_inv F1) as R1. pose proof (Forall_inv F2) as R2. cbv beta in R1, R2. rewrite !lower_small, !small_zero by assumption.
  destruct (_ >? _); [reflexivity|]. destruct (_ <? _); [reflexivity|]. destruct (_ && _); [reflexivity|]. apply IH; [exact (Forall_inv_tail F1)|exact (Forall_inv_tail F2)].
Qed.
Lemma small_text s : Forall (fun c => -128 <= c <= 127) s -> ~ In 0 s -> ~ In 0 (map small s).
Proof.
  intros F H X. apply in_map_iff in X. destruct X as (c & E & I). rewrite Forall_forall in F. pose proof (small_zero c (F c I)) as Z0. rewrite E in Z0. cbn in Z0.
  assert (c = 0) by lia. subst c. contradiction.
Qed.

(** Searching for characters *)
Lemma one_of_text c d s : text d s -> c <> 0 -> exists b, one_of c d = Some b /\ (b = true <-> In c s).
Proof.
  intros (r & -> & H) C. induction s as [|x s IH]; cbn [app one_of].
  - replace (c =? 0) with false by lia. exists false. cbn. split; [reflexivity|]. split; [discriminate|contradiction].
  - nz H. destruct (c =? x) eqn:E; [exists true; split; [reflexivity|]; split; [left; lia|reflexivity]|]. replace (x =? 0) with false by lia.
    destruct (IH Hs) as (b & -> & B). exists b. split; [reflexivity|]. rewrite B. cbn. split; [auto|]. intros [->|G]; [lia|exact G].
Qed.
Lemma text_nonempty d s : text d s -> exists x d', d = x :: d'.
Proof. intros (r & -> & _). destruct s; cbn; eauto. Qed.

Lemma search_char_text c s : forall r i, ~ In 0 s -> c <> 0 ->
  (search_char (s ++ 0 :: r) c i = Some None /\ ~ In c s) \/
  (exists a b, s = a ++ c :: b /\ ~ In c a /\ search_char (s ++ 0 :: r) c i = Some (Some (i + len a))).
Proof.
  induction s as [|x s IH]; intros r i H C; cbn [app search_char].
  - replace (0 =? c) with false by lia. left. auto.
  - nz H. destruct (x =? c) eqn:E.
    + right. assert (x = c) by lia. subst x. exists [], s. cbn. repeat split; auto. do 2 f_equal. lia.
    + replace (x =? 0) with false by lia. destruct (IH r (i + 1) Hs C) as [[G N]|(a & b & S & N & G)]; rewrite G.
      * left. split; [reflexivity|]. cbn. intros [->|Q]; [lia|auto].
      * right. exists (x :: a), b. subst s. cbn [app length]. repeat split; auto; [|do 2 f_equal; lia]. cbn. intros [->|Q]; [lia|auto].
Qed.
Lemma search_char_end s : forall r i, ~ In 0 s -> search_char (s ++ 0 :: r) 0 i = Some (Some (i + len s)).
Proof.
  induction s as [|x s IH]; intros r i H; cbn [app search_char length].
  - rewrite Z.eqb_refl. do 2 f_equal. lia.
  - nz H. replace (x =? 0) with false by lia. rewrite IH by assumption. do 2 f_equal. lia.
Qed.
Lemma any_text d ds s : text d ds -> forall r i, ~ In 0 s -> exists a, before_any ds s a /\
  search_index (s ++ 0 :: r) d i = Some (i + len a) /\
  search_chars (s ++ 0 :: r) d i = Some (if (length a =? length s)%nat then None else Some (i + len a)).
Proof.
  intros D. induction s as [|c s IH]; intros r i H; cbn [app search_index search_chars length].
  - exists []. split; [split; [contradiction|left; reflexivity]|]. destruct (text_nonempty _ _ D) as (x & d' & ->). cbn. split; [f_equal; lia|reflexivity].
  - nz H. replace (c =? 0) with false by lia. destruct (one_of_text c d ds D Hc) as (b & -> & B). destruct b.
    + exists []. split; [split; [contradiction|right; exists c, s; split; [reflexivity|apply B; reflexivity]]|]. cbn. split; [f_equal; lia|do 2 f_equal; lia].
    + destruct (IH r (i + 1) Hs) as (a & [N A] & E1 & E2). exists (c :: a). rewrite E1, E2. split; [|split].
      * split; [intros x [<-|X]; [intros Q; apply B in Q; discriminate|exact (N x X)]|]. destruct A as [->|(y & b & -> & Y)]; [left; reflexivity|right; exists y, b; auto].
      * cbn [length]. f_equal. lia.
      * cbn [length Nat.eqb]. destruct (_ =? _)%nat; [reflexivity|]. do 2 f_equal. lia.
Qed.
Lemma last_text c m : forall k, (k <= length m)%nat -> exists r, last_loop k m c = Some r /\
  match r with None => ~ In c (firstn k m) | Some i => exists a b, firstn k m = a ++ c :: b /\ ~ In c b /\ i = len a end.
Proof.
  induction k as [|k IH]; intros L; cbn [last_loop].
  - exists None. cbn. auto.
  - destruct (nth_error m k) as [x|] eqn:E; [|apply nth_error_None in E; lia].
    assert (F : firstn (S k) m = firstn k m ++ [x]).
    { clear IH L. revert m E. induction k as [|k IH]; intros [|y m] E; cbn in *; try discriminate; [injection E as ->; reflexivity|]. rewrite <- (IH m E). reflexivity. }
    rewrite F. destruct (x =? c) eqn:X.
    + assert (x = c) by lia. subst x. exists (Some (Z.of_nat k)). split; [reflexivity|]. exists (firstn k m), []. repeat split; auto. rewrite firstn_length_le by lia. reflexivity.
    + destruct (IH ltac:(lia)) as (r & -> & R). exists r. split; [reflexivity|]. destruct r as [i|].
      * destruct R as (a & b & -> & N & ->). exists a, (b ++ [x]). rewrite <- app_assoc. repeat split; auto. intros Q. apply in_app_or in Q. destruct Q as [Q|[Q|[]]]; [auto|lia].
      * intros Q. apply in_app_or in Q. destruct Q as [Q|[Q|[]]]; [auto|lia].
Qed.
