(** Proofs about the interpolating broker. *)
From Coq Require Import QArith Qround Lqa.
From Verif Require Import Base Itp_Model Itp_Spec.
Local Open Scope Z_scope.

(** ** Numbers *)

Lemma trunc_whole q : whole q (trunc q).
Proof.
  unfold whole, trunc. destruct (0 <=? Qnum q) eqn:E.
  - left. split; [unfold Qle; cbn; lia|]. split; [apply Qfloor_le|apply Qlt_floor].
  - right. split; [unfold Qle; cbn; lia|].
    pose proof (Qle_ceiling q). pose proof (Qceiling_lt q). auto.
Qed.

Lemma whole_between lo hi q z : lo <= 0 <= hi -> (inject_Z lo <= q <= inject_Z hi)%Q -> whole q z -> lo <= z <= hi.
Proof.
  intros H0 [H1 H2] [(A & B & C)|(A & B & C)].
  - assert (inject_Z z <= inject_Z hi)%Q by lra. assert (inject_Z 0 < inject_Z (z + 1))%Q by (change (inject_Z 0) with 0%Q; lra).
    rewrite <- Zle_Qle in H. rewrite <- Zlt_Qlt in H3. lia.
  - assert (inject_Z lo <= inject_Z z)%Q by lra. assert (inject_Z (z - 1) < inject_Z 0)%Q by (change (inject_Z 0) with 0%Q; lra).
    rewrite <- Zle_Qle in H. rewrite <- Zlt_Qlt in H3. lia.
Qed.

Lemma type_zero bits sgn z : in_ty (ITy bits sgn) z -> imin (ITy bits sgn) <= 0 <= imax (ITy bits sgn).
Proof.
  unfold in_ty, imin, imax. cbn [isgn ibits]. destruct sgn; [|lia].
  intros H. destruct (Z_le_dec 0 (bits - 1)) as [L|G]; [|rewrite Z.pow_neg_r in H |- * by lia; lia].
  assert (0 < 2 ^ (bits - 1)) by (apply Z.pow_pos_nonneg; lia). lia.
Qed.

Lemma whole_eq q r z : (q == r)%Q -> whole q z -> whole r z.
Proof.
  intros E [(A & B & C)|(A & B & C)]; [left|right]; rewrite <- E; auto.
Qed.

Lemma difference_ok k v0 v1 : typed k v0 -> typed k v1 -> fits k v0 v1 ->
  exists d, difference k v1 v0 = Some d /\ (d == v1 - v0)%Q.
Proof.
  intros T0 T1 F. destruct k as [bits sgn|]; cbn [difference]; [|eexists; split; [reflexivity|lra]].
  cbn [typed] in *. destruct T0 as (z0 & -> & R0), T1 as (z1 & -> & R1). rewrite !Qfloor_Z.
  assert (E : (inject_Z (z1 - z0) == inject_Z z1 - inject_Z z0)%Q) by (unfold Qeq, inject_Z; cbn; lia).
  cbn [fits] in F. destruct (bits <? 32) eqn:Eb; [eexists; split; [reflexivity|exact E]|].
  destruct sgn.
  - rewrite <- E in F. destruct F as [F1 F2]. rewrite <- Zle_Qle in F1, F2.
    replace (- 2 ^ (bits - 1) <=? z1 - z0) with true by lia.
    replace (z1 - z0 <=? 2 ^ (bits - 1) - 1) with true by lia. eexists. split; [reflexivity|exact E].
  - rewrite <- Zle_Qle in F. rewrite uwrap_id; [eexists; split; [reflexivity|exact E]|].
    unfold in_ty, imin, imax in *. cbn [isgn ibits] in *. lia.
Qed.

(** The line stays between its ends. *)
Lemma line_between t0 v0 t1 v1 x : t0 < x <= t1 ->
  (v0 <= v1 -> v0 <= line t0 v0 t1 v1 x <= v1)%Q /\ (v1 <= v0 -> v1 <= line t0 v0 t1 v1 x <= v0)%Q.
Proof.
  intros H. unfold line. set (l := (inject_Z (x - t0) / inject_Z (t1 - t0))%Q).
  assert (P : (0 < inject_Z (t1 - t0))%Q) by (change 0%Q with (inject_Z 0); rewrite <- Zlt_Qlt; lia).
  assert (L : (0 <= l <= 1)%Q).
  { unfold l. split.
    - apply Qle_shift_div_l; [exact P|]. rewrite Qmult_0_l. change 0%Q with (inject_Z 0). rewrite <- Zle_Qle. lia.
    - apply Qle_shift_div_r; [exact P|]. rewrite Qmult_1_l. rewrite <- Zle_Qle. lia. }
  clearbody l. split; intros V; split; nra.
Qed.

Lemma to_type_ok k v0 v1 t0 t1 x q : typed k v0 -> typed k v1 -> t0 < x <= t1 -> (q == line t0 v0 t1 v1 x)%Q ->
  exists g, to_type k q = Some g /\ stands_for k (line t0 v0 t1 v1 x) g.
Proof.
  intros T0 T1 H E. destruct k as [bits sgn|]; cbn [to_type]; [|eexists; split; [reflexivity|exact E]].
  destruct T0 as (z0 & -> & R0), T1 as (z1 & -> & R1).
  assert (B : (inject_Z (imin (ITy bits sgn)) <= q <= inject_Z (imax (ITy bits sgn)))%Q).
  { destruct (line_between t0 (inject_Z z0) t1 (inject_Z z1) x H) as [L1 L2].
    unfold in_ty in R0, R1. destruct R0 as [A1 A2], R1 as [A3 A4]. rewrite Zle_Qle in A1, A2, A3, A4.
    destruct (Qlt_le_dec (inject_Z z1) (inject_Z z0)) as [C|C].
    - assert (D : (inject_Z z1 <= inject_Z z0)%Q) by lra. specialize (L2 D). lra.
    - specialize (L1 C). lra. }
  pose proof (whole_between _ _ _ _ (type_zero bits sgn z0 R0) B (trunc_whole q)) as W.
  replace (imin (ITy bits sgn) <=? trunc q) with true by lia.
  replace (trunc q <=? imax (ITy bits sgn)) with true by lia. cbn [andb].
  eexists. split; [reflexivity|]. cbn [stands_for]. exists (trunc q). split; [|reflexivity].
  eapply whole_eq; [exact E|apply trunc_whole].
Qed.

(** ** Loops *)

Lemma all1_ok {A C} (f : A -> option C) (R : A -> C -> Prop) l :
  (forall a, In a l -> exists c, f a = Some c /\ R a c) -> exists l', all1 f l = Some l' /\ Forall2 R l l'.
Proof.
  induction l as [|a l IH]; intros H; cbn [all1]; [exists []; split; constructor|].
  destruct (H a (or_introl eq_refl)) as (c & -> & Rc). destruct IH as (l' & -> & F).
  - intros a' Ha. apply H. right. exact Ha.
  - exists (c :: l'). split; [reflexivity|constructor; auto].
Qed.

Lemma all2_ok {A B C} (f : A -> B -> option C) (R : A -> B -> C -> Prop) la : forall lb,
  length la = length lb ->
  (forall i a b, nth_error la i = Some a -> nth_error lb i = Some b -> exists c, f a b = Some c /\ R a b c) ->
  exists l, all2 f la lb = Some l /\ length l = length la /\
    forall i a b c, nth_error la i = Some a -> nth_error lb i = Some b -> nth_error l i = Some c -> R a b c.
Proof.
  induction la as [|a la IH]; intros [|b lb] L H; try discriminate L; cbn [all2].
  - exists []. split; [reflexivity|]. split; [reflexivity|]. intros [|i] a b c Q; discriminate Q.
  - destruct (H 0%nat a b eq_refl eq_refl) as (c & -> & Rc).
    destruct (IH lb ltac:(cbn in L; lia)) as (l & -> & Ll & F).
    + intros i. apply (H (S i)).
    + exists (c :: l). split; [reflexivity|]. split; [cbn; lia|].
      intros [|i] a' b' c'; cbn; [intros E1 E2 E3; injection E1 as <-; injection E2 as <-; injection E3 as <-; exact Rc|apply F].
Qed.

Lemma all2_inv {A B C} (f : A -> B -> option C) (g : A -> B -> C -> Prop) la : forall lb l,
  (forall a b c, f a b = Some c -> g a b c) -> all2 f la lb = Some l ->
  length la = length lb /\ length l = length la /\
  forall i a b c, nth_error la i = Some a -> nth_error lb i = Some b -> nth_error l i = Some c -> g a b c.
Proof.
  induction la as [|a la IH]; intros [|b lb] l H; cbn [all2]; try discriminate.
  - intros E. injection E as <-. split; [reflexivity|]. split; [reflexivity|]. intros [|i] a b c Q; discriminate Q.
  - destruct (f a b) as [c|] eqn:Ef; [|discriminate]. destruct (all2 f la lb) as [l'|] eqn:El; [|discriminate].
    intros E. injection E as <-. destruct (IH lb l' H El) as (L1 & L2 & L3).
    split; [cbn; lia|]. split; [cbn; lia|].
    intros [|i] a' b' c'; cbn; [|apply L3]. intros E1 E2 E3. injection E1 as <-. injection E2 as <-. injection E3 as <-.
    apply H, Ef.
Qed.

(** ** The slope *)

Lemma slopes_ok k dx y0 : forall y1 m, length y0 = length y1 -> Forall (typed k) y0 -> Forall (typed k) y1 ->
  (forall e, (e < length y0)%nat -> fits k (nth e y0 0%Q) (nth e y1 0%Q)) ->
  (forall e e', (e < length y0)%nat -> (e' < length y0)%nat ->
     (nth e y1 0 - nth e y0 0 == nth e' y1 0 - nth e' y0 0)%Q) ->
  exists m', slopes k dx y0 y1 m = Some m' /\
    forall e, (e < length y0)%nat -> (m' == (nth e y1 0 - nth e y0 0) / inject_Z dx)%Q.
Proof.
  induction y0 as [|a y0 IH]; intros [|b y1] m L T0 T1 F U; try discriminate L; cbn [slopes].
  - exists m. split; [reflexivity|]. intros e He. cbn in He. lia.
  - inversion T0; subst. inversion T1; subst.
    destruct (difference_ok k a b H1 H3 (F 0%nat ltac:(cbn; lia))) as (d & -> & Ed).
    destruct (IH y1 (d / inject_Z dx)%Q ltac:(cbn in L; lia) H2 H4) as (m' & Em & G).
    + intros e He. apply (F (S e)). cbn. lia.
    + intros e e' He He'. apply (U (S e) (S e')); cbn; lia.
    + exists m'. split; [exact Em|]. intros [|e] He; [|apply G; cbn in He; lia].
      destruct y0 as [|a2 y0].
      * destruct y1; [|discriminate L]. cbn [slopes] in Em. injection Em as <-. cbn [nth]. rewrite Ed. reflexivity.
      * rewrite (G 0%nat ltac:(cbn; lia)). rewrite (U 0%nat 1%nat) by (cbn; lia). reflexivity.
Qed.

(** ** The history after a reset *)

Section History.

Variable s : source.
Variable kinds : list kind.
Variable sizes : list nat.
Variables a z : nat.
Hypothesis U : usable s kinds sizes a z.
Hypothesis Un : uniform s kinds sizes a z.
Hypothesis Mo : moderate s kinds sizes a z.

Lemma time_mono n n' : (a <= n)%nat -> (n < n')%nat -> (n' <= z)%nat -> s_time s n < s_time s n'.
Proof.
  intros H1 H2 H3. induction n' as [|n' IH]; [lia|].
  pose proof (us_time _ _ _ _ _ U n' ltac:(lia)) as T.
  destruct (Nat.eq_dec n n') as [->|N]; [exact T|]. specialize (IH ltac:(lia) ltac:(lia)). lia.
Qed.

Lemma advance_ok x fuel : forall n trigger, (a <= n <= z)%nat -> (forall n', (a <= n')%nat -> (n' < n)%nat -> s_time s n' < x) ->
  x <= s_time s z -> (z - n < fuel)%nat ->
  exists j, advance fuel s x n trigger = Some (true, trigger || (s_time s n <? x), j) /\ needed s a x j /\ (n <= j <= z)%nat.
Proof.
  induction fuel as [|fuel IH]; intros n trigger Hn Hp Hz Hf; [lia|]. cbn [advance].
  destruct (x <=? s_time s n) eqn:E.
  - exists n. replace (s_time s n <? x) with false by lia. rewrite orb_false_r.
    split; [reflexivity|]. split; [|lia]. split; [lia|]. split; [lia|exact Hp].
  - assert (n <> z) by (intros ->; lia).
    rewrite (us_sync _ _ _ _ _ U) by lia.
    pose proof (us_time _ _ _ _ _ U n ltac:(lia)) as T.
    replace (s_time s (S n) =? s_time s n) with false by lia.
    destruct (IH (S n) true) as (j & Ej & Nj & Lj); try lia.
    + intros n' H1 H2. destruct (Nat.eq_dec n' n) as [->|N]; [lia|apply Hp; lia].
    + exists j. rewrite Ej. replace (s_time s n <? x) with true by lia. rewrite orb_true_r. cbn [orb].
      split; [reflexivity|]. split; [exact Nj|lia].
Qed.

(** The broker holds the values of sample [n] as the end of its segment. *)
Definition ends_at (b : broker) (n : nat) : Prop :=
  length (b_copies b) = length kinds /\ b_x1 b = s_time s n /\
  forall i c, nth_error (b_copies b) i = Some c -> c_kind c = nth i kinds KFlt /\ c_y1 c = signal s n i.

Definition segment (b : broker) (n n' : nat) : Prop :=
  ends_at b n' /\ b_x0 b = s_time s n /\
  forall i c, nth_error (b_copies b) i = Some c -> c_y0 c = signal s n i /\
    forall e, (e < nth i sizes 0)%nat ->
      (c_m c == (nth e (signal s n' i) 0 - nth e (signal s n i) 0) / inject_Z (s_time s n' - s_time s n))%Q.

Lemma value_at n i v : (a <= n <= z)%nat -> nth_error (s_values s n) i = Some v -> v = signal s n i /\ (i < length kinds)%nat.
Proof.
  intros Hn E. split; [unfold signal; symmetry; apply nth_error_nth; exact E|].
  rewrite <- (us_signals _ _ _ _ _ U n Hn). apply nth_error_Some. congruence.
Qed.

Lemma change_ok b n n' : (a <= n)%nat -> (n < n')%nat -> (n' <= z)%nat -> ends_at b n -> b_at b = n' ->
  exists b', change_segments s b = Some b' /\ segment b' n n' /\ b_at b' = n' /\ b_x b' = b_x b /\ b_reset b' = b_reset b.
Proof.
  intros Hn Hl Hz (L & X1 & Y) At.
  pose proof (us_width _ _ _ _ _ U n ltac:(lia)) as W0. pose proof (us_width _ _ _ _ _ U n' ltac:(lia)) as W1.
  pose proof (time_mono n n' Hn Hl Hz) as T.
  unfold change_segments. rewrite X1, At. replace (s_time s n' =? s_time s n) with false by lia.
  rewrite uwrap_id by lia. set (dx := s_time s n' - s_time s n).
  destruct (all2_ok (change_segment dx)
    (fun c v c' => c_kind c' = c_kind c /\ c_y0 c' = c_y1 c /\ c_y1 c' = v /\
       forall e, (e < length v)%nat -> (c_m c' == (nth e v 0 - nth e (c_y1 c) 0) / inject_Z dx)%Q)
    (b_copies b) (s_values s n')) as (cs & E & Lc & R).
  - rewrite L. symmetry. apply (us_signals _ _ _ _ _ U). lia.
  - intros i c v Ec Ev. destruct (Y i c Ec) as [Yk Y1]. destruct (value_at n' i v ltac:(lia) Ev) as [-> Hi].
    unfold change_segment.
    destruct (slopes_ok (c_kind c) dx (c_y1 c) (signal s n' i) (c_m c)) as (m & Em & Gm).
    + rewrite Y1. rewrite !(us_size _ _ _ _ _ U) by lia. reflexivity.
    + rewrite Y1, Yk. apply (us_typed _ _ _ _ _ U); lia.
    + rewrite Yk. apply (us_typed _ _ _ _ _ U); lia.
    + rewrite Y1, Yk. intros e He. apply Mo; auto. rewrite (us_size _ _ _ _ _ U) in He by lia. exact He.
    + rewrite Y1. rewrite (us_size _ _ _ _ _ U) by lia. intros e e' He He'. apply Un; auto; lia.
    + rewrite Em. eexists. split; [reflexivity|]. cbn [c_kind c_y0 c_y1 c_m].
      split; [reflexivity|]. split; [reflexivity|]. split; [reflexivity|].
      intros e He. apply Gm. rewrite Y1. rewrite (us_size _ _ _ _ _ U) in He |- * by lia. exact He.
  - rewrite E. eexists. split; [reflexivity|]. split; [|cbn; auto].
    assert (Get : forall i c', nth_error cs i = Some c' -> exists c v, nth_error (b_copies b) i = Some c /\
      nth_error (s_values s n') i = Some v).
    { intros i c' Ei. assert (Hi : (i < length cs)%nat) by (apply nth_error_Some; congruence).
      destruct (nth_error (b_copies b) i) as [c|] eqn:E1; [|apply nth_error_None in E1; lia].
      destruct (nth_error (s_values s n') i) as [v|] eqn:E2; [eauto|]. apply nth_error_None in E2.
      rewrite (us_signals _ _ _ _ _ U) in E2 by lia. lia. }
    split; [|split; [reflexivity|]]; cbn [b_copies].
    + split; [cbn [b_copies]; lia|]. split; [reflexivity|]. cbn [b_copies]. intros i c' Ei.
      destruct (Get i c' Ei) as (c & v & E1 & E2). destruct (R i c v c' E1 E2 Ei) as (R1 & R2 & R3 & _).
      destruct (Y i c E1) as [Yk Y1]. destruct (value_at n' i v ltac:(lia) E2) as [-> _]. split; congruence.
    + intros i c' Ei. destruct (Get i c' Ei) as (c & v & E1 & E2).
      destruct (R i c v c' E1 E2 Ei) as (R1 & R2 & R3 & R4).
      destruct (Y i c E1) as [Yk Y1]. destruct (value_at n' i v ltac:(lia) E2) as [-> Hi].
      split; [congruence|]. intros e He. rewrite <- Y1. apply R4. rewrite (us_size _ _ _ _ _ U) by lia. exact He.
Qed.

Lemma interpolate_ok b n n' x : (a <= n)%nat -> (n < n')%nat -> (n' <= z)%nat -> segment b n n' ->
  s_time s n < x <= s_time s n' ->
  exists cs, all1 (interpolate x (b_x0 b)) (b_copies b) = Some cs /\
    length cs = length kinds /\
    (forall i c', nth_error cs i = Some c' -> exists c, nth_error (b_copies b) i = Some c /\
       c_kind c' = c_kind c /\ c_y0 c' = c_y0 c /\ c_y1 c' = c_y1 c /\ c_m c' = c_m c /\
       length (c_gam c') = nth i sizes 0%nat /\
       forall e, (e < nth i sizes 0)%nat ->
         stands_for (nth i kinds KFlt)
           (line (s_time s n) (nth e (signal s n i) 0%Q) (s_time s n') (nth e (signal s n' i) 0%Q) x) (nth e (c_gam c') 0%Q)).
Proof.
  intros Hn Hl Hz ((L & X1 & Y) & X0 & G) Hx.
  pose proof (us_width _ _ _ _ _ U n ltac:(lia)) as W0. pose proof (us_width _ _ _ _ _ U n' ltac:(lia)) as W1.
  assert (Ux : uwrap 64 (x - b_x0 b) = x - s_time s n) by (rewrite X0; apply uwrap_id; lia).
  (* one signal *)
  assert (One : forall i c, nth_error (b_copies b) i = Some c -> exists c', interpolate x (b_x0 b) c = Some c' /\
       c_kind c' = c_kind c /\ c_y0 c' = c_y0 c /\ c_y1 c' = c_y1 c /\ c_m c' = c_m c /\
       length (c_gam c') = nth i sizes 0%nat /\
       forall e, (e < nth i sizes 0)%nat ->
         stands_for (nth i kinds KFlt)
           (line (s_time s n) (nth e (signal s n i) 0%Q) (s_time s n') (nth e (signal s n' i) 0%Q) x) (nth e (c_gam c') 0%Q)).
  { intros i c Ei. assert (Hi : (i < length kinds)%nat) by (rewrite <- L; apply nth_error_Some; congruence).
    destruct (Y i c Ei) as [Yk Y1]. destruct (G i c Ei) as [Y0 Gm].
    unfold interpolate. rewrite Ux, Yk, Y0.
    pose proof (us_size _ _ _ _ _ U n i ltac:(lia) Hi) as S0. pose proof (us_size _ _ _ _ _ U n' i ltac:(lia) Hi) as S1.
    pose proof (us_typed _ _ _ _ _ U n i ltac:(lia) Hi) as T0. pose proof (us_typed _ _ _ _ _ U n' i ltac:(lia) Hi) as T1.
    rewrite Forall_forall in T0, T1.
    assert (El : forall e, (e < nth i sizes 0)%nat -> exists g,
      to_type (nth i kinds KFlt) (nth e (signal s n i) 0 + c_m c * inject_Z (x - s_time s n))%Q = Some g /\
      stands_for (nth i kinds KFlt)
        (line (s_time s n) (nth e (signal s n i) 0%Q) (s_time s n') (nth e (signal s n' i) 0%Q) x) g).
    { intros e He. apply to_type_ok; [apply T0, nth_In; lia|apply T1, nth_In; lia|exact Hx|].
      unfold line. rewrite (Gm e He). unfold Qdiv. ring. }
    assert (A1 : exists g, all1 (fun y => to_type (nth i kinds KFlt) (y + c_m c * inject_Z (x - s_time s n))%Q) (signal s n i) = Some g /\
      length g = length (signal s n i) /\
      forall e, (e < length (signal s n i))%nat ->
        to_type (nth i kinds KFlt) (nth e (signal s n i) 0 + c_m c * inject_Z (x - s_time s n))%Q = Some (nth e g 0%Q)).
    { rewrite <- S0 in El. clear - El. revert El. generalize (signal s n' i) as l'. generalize (signal s n i) as l.
      induction l as [|y l IH]; intros l' El; cbn [all1]; [exists []; split; [reflexivity|split; [reflexivity|cbn; lia]]|].
      destruct (El 0%nat ltac:(cbn; lia)) as (g0 & E0 & _). cbn [nth] in E0. rewrite E0.
      destruct (IH (skipn 1 l')) as (g & Eg & Lg & Ng).
      - intros e He. destruct (El (S e) ltac:(cbn; lia)) as (g1 & E1 & S1). exists g1. split; [exact E1|].
        destruct l' as [|y' l']; [|exact S1]. cbn [skipn]. destruct e; exact S1.
      - rewrite Eg. exists (g0 :: g). split; [reflexivity|]. split; [cbn; lia|].
        intros [|e] He; [exact E0|apply Ng; cbn in He; lia]. }
    destruct A1 as (g & -> & Lg & Ng). eexists. split; [reflexivity|]. cbn [c_kind c_y0 c_y1 c_m c_gam].
    split; [reflexivity|]. split; [reflexivity|]. split; [reflexivity|]. split; [reflexivity|].
    split; [lia|]. intros e He. destruct (El e He) as (g1 & E1 & S1'). rewrite Ng in E1 by lia. injection E1 as <-. exact S1'. }
  assert (All : forall l k, (forall i c, nth_error l i = Some c -> nth_error (b_copies b) (k + i) = Some c) ->
    exists cs, all1 (interpolate x (b_x0 b)) l = Some cs /\ length cs = length l /\
      forall i c', nth_error cs i = Some c' -> exists c, nth_error l i = Some c /\ interpolate x (b_x0 b) c = Some c').
  { induction l as [|c l IH]; intros k Hk; cbn [all1].
    - exists []. split; [reflexivity|]. split; [reflexivity|]. intros [|i] c' Q; discriminate Q.
    - destruct (One (k + 0)%nat c (Hk 0%nat c eq_refl)) as (c1 & E1 & _). rewrite E1.
      destruct (IH (S k)) as (cs & -> & Lc & Nc).
      + intros i c2 E2. replace (S k + i)%nat with (k + S i)%nat by lia. apply Hk. exact E2.
      + exists (c1 :: cs). split; [reflexivity|]. split; [cbn; lia|].
        intros [|i] c'; cbn; [intros Q; injection Q as <-; eauto|apply Nc]. }
  destruct (All (b_copies b) 0%nat (fun i c H => H)) as (cs & E & Lc & Nc).
  exists cs. split; [exact E|]. split; [lia|]. intros i c' Ei. destruct (Nc i c' Ei) as (c & E1 & E2).
  exists c. split; [exact E1|]. destruct (One i c E1) as (c2 & E3 & H). rewrite E2 in E3. injection E3 as <-. exact H.
Qed.

(** The time of the [k]-th cycle after the reset. *)
Definition at_cycle (k : nat) : Z := s_time s a + Z.of_nat k * s_period s.

Definition reads (b : broker) (k n n' : nat) : Prop :=
  length (b_copies b) = length kinds /\
  forall i, (i < length kinds)%nat -> length (nth i (map c_gam (b_copies b)) []) = nth i sizes 0%nat /\
    forall e, (e < nth i sizes 0)%nat ->
    stands_for (nth i kinds KFlt)
      (line (s_time s n) (nth e (signal s n i) 0%Q) (s_time s n') (nth e (signal s n' i) 0%Q) (at_cycle k)) (gam b i e).

Definition after (b : broker) (k : nat) : Prop :=
  b_reset b = false /\ b_x b = at_cycle k /\ needed s a (at_cycle k) (b_at b) /\ (b_at b <= z)%nat /\ ends_at b (b_at b) /\
  ((0 < k)%nat -> exists n k', (a <= n)%nat /\ (n < b_at b)%nat /\ segment b n (b_at b) /\ s_time s n < at_cycle k /\
     (k' < k)%nat /\ needed s a (at_cycle k') n /\ needed s a (at_cycle (S k')) (b_at b) /\ reads b k n (b_at b)).

Lemma step_ok fuel b k : after b k -> (z - a < fuel)%nat -> at_cycle (S k) <= s_time s z ->
  exists b', execute fuel s b = Some (true, b') /\ after b' (S k).
Proof.
  intros (Er & Ex & Nd & Az & En & Sg) Hf Hz.
  pose proof (us_period _ _ _ _ _ U) as Pp.
  assert (Na : (a <= b_at b)%nat) by apply Nd.
  pose proof (us_width _ _ _ _ _ U a ltac:(lia)) as Wa. pose proof (us_width _ _ _ _ _ U z ltac:(lia)) as Wz.
  assert (Cy : at_cycle (S k) = at_cycle k + s_period s) by (unfold at_cycle; lia).
  assert (Ca : s_time s a <= at_cycle k) by (unfold at_cycle; nia).
  unfold execute. rewrite Er, Ex. rewrite uwrap_id by lia. rewrite <- Cy.
  destruct (advance_ok (at_cycle (S k)) fuel (b_at b) false) as (j & Ej & Nj & Lj); try lia.
  { intros n' H1 H2. destruct Nd as (_ & _ & Nd). specialize (Nd n' H1 H2). lia. }
  rewrite Ej. cbn [orb negb].
  set (b1 := Broker (b_x0 b) (b_x1 b) (at_cycle (S k)) false (b_copies b) j).
  (* the segment *)
  assert (Seg : exists b2 n k', (if s_time s (b_at b) <? at_cycle (S k) then change_segments s b1 else Some b1) = Some b2 /\
    segment b2 n j /\ (a <= n)%nat /\ (n < j)%nat /\ s_time s n < at_cycle (S k) /\ (k' < S k)%nat /\
    needed s a (at_cycle k') n /\ needed s a (at_cycle (S k')) j).
  { destruct (s_time s (b_at b) <? at_cycle (S k)) eqn:Et.
    - assert (Lt : (b_at b < j)%nat).
      { destruct (Nat.eq_dec (b_at b) j) as [Q|Q]; [|lia]. destruct Nj as (_ & Nj & _). rewrite <- Q in Nj. lia. }
      destruct (change_ok b1 (b_at b) j Na Lt ltac:(lia) En eq_refl) as (b2 & E2 & S2 & _).
      exists b2, (b_at b), k. split; [exact E2|]. split; [exact S2|]. split; [exact Na|]. split; [exact Lt|].
      split; [lia|]. split; [lia|]. split; [exact Nd|exact Nj].
    - assert (j = b_at b) as ->.
      { destruct (Nat.eq_dec (b_at b) j) as [Q|Q]; [auto|]. destruct Nj as (_ & _ & Nj).
        specialize (Nj (b_at b) Na ltac:(lia)). lia. }
      assert (k <> 0)%nat.
      { intros ->. destruct Nd as (_ & N2 & N3). destruct (Nat.eq_dec a (b_at b)) as [Q|Q].
        - rewrite <- Q in Et. unfold at_cycle in Et. lia.
        - specialize (N3 a ltac:(lia) ltac:(lia)). unfold at_cycle in N3. lia. }
      destruct (Sg ltac:(lia)) as (n & k' & H1 & H2 & H3 & H4 & H5 & H6 & H7 & _).
      exists b1, n, k'. split; [reflexivity|]. split; [exact H3|]. split; [exact H1|]. split; [exact H2|].
      split; [lia|]. split; [lia|]. split; [exact H6|exact H7]. }
  destruct Seg as (b2 & n & k' & -> & S2 & H1 & H2 & H3 & H4 & H5 & H6).
  destruct (interpolate_ok b2 n j (at_cycle (S k)) H1 H2 ltac:(lia) S2) as (cs & -> & Lc & Nc).
  { destruct Nj as (_ & Nj & _). lia. }
  eexists. split; [reflexivity|]. destruct S2 as ((L2 & X2 & Y2) & X0 & G2).
  assert (Ends : ends_at (Broker (b_x0 b2) (b_x1 b2) (at_cycle (S k)) false cs j) j).
  { split; [exact Lc|]. split; [exact X2|]. cbn [b_copies]. intros i c' Ei.
    destruct (Nc i c' Ei) as (c & E1 & K1 & K2 & K3 & _). destruct (Y2 i c E1). split; congruence. }
  split; [reflexivity|]. split; [reflexivity|]. split; [exact Nj|]. split; [cbn; lia|]. split; [exact Ends|].
  intros _. exists n, k'. cbn [b_at]. split; [exact H1|]. split; [exact H2|]. split.
  { split; [exact Ends|]. split; [exact X0|]. cbn [b_copies]. intros i c' Ei.
    destruct (Nc i c' Ei) as (c & E1 & K1 & K2 & K3 & K4 & _). destruct (G2 i c E1) as [A1 A2].
    split; [congruence|]. rewrite K4. exact A2. }
  split; [exact H3|]. split; [exact H4|]. split; [exact H5|]. split; [exact H6|].
  split; [exact Lc|]. intros i Hi. unfold gam. cbn [b_copies].
  assert (Hc : (i < length cs)%nat) by lia.
  destruct (nth_error cs i) as [c'|] eqn:Ei; [|apply nth_error_None in Ei; lia].
  assert (Eg : nth i (map c_gam cs) [] = c_gam c').
  { apply nth_error_nth. rewrite nth_error_map, Ei. reflexivity. }
  rewrite Eg. destruct (Nc i c' Ei) as (c & _ & _ & _ & _ & _ & K5 & K6). split; [exact K5|exact K6].
Qed.

Lemma change_inv dx c v c' : change_segment dx c v = Some c' -> c_kind c' = c_kind c /\ c_y1 c' = v.
Proof.
  unfold change_segment. destruct (slopes _ _ _ _ _) as [m|]; [|discriminate]. intros Q. injection Q as <-. auto.
Qed.

(** The first call after a reset. *)
Lemma first_ok fuel b b0 : matches b kinds -> b_at b = a -> (a <= z)%nat -> reset s b = Some b0 ->
  exists b', execute fuel s b0 = Some (true, b') /\ after b' 0 /\ map c_gam (b_copies b') = s_values s a.
Proof.
  intros Ma At Az Er. unfold reset in Er.
  destruct (change_segments s b) as [b1|] eqn:E1; [|discriminate]. injection Er as <-.
  unfold change_segments in E1. rewrite At in E1.
  destruct (all2 _ (b_copies b) (s_values s a)) as [cs|] eqn:E2; [|discriminate]. injection E1 as <-.
  cbn [b_x0 b_x1 b_copies b_at] in *.
  destruct (all2_inv _ (fun c v c' => c_kind c' = c_kind c /\ c_y1 c' = v) _ _ _
    (change_inv _) E2) as (L1 & L2 & L3).
  assert (Lk : length (b_copies b) = length kinds) by (rewrite <- Ma, map_length; reflexivity).
  unfold execute. cbn [b_reset b_copies b_at b_x0 b_x1 b_x].
  destruct (all2_ok copy_first (fun c v c' => c_kind c' = c_kind c /\ c_y1 c' = c_y1 c /\ c_gam c' = v) cs (s_values s a))
    as (cs2 & E3 & L4 & L5).
  { lia. }
  { intros i c v _ _. eexists. split; [reflexivity|]. cbn. auto. }
  rewrite E3. eexists. split; [reflexivity|].
  assert (Get : forall i c2, nth_error cs2 i = Some c2 -> exists c v c1, nth_error (b_copies b) i = Some c /\
    nth_error (s_values s a) i = Some v /\ nth_error cs i = Some c1).
  { intros i c2 Ei. assert (Hi : (i < length cs2)%nat) by (apply nth_error_Some; congruence).
    destruct (nth_error (b_copies b) i) as [c|] eqn:Q1; [|apply nth_error_None in Q1; lia].
    destruct (nth_error (s_values s a) i) as [v|] eqn:Q2; [|apply nth_error_None in Q2; lia].
    destruct (nth_error cs i) as [c1|] eqn:Q3; [|apply nth_error_None in Q3; lia]. eauto 10. }
  split.
  - split; [reflexivity|]. cbn [b_x b_at]. split; [unfold at_cycle; rewrite At; cbn; lia|].
    split; [split; [lia|]; split; [unfold at_cycle; cbn; lia|intros; lia]|]. split; [lia|].
    split; [|intros; lia]. split; [cbn; lia|]. split; [reflexivity|]. cbn [b_copies]. intros i c2 Ei.
    destruct (Get i c2 Ei) as (c & v & c1 & G1 & G2 & G3).
    destruct (L3 i c v c1 G1 G2 G3) as [A1 A2]. destruct (L5 i c1 v c2 G3 G2 Ei) as (A3 & A4 & _).
    destruct (value_at a i v ltac:(lia) G2) as [-> Hi]. split; [|congruence].
    rewrite A3, A1. rewrite <- Ma. symmetry. erewrite nth_error_nth; [reflexivity|]. rewrite nth_error_map, G1. reflexivity.
  - cbn [b_copies]. apply nth_ext with (d := []) (d' := []); [rewrite map_length; lia|].
    intros i Hi. rewrite map_length in Hi. destruct (nth_error cs2 i) as [c2|] eqn:Ei; [|apply nth_error_None in Ei; lia].
    destruct (Get i c2 Ei) as (c & v & c1 & G1 & G2 & G3).
    destruct (L5 i c1 v c2 G3 G2 Ei) as (_ & _ & A5).
    rewrite (nth_error_nth (s_values s a) i [] G2). apply nth_error_nth. rewrite nth_error_map, Ei. cbn. congruence.
Qed.

Lemma history_ok fuel b b0 k : matches b kinds -> b_at b = a -> (a <= z)%nat -> reset s b = Some b0 ->
  (z - a < fuel)%nat -> at_cycle k <= s_time s z ->
  exists b', executes fuel s (S k) b0 = Some b' /\ after b' k /\ (k = 0%nat -> map c_gam (b_copies b') = s_values s a).
Proof.
  intros Ma At Az Er Hf. induction k as [|k IH]; intros Hz.
  - destruct (first_ok fuel b b0 Ma At Az Er) as (b' & E & A & G). exists b'. cbn [executes]. rewrite E. auto.
  - pose proof (us_period _ _ _ _ _ U) as Pp.
    destruct IH as (b1 & E1 & A1 & _); [unfold at_cycle in *; nia|].
    destruct (step_ok fuel b1 k A1 Hf Hz) as (b2 & E2 & A2). exists b2.
    change (executes fuel s (S (S k)) b0) with
      (match executes fuel s (S k) b0 with None => None
       | Some b1 => match execute fuel s b1 with Some (true, b2) => Some b2 | _ => None end end).
    rewrite E1, E2. split; [reflexivity|]. split; [exact A2|discriminate].
Qed.

End History.
