(** Invariant of MemoryMapAsyncTriggerOutputBroker with at least two buffers, as long as the service thread keeps up. *)
From Verif Require Import Base Conc TrigBroker_Model.
From Verif Require AsyncBroker_Proofs.
Open Scope nat_scope.

(** ** What a log says *)
Fixpoint puts (l : list event) : list (list Z) :=
  match l with [] => [] | EPut x :: l => x :: puts l | _ :: l => puts l end.
Fixpoint syncs (l : list event) : list (list Z) :=
  match l with [] => [] | ESync x :: l => x :: syncs l | _ :: l => syncs l end.
Fixpoint passes (l : list event) : nat :=
  match l with [] => 0 | EPass :: l => S (passes l) | _ :: l => passes l end.

(** ** Selection of samples *)
Section Sel.
Variables (T pre post : nat).
Definition trg (x : list Z) : bool := (0 <? nth T x 0%Z)%Z.
(** Sample i is wanted: some sample j that is not more than pre after it or post before it is triggered. *)
Definition selb (X : list (list Z)) (i : nat) : bool :=
  existsb (fun j => trg (nth j X []) && ((j <=? i + pre) && (i <=? j + post))) (seq 0 (length X)).
Definition chosen (X : list (list Z)) (n : nat) : list (list Z) :=
  flat_map (fun i => if selb X i then [nth i X []] else []) (seq 0 n).
(** The counter of post-trigger buffers after these samples (latest first). *)
Fixpoint cntl (l : list (list Z)) : nat := match l with [] => 0 | x :: l => if trg x then post else cntl l - 1 end.
Definition lastt (l : list (list Z)) : bool := match l with [] => false | x :: _ => trg x end.

Lemma selb_true X i : selb X i = true <-> exists j, j < length X /\ trg (nth j X []) = true /\ j <= i + pre /\ i <= j + post.
Proof.
  unfold selb. rewrite existsb_exists. split.
  - intros (j & A & B). apply in_seq in A. apply andb_true_iff in B. destruct B as [B C]. apply andb_true_iff in C. destruct C as [C D].
    exists j. split; [lia|]. split; [exact B|]. split; apply Nat.leb_le; assumption.
  - intros (j & A & B & C & D). exists j. split; [apply in_seq; lia|]. rewrite B. apply andb_true_iff. split; [reflexivity|].
    apply andb_true_iff. split; apply Nat.leb_le; assumption.
Qed.
Lemma selb_iff X Y i j : (selb X i = true <-> selb Y j = true) -> selb X i = selb Y j.
Proof. intros [A B]. destruct (selb X i), (selb Y j); auto. symmetry. auto. Qed.

Lemma trg_old X x j : j < length X -> trg (nth j (X ++ [x]) []) = trg (nth j X []).
Proof. intro H. rewrite app_nth1 by exact H. reflexivity. Qed.
Lemma trg_new X x : trg (nth (length X) (X ++ [x]) []) = trg x.
Proof. rewrite nth_middle. reflexivity. Qed.

Lemma trg_new' l x : trg (nth (length l) (rev l ++ [x]) []) = trg x.
Proof. rewrite <- (rev_length l). apply trg_new. Qed.

Lemma selb_snoc X x i : i < length X -> selb (X ++ [x]) i = selb X i || (trg x && (length X <=? i + pre)).
Proof.
  intro Hi. apply eq_iff_eq_true. rewrite orb_true_iff, andb_true_iff, !selb_true, Nat.leb_le, app_length. cbn [length]. split.
  - intros (j & A & B & C & D). destruct (Nat.eq_dec j (length X)) as [->|N].
    + rewrite trg_new in B. right. auto.
    + left. exists j. rewrite trg_old in B by lia. repeat split; auto. lia.
  - intros [(j & A & B & C & D)|[A B]].
    + exists j. rewrite trg_old by exact A. repeat split; auto. lia.
    + exists (length X). rewrite trg_new. repeat split; auto; lia.
Qed.
Lemma selb_stable X x i : i + pre < length X -> selb (X ++ [x]) i = selb X i.
Proof.
  intro H. rewrite selb_snoc by lia. replace (length X <=? i + pre) with false by (symmetry; apply Nat.leb_gt; exact H).
  rewrite andb_false_r, orb_false_r. reflexivity.
Qed.
Lemma cntl_spec l : forall k, k < cntl l <-> exists j, j < length l /\ trg (nth j (rev l) []) = true /\ length l + k <= j + post.
Proof.
  induction l as [|x l IH]; intro k; cbn [cntl rev length].
  - split; [lia|intros (j & A & _); inversion A].
  - assert (L : length (rev l) = length l) by apply rev_length. destruct (trg x) eqn:TX.
    + split.
      * intro H. exists (length l). rewrite trg_new'. repeat split; auto; lia.
      * intros (j & A & _ & B). lia.
    + assert (E : k < cntl l - 1 <-> k + 1 < cntl l) by lia. rewrite E, IH. split.
      * intros (j & A & B & C). exists j. rewrite trg_old by lia. repeat split; auto; lia.
      * intros (j & A & B & C). destruct (Nat.eq_dec j (length l)) as [->|N].
        -- rewrite trg_new' in B. congruence.
        -- exists j. rewrite trg_old in B by lia. repeat split; auto; lia.
Qed.
Lemma selb_new l x : selb (rev l ++ [x]) (length l) = trg x || (0 <? cntl l).
Proof.
  apply eq_iff_eq_true. rewrite orb_true_iff, selb_true, Nat.ltb_lt, cntl_spec, app_length. cbn [length].
  assert (L : length (rev l) = length l) by apply rev_length. split.
  - intros (j & A & B & C & D). destruct (Nat.eq_dec j (length l)) as [->|N].
    + left. rewrite trg_new' in B. exact B.
    + right. exists j. rewrite trg_old in B by lia. repeat split; auto; lia.
  - intros [A|(j & A & B & C)].
    + exists (length l). rewrite trg_new'. repeat split; auto; lia.
    + exists j. rewrite trg_old by lia. repeat split; auto; lia.
Qed.
(** After a triggered sample another one selects nothing older that is not already selected. *)
Lemma selb_run l x i : i < length l -> lastt l = true -> selb (rev l ++ [x]) i = selb (rev l) i.
Proof.
  intros Hi HL. assert (L : length (rev l) = length l) by apply rev_length.
  rewrite selb_snoc by lia. rewrite L. destruct (trg x); cbn [andb]; [|apply orb_false_r].
  destruct (Nat.leb_spec (length l) (i + pre)) as [H|H]; [|apply orb_false_r]. rewrite orb_true_r. symmetry. apply selb_true.
  destruct l as [|y l]; [discriminate|]. cbn [lastt rev length] in *. exists (length l). rewrite app_length, rev_length. cbn [length].
  replace (nth (length l) (rev l ++ [y]) []) with y by (rewrite <- rev_length, nth_middle; reflexivity). repeat split; auto; lia.
Qed.
Lemma chosen_snoc X x n : n = 0 \/ n + pre <= length X -> chosen (X ++ [x]) n = chosen X n.
Proof.
  intro H. unfold chosen.
  assert (E : forall i, In i (seq 0 n) -> (if selb (X ++ [x]) i then [nth i (X ++ [x]) []] else []) = (if selb X i then [nth i X []] else [])).
  { intros i Hi. apply in_seq in Hi. rewrite selb_stable by lia. rewrite app_nth1 by lia. reflexivity. }
  revert E. generalize (seq 0 n). intro q. induction q as [|a q IH]; intro E; [reflexivity|]. cbn [flat_map].
  rewrite (E a (or_introl eq_refl)). f_equal. apply IH. intros i Hi. apply E. right. exact Hi.
Qed.
Lemma chosen_succ X n : chosen X (n + 1) = chosen X n ++ (if selb X n then [nth n X []] else []).
Proof. unfold chosen. rewrite seq_app, flat_map_app. cbn [seq flat_map]. rewrite app_nil_r. reflexivity. Qed.
End Sel.

(** ** The invariant *)
Definition mid (p : ppc) : bool := match p with PWrap _ | PPosted | PPost => true | _ => false end.
Definition crit_p (p : ppc) : bool := match p with PInc _ | PWrap _ | PPosted | PPost | PUnlock _ => true | _ => false end.
Definition crit_c (c : cpc) : bool := match c with CRead | CUnl1 _ | CTest | CClrP | CUnl2 => true | _ => false end.
Definition pok (p : ppc) : bool := match p with PTrig b | PPre b _ | PElse b | PCnt b | PInc b | PWrap b | PUnlock b => b | _ => true end.
(** The sample put but not yet published by the write index. *)
Definition unpub (p : ppc) : nat := match p with PLock | PInc _ => 1 | _ => 0 end.

(** The buffers before the first sample that the service thread looks at. *)
Definition lead (pre : nat) : nat := if pre =? 0 then 1 else pre.
Definition ahead (N pre : nat) (l : list event) : Prop := length (puts l) + lead pre + 1 <= N + passes l.
(** At all times there is a free buffer besides the ones not yet passed and the preTriggerBuffers last ones. *)
Definition kept_up (N pre : nat) (l : list event) : Prop := forall l1 l2, l = l1 ++ l2 -> ahead N pre l2.

Lemma mod_rng N n a b : n <= a < n + N -> n <= b < n + N -> a <> b -> a mod N <> b mod N.
Proof.
  intros A B Ne. destruct (Nat.lt_trichotomy a b) as [H|[H|H]]; [|contradiction|].
  - apply AsyncBroker_Proofs.mod_neq. lia.
  - apply not_eq_sym. apply AsyncBroker_Proofs.mod_neq. lia.
Qed.
Lemma mod_back N x p : p < N -> p <= x -> (x - p) mod N = (if x mod N <? p then N + x mod N - p else x mod N - p).
Proof.
  intros Hp Hx. assert (NZ : N <> 0) by lia. pose proof (Nat.div_mod x N NZ) as E. pose proof (Nat.mod_upper_bound x N NZ) as U.
  set (q := x / N) in *. set (m := x mod N) in *. clearbody q m.
  destruct (Nat.ltb_spec m p) as [H|H].
  - destruct q as [|q]; [lia|]. replace (x - p) with ((N + m - p) + q * N) by (rewrite Nat.mul_succ_r in E; rewrite (Nat.mul_comm q N); lia).
    rewrite Nat.mod_add by exact NZ. apply Nat.mod_small. lia.
  - replace (x - p) with ((m - p) + q * N) by (rewrite (Nat.mul_comm q N); lia). rewrite Nat.mod_add by exact NZ. apply Nat.mod_small. lia.
Qed.

Section Inv.
Variables (N K T pre post : nat).
Hypothesis HN : 2 <= N.
Hypothesis HT : T < K.
Hypothesis HP : pre < N.

Notation sel := (selb T pre post).
Notation tr := (trg T).

Definition nxt (C : nat) : nat := N - lead pre + C.

Definition stopped (s : st) (P C stop : nat) (lo : bool) : Prop :=
  exists S, stop = S mod N /\ nxt C <= S /\ S + unpub (pp s) + pre <= N + P /\ S + 1 <= nxt C + N /\
    (S + unpub (pp s) + pre < N + P -> posted s = true \/ mid (pp s) = true) /\ (lo = true -> nxt C < S).
Definition stopc (s : st) (P C : nat) : Prop :=
  match cp s with
  | CUnl1 stop | CLoop stop => stopped s P C stop false
  | CCopy stop _ | CSync stop | CClear stop _ | CNext stop _ => stopped s P C stop true
  | CWait | CLock2 | CTest => nxt C + unpub (pp s) + pre < N + P -> posted s = true \/ mid (pp s) = true
  | _ => True
  end.
Definition wc (s : st) (P : nat) : Prop :=
  w s = match pp s with PWrap _ => (N + P - 1) mod N + 1 | PLock | PInc _ => (N + P - 1) mod N | _ => (N + P) mod N end.
Definition dsmc (s : st) (X : list (list Z)) (C : nat) : Prop :=
  forall c, match cp s with CCopy _ n => c < n /\ c < K | CSync _ => c < K | _ => False end ->
     dsm s c = nth c (nth (nxt C - N) X []) 0%Z.
Definition atc (s : st) (X : list (list Z)) (C : nat) : Prop :=
  match cp s with CCopy _ _ | CSync _ | CClear _ _ => N <= nxt C /\ sel X (nxt C - N) = true | CNext _ _ => tg s (nxt C mod N) = false | _ => True end.
Definition decided (c : cpc) : nat := match c with CClear _ _ | CNext _ _ => 1 | _ => 0 end.
Definition skipped (c : cpc) : nat := match c with CNext _ _ => 1 | _ => 0 end.
(** What the trigger mark of buffer a is. *)
Definition flag (p : ppc) (X : list (list Z)) (x : list Z) (a : nat) : bool :=
  match p with
  | PPre _ j => (N <=? a) && (a <=? N + length X) && ((N + length X <=? a + j) || sel X (a - N))
  | PCnt _ => (N <=? a) && (a <=? N + length X) && sel (X ++ [x]) (a - N)
  | _ => (N <=? a) && (a <? N + length X) && sel X (a - N)
  end.
Definition trc (s : st) (l : list (list Z)) : Prop :=
  match pp s with
  | PPre _ j => tr (cells K (cur s)) = true /\ was s = true /\ j <= pre
  | PElse _ => tr (cells K (cur s)) = false /\ cnt s = cntl T post l
  | PCnt _ => was s = tr (cells K (cur s)) /\ cnt s = cntl T post (cells K (cur s) :: l)
  | _ => was s = lastt T l /\ cnt s = cntl T post l
  end.

Record Inv (s : st) : Prop :=
  { i_pok : pok (pp s) = true;
    i_DQ : passes (log s) + unpub (pp s) <= length (puts (log s)) + (lead pre - pre);
    i_up : unpub (pp s) <= length (puts (log s));
    i_w : wc s (length (puts (log s)));
    i_r : r s = nxt (passes (log s)) mod N;
    i_tg : forall a, nxt (passes (log s)) + skipped (cp s) <= a < nxt (passes (log s)) + N ->
             tg s (a mod N) = flag (pp s) (rev (puts (log s))) (cells K (cur s)) a;
    i_mem : forall a c, nxt (passes (log s)) <= a -> N <= a < N + length (puts (log s)) -> c < K ->
             mem s (a mod N) c = nth c (nth (a - N) (rev (puts (log s))) []) 0%Z;
    i_pc : forall c, match pp s with PCopy n => c < n | PTrig _ | PPre _ _ | PElse _ | PCnt _ => c < K | _ => False end ->
             mem s ((N + length (puts (log s))) mod N) c = cur s c;
    i_tr : trc s (puts (log s));
    i_np : npre s = Nat.min (length (puts (log s))) pre;
    i_stop : stopc s (length (puts (log s))) (passes (log s));
    i_at : atc s (rev (puts (log s))) (passes (log s));
    i_dsm : dsmc s (rev (puts (log s))) (passes (log s));
    i_sync : rev (syncs (log s)) = chosen T pre post (rev (puts (log s))) (nxt (passes (log s)) + decided (cp s) - N);
    i_len : forall x, In x (puts (log s)) -> length x = K;
    i_lk : lk s = crit_p (pp s) || crit_c (cp s);
    i_ex : crit_p (pp s) && crit_c (cp s) = false;
    i_ev : posted s = true -> ev s = true \/ pp s = PPost;
    i_post : pp s = PPost -> posted s = true }.

Ltac fields := cbn [mem tg w r lk ev posted dsm cur was cnt npre pp cp log set_pp set_cp set_lk set_ev set_posted set_was set_cnt set_npre set_w set_r
                    set_tg set_mem set_dsm set_cur say puts syncs passes length unpub mid crit_p crit_c pok orb andb decided skipped] in *.

Lemma lead_pos : 1 <= lead pre /\ pre <= lead pre /\ lead pre + 1 <= N + (if pre =? 0 then 0 else 1) /\ lead pre <= N - 1.
Proof. unfold lead. destruct (Nat.eqb_spec pre 0); lia. Qed.

Lemma inv_init : Inv (init N pre).
Proof.
  pose proof lead_pos as LP.
  constructor; unfold wc, stopc, atc, dsmc, trc, flag, init; fields; cbn [rev length lastt cntl];
    try solve [auto | intros; contradiction | discriminate | lia].
  - rewrite Nat.add_0_r, Nat.mod_same by lia. reflexivity.
  - unfold nxt, lead in *. destruct (Nat.eqb_spec pre 0); symmetry; rewrite Nat.add_0_r; apply Nat.mod_small; lia.
  - replace (nxt 0 + 0 - N) with 0; [reflexivity|]. unfold nxt. lia.
Qed.

Lemma nth_cells f c : c < K -> nth c (cells K f) 0%Z = f c.
Proof.
  intro H. unfold cells. rewrite (nth_indep _ 0%Z (f 0)) by (rewrite map_length, seq_length; exact H).
  rewrite map_nth, seq_nth by exact H. reflexivity.
Qed.
Lemma cells_eq f x : length x = K -> (forall c, c < K -> f c = nth c x 0%Z) -> cells K f = x.
Proof.
  intros L E. apply (nth_ext _ _ 0%Z 0%Z); [unfold cells; rewrite map_length, seq_length; auto|].
  intros c Hc. unfold cells in Hc. rewrite map_length, seq_length in Hc. rewrite nth_cells by exact Hc. auto.
Qed.

Lemma stopc_p s s' P P' C :
  stopc s P C -> cp s' = cp s -> P + unpub (pp s') <= P' + unpub (pp s) ->
  (P + unpub (pp s') = P' + unpub (pp s) /\ (posted s = true \/ mid (pp s) = true -> posted s' = true \/ mid (pp s') = true)
   \/ (posted s' = true \/ mid (pp s') = true)) ->
  stopc s' P' C.
Proof.
  intros H CE L M. unfold stopc in *. rewrite CE.
  assert (ST : forall stop lo, stopped s P C stop lo -> stopped s' P' C stop lo).
  { intros stop lo (S0 & A & B & C0 & D0 & E & F). exists S0. do 2 (split; [assumption|]). split; [clear - C0 L; lia|]. split; [exact D0|].
    split; [|exact F]. intro H1. destruct M as [[M1 M2]|M]; [|exact M]. apply M2, E. clear - H1 M1; lia. }
  assert (SW : (nxt C + unpub (pp s) + pre < N + P -> posted s = true \/ mid (pp s) = true) ->
               (nxt C + unpub (pp s') + pre < N + P' -> posted s' = true \/ mid (pp s') = true)).
  { intros B H1. destruct M as [[M1 M2]|M]; [|exact M]. apply M2, B. clear - H1 M1; lia. }
  destruct (cp s); auto.
Qed.

(** Moves of the real-time thread that leave the buffers alone. *)
Lemma inv_p_light s s' : Inv s ->
  mem s' = mem s -> tg s' = tg s -> r s' = r s -> dsm s' = dsm s -> cp s' = cp s -> npre s' = npre s ->
  puts (log s') = puts (log s) -> syncs (log s') = syncs (log s) -> passes (log s') = passes (log s) ->
  pok (pp s') = true -> unpub (pp s') <= unpub (pp s) -> wc s' (length (puts (log s))) ->
  (forall a, nxt (passes (log s)) <= a < nxt (passes (log s)) + N ->
     flag (pp s') (rev (puts (log s))) (cells K (cur s')) a = flag (pp s) (rev (puts (log s))) (cells K (cur s)) a) ->
  trc s' (puts (log s)) ->
  (forall c, match pp s' with PCopy n => c < n | PTrig _ | PPre _ _ | PElse _ | PCnt _ => c < K | _ => False end ->
             mem s ((N + length (puts (log s))) mod N) c = cur s' c) ->
  (unpub (pp s') = unpub (pp s) /\ (posted s = true \/ mid (pp s) = true -> posted s' = true \/ mid (pp s') = true)
   \/ (posted s' = true \/ mid (pp s') = true)) ->
  lk s' = crit_p (pp s') || crit_c (cp s) -> crit_p (pp s') && crit_c (cp s) = false ->
  (posted s' = true -> ev s' = true \/ pp s' = PPost) -> (pp s' = PPost -> posted s' = true) ->
  Inv s'.
Proof.
  intros V EM ET ER ED EC EN EP ES EPA H1 H2 H3 HF HTR H4 H5 H6 H7 H8 H9.
  destruct V as [V1 V2 V0 V3 V4 V5 V6 V7 V8 V9 V10 V11 V12 V13 V14 V15 V16 V17 V18].
  constructor; try rewrite EM; try rewrite ET; try rewrite EC; rewrite ?EP, ?ES, ?EPA, ?EN; auto.
  - clear - V2 H2. lia.
  - clear - V0 H2. lia.
  - rewrite ER. exact V4.
  - intros a Ha. rewrite HF by (clear - Ha; lia). apply V5. exact Ha.
  - eapply stopc_p; [exact V10|exact EC|clear - H2; lia|].
    destruct H5 as [[H5 H5']|H5]; [left; split; [rewrite H5; reflexivity|exact H5']|right; exact H5].
  - unfold atc in *. rewrite EC, ET. exact V11.
  - unfold dsmc in *. rewrite EC, ED. exact V12.
Qed.

Ltac light V EP W LK EX TR := (* the trivial obligations of inv_p_light *)
  apply (inv_p_light _ _ V); unfold trc in *; fields; rewrite ?EP in *; fields; try reflexivity; try (clear; lia); try exact W; try exact LK; try exact EX;
  try exact TR; try (intros ? []; fail); try exact Logic.I; try (left; split; [reflexivity|]; tauto); try solve [intros ? ?; reflexivity]; try (intros _; reflexivity); try discriminate.

Definition plain (p : ppc) : Prop := crit_p p = false /\ unpub p = 0 /\ mid p = false.
Lemma room s : Inv s -> ahead N pre (log s) -> nxt (passes (log s)) <= N + length (puts (log s)) - unpub (pp s) - pre /\
  N + length (puts (log s)) <= nxt (passes (log s)) + N - 1.
Proof.
  intros V A. pose proof (i_DQ _ V) as Q. pose proof lead_pos as L. unfold ahead in A. unfold nxt. clear - A Q L. lia.
Qed.

Lemma skip_room s : Inv s -> skipped (cp s) = 1 -> nxt (passes (log s)) < N + length (puts (log s)) - pre.
Proof.
  intros V H. pose proof (i_stop _ V) as ST. unfold stopc in ST. destruct (cp s); try discriminate H.
  destruct ST as (S0 & _ & _ & A & _ & _ & B). specialize (B eq_refl). clear - A B. lia.
Qed.

(** Moves of the real-time thread that mark one buffer. *)
Lemma inv_p_mark s s' b v : Inv s -> ahead N pre (log s) ->
  mem s' = mem s -> tg s' = upd (tg s) (b mod N) v -> r s' = r s -> dsm s' = dsm s -> cp s' = cp s -> npre s' = npre s -> w s' = w s -> cur s' = cur s ->
  lk s' = lk s -> ev s' = ev s -> posted s' = posted s -> log s' = log s ->
  pok (pp s') = true -> plain (pp s) -> plain (pp s') -> N + length (puts (log s)) - pre <= b <= N + length (puts (log s)) ->
  (forall a, nxt (passes (log s)) <= a < nxt (passes (log s)) + N ->
     flag (pp s') (rev (puts (log s))) (cells K (cur s)) a = if a =? b then v else flag (pp s) (rev (puts (log s))) (cells K (cur s)) a) ->
  trc s' (puts (log s)) ->
  (forall c, c < K -> mem s ((N + length (puts (log s))) mod N) c = cur s c) ->
  pp s' <> PPost -> pp s <> PPost ->
  (match pp s' with PTrig _ | PPre _ _ | PElse _ | PCnt _ => True | _ => False end) ->
  Inv s'.
Proof.
  intros V A EM ET ER ED EC EN EW ECU EL EE EPO EG H1 (P1 & P2 & P3) (Q1 & Q2 & Q3) HB HF HTR HM NP NP' PK.
  pose proof (room _ V A) as [R1 R2]. pose proof (skip_room _ V) as SR.
  assert (RB : nxt (passes (log s)) + skipped (cp s) <= b < nxt (passes (log s)) + N).
  { destruct (cp s); fields; try specialize (SR eq_refl); clear - HB R1 R2 SR HN; lia. }
  destruct V as [V1 V2 V0 V3 V4 V5 V6 V7 V8 V9 V10 V11 V12 V13 V14 V15 V16 V17 V18].
  constructor; try rewrite EM; try rewrite EC; rewrite ?EG, ?EN, ?EL, ?EE, ?EPO, ?ECU; auto.
  - rewrite Q2. rewrite P2 in V2. exact V2.
  - rewrite Q2. clear; lia.
  - unfold wc in *. rewrite EW, V3. clear - P1 P2 Q1 Q2. destruct (pp s); try discriminate P1; try discriminate P2; destruct (pp s'); try discriminate Q1; try discriminate Q2; reflexivity.
  - rewrite ER. exact V4.
  - intros a Ha. rewrite HF by (clear - Ha; lia). rewrite ET. destruct (Nat.eqb_spec a b) as [->|Ne]; [apply upd_same|].
    rewrite upd_other; [apply V5; exact Ha|]. apply (mod_rng N (nxt (passes (log s)))); [clear - Ha; lia|clear - RB; lia|exact Ne].
  - intros c Hc. apply HM. destruct (pp s'); try contradiction; exact Hc.
  - eapply stopc_p; [exact V10|exact EC|rewrite P2, Q2; clear; lia|]. left. rewrite P2, Q2, P3, Q3, EPO. auto.
  - unfold atc in *. rewrite EC, ET. destruct (cp s); auto. rewrite upd_other; [exact V11|].
    apply (mod_rng N (nxt (passes (log s)))); [clear - HN; lia|clear - RB; lia|fields; clear - RB; lia].
  - unfold dsmc in *. rewrite EC, ED. exact V12.
  - rewrite Q1. rewrite P1 in V15. exact V15.
  - rewrite Q1. reflexivity.
  - intro H. destruct (V17 H) as [X|X]; [left; exact X|contradiction].
Qed.

Lemma tr_cur s : tr (cells K (cur s)) = (0 <? cur s T)%Z.
Proof. unfold trg. rewrite nth_cells by exact HT. reflexivity. Qed.

Lemma inv_p s s' : Inv s -> ahead N pre (log s) -> pstep N K T pre post s = Some s' -> Inv s'.
Proof.
  intros V A E. pose proof (room _ V A) as [R1 R2].
  pose proof (i_w _ V) as W. unfold wc in W. pose proof (i_lk _ V) as LK. pose proof (i_ex _ V) as EX. pose proof (i_pok _ V) as PO.
  pose proof (i_tr _ V) as TR. unfold trc in TR. pose proof (i_ev _ V) as VE. pose proof (i_pc _ V) as PC.
  assert (RL : length (rev (puts (log s))) = length (puts (log s))) by apply rev_length.
  unfold pstep in E. destruct (pp s) eqn:EP; try discriminate E; cbn [pok] in PO; try subst ret.
  - (* PCheck *)
    assert (TF : tg s (w s) = false).
    { rewrite W. fields. assert (RB : nxt (passes (log s)) + skipped (cp s) <= N + length (puts (log s)) < nxt (passes (log s)) + N).
      { pose proof (skip_room _ V) as SR. destruct (cp s); fields; try specialize (SR eq_refl); clear - R1 R2 SR HN; lia. }
      rewrite (i_tg _ V) by exact RB. rewrite EP. unfold flag. rewrite RL, Nat.ltb_irrefl. rewrite andb_false_r. reflexivity. }
    rewrite TF in E. injection E as <-. light V EP W LK EX TR.
    intro H. destruct (VE H) as [X|X]; [left; exact X|discriminate X].
  - (* PCopy *)
    destruct (Nat.ltb_spec n K) as [Hn|Hn]; injection E as <-.
    + destruct V as [V1 V2 V0 V3 V4 V5 V6 V7 V8 V9 V10 V11 V12 V13 V14 V15 V16 V17 V18].
      rewrite EP in *. constructor; unfold trc; fields; rewrite ?EP in *; auto; try discriminate.
      * intros a c Ha Hb Hc. rewrite <- V6 by assumption. rewrite upd_other; [reflexivity|].
        rewrite W. apply (mod_rng N (nxt (passes (log s)))); [clear - Ha Hb R2; lia|clear - R1 R2 HN; lia|clear - Hb; lia].
      * intros c Hc. rewrite W, upd_same. destruct (Nat.eq_dec c n) as [->|Nc]; [rewrite upd_same; reflexivity|].
        rewrite upd_other by exact Nc. apply V7. clear - Hc Nc. lia.
      * eapply stopc_p; [exact V10|reflexivity|rewrite EP; fields; clear; lia|left; rewrite EP; fields; auto].
      * intro H. destruct (V17 H) as [X|X]; [left; exact X|discriminate X].
    + light V EP W LK EX TR.
      * intros c Hc. apply PC. clear - Hc Hn. lia.
      * intro H. destruct (VE H) as [X|X]; [left; exact X|discriminate X].
  - (* PTrig *)
    assert (B : (0 <? mem s (w s) T)%Z = tr (cells K (cur s))).
    { rewrite tr_cur, W, PC by exact HT. reflexivity. }
    rewrite B in E. destruct TR as [TW TC].
    destruct (tr (cells K (cur s))) eqn:TX; [destruct (was s) eqn:EW|]; injection E as <-.
    + (* already triggered *)
      apply (inv_p_mark s _ (N + length (puts (log s))) true V A); rewrite ?EP; fields; try reflexivity; try discriminate; try exact Logic.I; auto; try (clear; lia).
      * rewrite W. reflexivity.
      * repeat split.
      * repeat split.
      * intros a Ha. unfold flag. rewrite RL. destruct (Nat.eqb_spec a (N + length (puts (log s)))) as [->|Ne].
        -- replace (N + length (puts (log s)) - N) with (length (puts (log s))) by (clear; lia). rewrite selb_new, TX. cbn [orb]. rewrite andb_true_r.
           apply andb_true_iff. split; apply Nat.leb_le; clear; lia.
        -- destruct (Nat.leb_spec N a) as [H1|H1]; [|reflexivity]. cbn [andb].
           destruct (Nat.leb_spec a (N + length (puts (log s)))) as [H2|H2], (Nat.ltb_spec a (N + length (puts (log s)))) as [H3|H3]; cbn [andb]; try (exfalso; clear - H2 H3 Ne; lia); [|reflexivity].
           apply selb_run; [clear - H1 H3; lia|]. symmetry. exact TW.
      * unfold trc. fields. rewrite EW, TX. cbn [cntl]. rewrite TX. auto.
    + apply (inv_p_mark s _ (N + length (puts (log s))) true V A); rewrite ?EP; fields; try reflexivity; try discriminate; try exact Logic.I; auto; try (clear; lia).
      * rewrite W. reflexivity.
      * repeat split.
      * repeat split.
      * intros a Ha. unfold flag. rewrite RL. destruct (Nat.eqb_spec a (N + length (puts (log s)))) as [->|Ne].
        -- rewrite Nat.add_0_r, Nat.leb_refl. rewrite (proj2 (Nat.leb_le N _)) by (clear; lia). reflexivity.
        -- destruct (Nat.leb_spec N a) as [H1|H1]; [|reflexivity]. cbn [andb].
           destruct (Nat.leb_spec a (N + length (puts (log s)))) as [H2|H2], (Nat.ltb_spec a (N + length (puts (log s)))) as [H3|H3]; cbn [andb]; try (exfalso; clear - H2 H3 Ne; lia); [|reflexivity].
           rewrite (proj2 (Nat.leb_gt (N + length (puts (log s))) (a + 0))) by (clear - H3; lia). reflexivity.
      * unfold trc. fields. rewrite TX. repeat split. clear; lia.
    + apply (inv_p_mark s _ (N + length (puts (log s))) false V A); rewrite ?EP; fields; try reflexivity; try discriminate; try exact Logic.I; auto; try (clear; lia).
      * rewrite W. reflexivity.
      * repeat split.
      * repeat split.
      * intros a Ha. unfold flag. rewrite RL. destruct (Nat.eqb_spec a (N + length (puts (log s)))) as [->|Ne]; [|reflexivity].
        rewrite Nat.ltb_irrefl, andb_false_r. reflexivity.
      * unfold trc. fields. auto.
  - (* PPre *)
    destruct TR as (TX & TW & TJ).
    destruct (Nat.ltb_spec j pre) as [Hj|Hj].
    + pose proof (i_np _ V) as NP. destruct (Nat.ltb_spec j (npre s)) as [Hn|Hn]; injection E as <-.
      * assert (JP : j < length (puts (log s))) by (clear - NP Hn; lia).
        apply (inv_p_mark s _ (N + length (puts (log s)) - (j + 1)) true V A); rewrite ?EP; fields; try reflexivity; try discriminate; try exact Logic.I; auto; try (clear - Hj; lia).
        -- rewrite (mod_back N (N + length (puts (log s))) (j + 1)) by (clear - Hj HP; lia). rewrite <- W. reflexivity.
        -- repeat split.
        -- repeat split.
        -- intros a Ha. unfold flag. rewrite RL. destruct (Nat.eqb_spec a (N + length (puts (log s)) - (j + 1))) as [->|Ne].
           ++ rewrite (proj2 (Nat.leb_le _ _)) by (clear - JP; lia). rewrite (proj2 (Nat.leb_le _ _)) by (clear; lia). cbn [andb].
              rewrite (proj2 (Nat.leb_le _ _)) by (clear - JP; lia). reflexivity.
           ++ f_equal. f_equal. destruct (Nat.leb_spec (N + length (puts (log s))) (a + (j + 1))) as [H1|H1], (Nat.leb_spec (N + length (puts (log s))) (a + j)) as [H2|H2]; try reflexivity; exfalso; clear - H1 H2 Ne; lia.
        -- unfold trc. fields. rewrite TX. repeat split; auto. clear - Hj. lia.
      * apply (inv_p_light _ _ V); fields; rewrite ?EP; fields; try reflexivity; try (clear; lia); try discriminate; auto.
        -- intros a Ha. unfold flag. rewrite RL. destruct (Nat.leb_spec N a) as [H1|H1]; [|reflexivity]. f_equal. f_equal.
           rewrite (proj2 (Nat.leb_le (N + length (puts (log s))) (a + (j + 1)))), (proj2 (Nat.leb_le (N + length (puts (log s))) (a + j))); [reflexivity|clear - H1 Hn Hj NP; lia|clear - H1 Hn Hj NP; lia].
        -- unfold trc. fields. repeat split; auto. clear - Hj. lia.
        -- intro H. destruct (VE H) as [X|X]; [left; exact X|discriminate X].
    + injection E as <-. assert (j = pre) by (clear - Hj TJ; lia). subst j.
      apply (inv_p_light _ _ V); fields; rewrite ?EP; fields; try reflexivity; try (clear; lia); try discriminate; auto.
      * intros a Ha. unfold flag. rewrite RL. destruct (Nat.leb_spec N a) as [H1|H1]; [|reflexivity]. cbn [andb].
        destruct (Nat.leb_spec a (N + length (puts (log s)))) as [H2|H2]; [|reflexivity]. cbn [andb].
        destruct (Nat.eq_dec a (N + length (puts (log s)))) as [->|Ne].
        -- replace (N + length (puts (log s)) - N) with (length (puts (log s))) by (clear; lia). rewrite selb_new, TX. cbn [orb].
           rewrite (proj2 (Nat.leb_le _ _)) by (clear; lia). reflexivity.
        -- rewrite selb_snoc by (rewrite RL; clear - H1 H2 Ne; lia). rewrite TX, RL. cbn [andb]. rewrite orb_comm. f_equal.
           destruct (Nat.leb_spec (length (puts (log s))) (a - N + pre)) as [H3|H3], (Nat.leb_spec (N + length (puts (log s))) (a + pre)) as [H4|H4]; try reflexivity; exfalso; clear - H1 H3 H4; lia.
      * unfold trc. fields. cbn [cntl]. rewrite TX. auto.
      * intro H. destruct (VE H) as [X|X]; [left; exact X|discriminate X].
  - (* PElse *)
    destruct TR as (TX & TC). destruct (Nat.ltb_spec 0 (cnt s)) as [Hc|Hc]; injection E as <-.
    + apply (inv_p_mark s _ (N + length (puts (log s))) true V A); rewrite ?EP; fields; try reflexivity; try discriminate; try exact Logic.I; auto; try (clear; lia).
      * rewrite W. reflexivity.
      * repeat split.
      * repeat split.
      * intros a Ha. unfold flag. rewrite RL. destruct (Nat.eqb_spec a (N + length (puts (log s)))) as [->|Ne].
        -- replace (N + length (puts (log s)) - N) with (length (puts (log s))) by (clear; lia). rewrite selb_new, TX, <- TC. cbn [orb].
           rewrite (proj2 (Nat.ltb_lt _ _) Hc). rewrite andb_true_r. apply andb_true_iff. split; apply Nat.leb_le; clear; lia.
        -- destruct (Nat.leb_spec N a) as [H1|H1]; [|reflexivity]. cbn [andb].
           destruct (Nat.leb_spec a (N + length (puts (log s)))) as [H2|H2], (Nat.ltb_spec a (N + length (puts (log s)))) as [H3|H3]; cbn [andb]; try (exfalso; clear - H2 H3 Ne; lia); [|reflexivity].
           rewrite selb_snoc by (rewrite RL; clear - H1 H3; lia). rewrite TX. apply orb_false_r.
      * unfold trc. fields. cbn [cntl]. rewrite TX, TC. auto.
    + apply (inv_p_light _ _ V); fields; rewrite ?EP; fields; try reflexivity; try (clear; lia); try discriminate; auto.
      * intros a Ha. unfold flag. rewrite RL. destruct (Nat.leb_spec N a) as [H1|H1]; [|reflexivity]. cbn [andb].
        destruct (Nat.eq_dec a (N + length (puts (log s)))) as [->|Ne].
        -- replace (N + length (puts (log s)) - N) with (length (puts (log s))) by (clear; lia). rewrite selb_new, TX, <- TC. cbn [orb].
           rewrite (proj2 (Nat.ltb_ge _ _) Hc). rewrite andb_false_r, Nat.ltb_irrefl. reflexivity.
        -- destruct (Nat.leb_spec a (N + length (puts (log s)))) as [H2|H2], (Nat.ltb_spec a (N + length (puts (log s)))) as [H3|H3]; cbn [andb]; try (exfalso; clear - H2 H3 Ne; lia); [|reflexivity].
           rewrite selb_snoc by (rewrite RL; clear - H1 H3; lia). rewrite TX. apply orb_false_r.
      * unfold trc. fields. cbn [cntl]. rewrite TX. split; [reflexivity|]. rewrite <- TC. clear - Hc. lia.
      * intro H. destruct (VE H) as [X|X]; [left; exact X|discriminate X].
  - (* PCnt *)
    destruct TR as [TW TC].
    set (s1 := if npre s <? pre then set_npre s (npre s + 1) else s) in E.
    assert (S1 : mem s1 = mem s /\ tg s1 = tg s /\ w s1 = w s /\ r s1 = r s /\ lk s1 = lk s /\ ev s1 = ev s /\ posted s1 = posted s /\ dsm s1 = dsm s /\ cur s1 = cur s /\ was s1 = was s /\ cnt s1 = cnt s /\ cp s1 = cp s /\ log s1 = log s
      /\ npre s1 = Nat.min (S (length (puts (log s)))) pre).
    { pose proof (i_np _ V) as NP. unfold s1. destruct (Nat.ltb_spec (npre s) pre) as [H|H]; fields; repeat split; clear - NP H; lia. }
    clearbody s1. destruct S1 as (S1 & S2 & S3 & S4 & S5 & S6 & S7 & S8 & S9 & S10 & S11 & S12 & S13 & S14).
    injection E as <-.
    destruct V as [V1 V2 V0 V3 V4 V5 V6 V7 V8 V9 V10 V11 V12 V13 V14 V15 V16 V17 V18]. rewrite EP in *. fields.
    assert (DR : nxt (passes (log s)) + decided (cp s) - N = 0 \/ nxt (passes (log s)) + decided (cp s) - N + pre <= length (rev (puts (log s)))).
    { rewrite RL. clear - V10 R1 HP HN EP. unfold stopc in V10. destruct (cp s); cbn [decided]; try lia;
        destruct V10 as (S0 & _ & _ & X & _ & _ & Y); specialize (Y eq_refl); rewrite EP in X; cbn [unpub] in X; lia. }
    constructor; unfold wc, trc; fields; rewrite ?S1, ?S2, ?S3, ?S4, ?S5, ?S6, ?S7, ?S8, ?S9, ?S10, ?S11, ?S12, ?S13; fields; auto; try discriminate.
    + clear - V2. lia.
    + clear; lia.
    + rewrite W. f_equal. clear; lia.
    + intros a Ha. rewrite V5 by exact Ha. unfold flag. cbn [rev]. rewrite app_length, RL. cbn [length].
      destruct (Nat.leb_spec N a) as [H1|H1]; [|reflexivity]. cbn [andb]. f_equal.
      destruct (Nat.leb_spec a (N + length (puts (log s)))) as [H2|H2], (Nat.ltb_spec a (N + (length (puts (log s)) + 1))) as [H3|H3]; try reflexivity; exfalso; clear - H2 H3; lia.
    + intros a c Ha Hb Hc. cbn [rev]. destruct (Nat.eq_dec a (N + length (puts (log s)))) as [->|Na].
      * replace (N + length (puts (log s)) - N) with (length (rev (puts (log s)))) by (rewrite RL; clear; lia).
        rewrite nth_middle. rewrite nth_cells by exact Hc. apply V7. exact Hc.
      * rewrite app_nth1 by (rewrite RL; clear - Hb Na; lia). apply V6; auto. clear - Hb Na. lia.
    + intros c [].
    + eapply stopc_p; [exact V10|exact S12|rewrite EP; fields; clear; lia|left; rewrite EP; fields; rewrite S7; split; [clear; lia|auto]].
    + unfold atc in *. fields. rewrite S12, S2. cbn [rev]. destruct (cp s) eqn:EC; auto; destruct V11 as [X Y]; (split; [exact X|]);
        (rewrite selb_stable; [exact Y|]); rewrite RL; unfold stopc in V10; rewrite EC in V10;
        destruct V10 as (S0 & _ & _ & X1 & _ & _ & Y1); specialize (Y1 eq_refl); clear - X X1 Y1; lia.
    + unfold dsmc in *. fields. rewrite S12, S8. intros c Hc. rewrite V12 by exact Hc. f_equal. cbn [rev].
      rewrite app_nth1; [reflexivity|]. rewrite RL. unfold stopc in V10. unfold atc in V11.
      destruct (cp s); try contradiction; destruct V10 as (S0 & _ & _ & X1 & _ & _ & Y1); specialize (Y1 eq_refl); clear - V11 X1 Y1; lia.
    + rewrite V13. cbn [rev]. rewrite chosen_snoc by exact DR. reflexivity.
    + intros x [<-|Hx]; [unfold cells; rewrite map_length, seq_length; reflexivity|auto].
    + intro H. destruct (V17 H) as [X|X]; [left; exact X|discriminate X].
  - (* PLock *)
    unfold take in E. destruct (lk s) eqn:EL; [discriminate|]. injection E as <-.
    light V EP W LK EX TR; try (rewrite <- LK; reflexivity).
    intro H. destruct (VE H) as [X|X]; [left; exact X|discriminate X].
  - (* PInc *)
    injection E as <-. light V EP W LK EX TR.
    all: try solve [unfold wc; fields; rewrite W; reflexivity].
    all: try solve [right; right; reflexivity].
    intro H. destruct (VE H) as [X|X]; [left; exact X|discriminate X].
  - (* PWrap *)
    assert (W' : (if w s =? N then 0 else w s) = (N + length (puts (log s))) mod N).
    { rewrite W. replace (N + length (puts (log s))) with (N + length (puts (log s)) - 1 + 1) at 3 by (clear - HN; lia).
      rewrite AsyncBroker_Proofs.mod_succ by (clear - HN; lia). reflexivity. }
    assert (E' : s' = set_pp (set_w s (if w s =? N then 0 else w s)) PPosted).
    { injection E as <-. destruct (w s =? N); [reflexivity|]. destruct s; reflexivity. }
    clear E. subst s'. light V EP W LK EX TR.
    all: try exact W'. all: try solve [left; split; [reflexivity|]; right; reflexivity].
    intro H. destruct (VE H) as [X|X]; [left; exact X|discriminate X].
  - (* PPosted *)
    injection E as <-. light V EP W LK EX TR.
    all: try solve [left; split; [reflexivity|]; right; reflexivity].
    all: try solve [intros _; right; reflexivity].
  - (* PPost *)
    injection E as <-. light V EP W LK EX TR.
    all: try solve [intros _; left; reflexivity].
    left. split; [reflexivity|]. intros _. left. exact (i_post _ V EP).
  - (* PUnlock *)
    injection E as <-. light V EP W LK EX TR.
    all: try solve [fields; clear - EX; destruct (crit_c (cp s)); [discriminate|reflexivity]].
    intro H. destruct (VE H) as [X|X]; [left; exact X|discriminate X].
Qed.

(** Moves of the service thread that leave the buffers alone. *)
Lemma inv_c_light s s' : Inv s ->
  mem s' = mem s -> tg s' = tg s -> w s' = w s -> cur s' = cur s -> was s' = was s -> cnt s' = cnt s -> npre s' = npre s -> pp s' = pp s -> r s' = r s ->
  puts (log s') = puts (log s) -> rev (syncs (log s')) = chosen T pre post (rev (puts (log s))) (nxt (passes (log s)) + decided (cp s') - N) ->
  passes (log s') = passes (log s) -> skipped (cp s) <= skipped (cp s') ->
  stopc s' (length (puts (log s))) (passes (log s)) -> atc s' (rev (puts (log s))) (passes (log s)) -> dsmc s' (rev (puts (log s))) (passes (log s)) ->
  lk s' = crit_p (pp s) || crit_c (cp s') -> crit_p (pp s) && crit_c (cp s') = false ->
  (posted s' = true -> ev s' = true \/ pp s = PPost) -> (pp s = PPost -> posted s' = true) -> Inv s'.
Proof.
  intros V EM ET EW ECU EWA ECN ENP EP ER EPU ES EPA H1 H2 H3 H4 H5 H6 H7 H8.
  destruct V as [V1 V2 V0 V3 V4 V5 V6 V7 V8 V9 V10 V11 V12 V13 V14 V15 V16 V17 V18].
  constructor; try rewrite EM; try rewrite ET; try rewrite EP; rewrite ?EPU, ?ES, ?EPA, ?ECU, ?ENP; auto.
  - unfold wc in *. rewrite EP, EW. exact V3.
  - rewrite ER. exact V4.
  - intros a Ha. apply V5. clear - Ha H1. lia.
  - unfold trc in *. rewrite EP, ECU, EWA, ECN. exact V8.
Qed.
Lemma stopped_same s s' P C stop lo lo' : stopped s P C stop lo -> pp s' = pp s -> posted s' = posted s -> (lo' = true -> lo = true) -> stopped s' P C stop lo'.
Proof. unfold stopped. intros (S0 & H) E F G. exists S0. rewrite E, F. destruct H as (A & B & C0 & D & E0 & F0). auto 8. Qed.

Ltac lc V EC LK EX VE VP := fields; rewrite ?EC in *; try reflexivity; try exact Logic.I; auto;
  try solve [ intros ? [] | discriminate | rewrite EX; reflexivity | rewrite EX; exact LK | exact (i_sync _ V)
            | rewrite orb_false_r in LK; rewrite <- LK; reflexivity
            | let X := fresh in pose proof (i_sync _ V) as X; rewrite EC in X; exact X ].

Lemma inv_c s s' b : Inv s -> ahead N pre (log s) -> cstep N K pre b s = Some s' -> Inv s'.
Proof.
  intros V A E. pose proof (room _ V A) as [R1 R2]. pose proof lead_pos as LP.
  pose proof (i_r _ V) as R. pose proof (i_stop _ V) as ST. unfold stopc in ST. pose proof (i_at _ V) as AT. unfold atc in AT.
  pose proof (i_lk _ V) as LK. pose proof (i_ex _ V) as EX. pose proof (i_DQ _ V) as DQ.
  pose proof (i_ev _ V) as VE. pose proof (i_post _ V) as VP.
  assert (RL : length (rev (puts (log s))) = length (puts (log s))) by apply rev_length.
  unfold cstep in E. destruct (cp s) eqn:EC.
  - (* CLock1 *)
    unfold take in E. destruct (lk s) eqn:EL; [discriminate|]. injection E as <-.
    apply (inv_c_light _ _ V); lc V EC LK EX VE VP.
  - (* CRead *)
    injection E as <-. rewrite andb_true_r in EX.
    apply (inv_c_light _ _ V); lc V EC LK EX VE VP.
    unfold stopc. fields. exists (N + length (puts (log s)) - unpub (pp s) - pre).
    assert (W : w s = (N + length (puts (log s)) - unpub (pp s)) mod N).
    { pose proof (i_w _ V) as W. unfold wc in W. rewrite W. clear - EX. destruct (pp s); try discriminate EX; cbn [unpub]; rewrite ?Nat.sub_0_r; reflexivity. }
    assert (UP : unpub (pp s) <= length (puts (log s))).
    { exact (i_up _ V). }
    split.
    { rewrite mod_back by (clear - HP DQ LP UP; lia). rewrite <- W. destruct (Nat.ltb_spec (w s) pre) as [H|H]; [reflexivity|].
      destruct (Nat.eqb_spec (w s - pre) N) as [H2|H2]; [|reflexivity]. exfalso.
      assert (w s < N) by (rewrite W; apply Nat.mod_upper_bound; clear - HN; lia). clear - H0 H2. lia. }
    fields. split; [exact R1|]. split; [clear - UP HP; lia|]. split; [clear - R2 HN LP A; unfold ahead, nxt, lead in *; destruct (Nat.eqb_spec pre 0); lia|].
    split; [|discriminate]. intro Hx. exfalso. clear - Hx UP HP. lia.
  - (* CUnl1 *)
    rewrite (proj2 (Nat.eqb_neq N 1)) in E by (clear - HN; lia). injection E as <-. rewrite andb_true_r in EX.
    apply (inv_c_light _ _ V); lc V EC LK EX VE VP.
  - (* CLoop *)
    destruct ST as (S0 & S1 & S3 & S4 & S5 & S6 & _).
    destruct (Nat.eqb_spec (r s) stop) as [Hr|Hr].
    + injection E as <-. assert (Eq : nxt (passes (log s)) = S0).
      { apply (AsyncBroker_Proofs.mod_eq N); [clear - S3 S5; lia|]. rewrite <- R, <- S1. exact Hr. }
      apply (inv_c_light _ _ V); lc V EC LK EX VE VP.
      unfold stopc. fields. rewrite Eq. exact S6.
    + assert (Ne : nxt (passes (log s)) < S0).
      { destruct (Nat.eq_dec (nxt (passes (log s))) S0) as [Eq|Ne]; [|clear - Ne S3; lia]. elim Hr. rewrite R, S1, Eq. reflexivity. }
      pose proof (i_tg _ V (nxt (passes (log s)))) as TG. rewrite EC in TG. fields. specialize (TG ltac:(clear - HN; lia)). rewrite <- R in TG.
      assert (FL : tg s (r s) = (N <=? nxt (passes (log s))) && sel (rev (puts (log s))) (nxt (passes (log s)) - N)).
      { rewrite TG. assert (LT : nxt (passes (log s)) < N + length (puts (log s)) - pre) by (clear - Ne S4; lia).
        destruct (Nat.leb_spec N (nxt (passes (log s)))) as [H1|H1].
        2:{ unfold flag. destruct (pp s); try reflexivity; rewrite (proj2 (Nat.leb_gt _ _) H1); reflexivity. }
        unfold flag. rewrite RL. cbn [andb]. rewrite (proj2 (Nat.leb_le _ _) H1).
        rewrite (proj2 (Nat.leb_le (nxt (passes (log s))) (N + length (puts (log s))))) by (clear - LT; lia).
        rewrite (proj2 (Nat.ltb_lt (nxt (passes (log s))) (N + length (puts (log s))))) by (clear - LT; lia). cbn [andb].
        pose proof (i_tr _ V) as TR. unfold trc in TR. destruct (pp s); try reflexivity.
        - rewrite (proj2 (Nat.leb_gt (N + length (puts (log s))) (nxt (passes (log s)) + j))) by (clear - TR LT; lia). reflexivity.
        - apply selb_stable. rewrite RL. clear - LT H1. lia. }
      destruct (tg s (r s)) eqn:ET; injection E as <-.
      * symmetry in FL. apply andb_true_iff in FL. destruct FL as [FL1 FL2]. apply Nat.leb_le in FL1.
        apply (inv_c_light _ _ V); lc V EC LK EX VE VP.
        -- exists S0. auto 8.
        -- unfold atc. fields. auto.
        -- intros c [Hc _]. fields. inversion Hc.
      * apply (inv_c_light _ _ V); lc V EC LK EX VE VP.
        -- pose proof (i_sync _ V) as SY. rewrite EC in SY. rewrite SY. cbn [decided]. rewrite Nat.add_0_r.
           destruct (Nat.leb_spec N (nxt (passes (log s)))) as [H1|H1].
           ++ replace (nxt (passes (log s)) + 1 - N) with (nxt (passes (log s)) - N + 1) by (clear - H1; lia).
              rewrite chosen_succ. cbn [andb] in FL. rewrite <- FL. rewrite app_nil_r. reflexivity.
           ++ replace (nxt (passes (log s)) + 1 - N) with 0 by (clear - H1; lia). replace (nxt (passes (log s)) - N) with 0 by (clear - H1; lia). reflexivity.
        -- exists S0. auto 8.
        -- unfold atc. fields. rewrite <- R. exact ET.
  - (* CCopy *)
    destruct (Nat.ltb_spec c K) as [Hk|Hk]; injection E as <-.
    + apply (inv_c_light _ _ V); lc V EC LK EX VE VP.
      intros c0 Hc. fields. pose proof (i_dsm _ V) as DS. unfold dsmc in DS. rewrite EC in DS.
      destruct (Nat.eq_dec c0 c) as [->|Nc]; [|rewrite upd_other by exact Nc; apply DS; clear - Hc Nc; lia].
      rewrite upd_same. rewrite R. destruct ST as (S0 & S1 & S3 & S4 & S5 & S6 & S7). specialize (S7 eq_refl).
      apply (i_mem _ V); [clear; lia|clear - S4 S7 AT; lia|exact Hk].
    + apply (inv_c_light _ _ V); lc V EC LK EX VE VP.
      intros c0 Hc. fields. pose proof (i_dsm _ V) as DS. unfold dsmc in DS. rewrite EC in DS. apply DS. clear - Hc Hk. lia.
  - (* CSync *)
    injection E as <-. destruct AT as [AT1 AT2].
    pose proof (i_dsm _ V) as DS. unfold dsmc in DS. rewrite EC in DS.
    assert (LT : nxt (passes (log s)) - N < length (puts (log s))).
    { destruct ST as (S0 & S1 & S3 & S4 & S5 & S6 & S7). specialize (S7 eq_refl). clear - S4 S7 AT1. lia. }
    assert (NE : cells K (dsm s) = nth (nxt (passes (log s)) - N) (rev (puts (log s))) []).
    { apply cells_eq.
      - apply (i_len _ V). apply in_rev. apply nth_In. rewrite RL. exact LT.
      - intros c Hc. apply DS. exact Hc. }
    apply (inv_c_light _ _ V); lc V EC LK EX VE VP; [|unfold atc; fields; auto].
    pose proof (i_sync _ V) as SY. rewrite EC in SY. cbn [rev decided] in *. rewrite SY, NE. rewrite Nat.add_0_r.
    replace (nxt (passes (log s)) + 1 - N) with (nxt (passes (log s)) - N + 1) by (clear - AT1; lia).
    rewrite chosen_succ, AT2. reflexivity.
  - (* CClear *)
    injection E as <-. destruct AT as [AT1 AT2].
    destruct V as [V1 V2 V0 V3 V4 V5 V6 V7 V8 V9 V10 V11 V12 V13 V14 V15 V16 V17 V18]. rewrite EC in *.
    constructor; fields; auto.
    + intros a Ha. rewrite R. rewrite upd_other; [apply V5; clear - Ha; lia|].
      apply (mod_rng N (nxt (passes (log s)))); [clear - Ha; lia|clear - HN; lia|clear - Ha; lia].
    + unfold atc. fields. rewrite R. apply upd_same.
    + intros c [].
  - (* CNext *)
    assert (R' : (if (1 <? N) && (r s + 1 =? N) then 0 else r s + 1) = nxt (S (passes (log s))) mod N).
    { replace (1 <? N) with true by (symmetry; apply Nat.ltb_lt; clear - HN; lia). rewrite R. cbn [andb]. unfold nxt.
      replace (N - lead pre + S (passes (log s))) with (N - lead pre + passes (log s) + 1) by (clear; lia). rewrite AsyncBroker_Proofs.mod_succ by (clear - HN; lia). reflexivity. }
    rewrite R' in E. injection E as <-. destruct ST as (S0 & S1 & S3 & S4 & S5 & S6 & S7). specialize (S7 eq_refl).
    assert (NS : nxt (S (passes (log s))) = nxt (passes (log s)) + 1) by (unfold nxt; clear; lia).
    destruct V as [V1 V2 V0 V3 V4 V5 V6 V7 V8 V9 V10 V11 V12 V13 V14 V15 V16 V17 V18]. rewrite EC in *.
    constructor; fields; auto; rewrite ?NS.
    + clear - S4 S7 LP HP. unfold nxt in S7. lia.
    + intros a Ha. assert (Ha' : nxt (passes (log s)) + 1 <= a < nxt (passes (log s)) + 1 + N) by (destruct ret; fields; clear - Ha; lia).
      destruct (Nat.eq_dec a (nxt (passes (log s)) + N)) as [->|Na].
      * rewrite AsyncBroker_Proofs.mod_plus by (clear - HN; lia). rewrite AT. symmetry.
        assert (H1 : (nxt (passes (log s)) + N <=? N + length (rev (puts (log s)))) = false) by (rewrite RL; apply Nat.leb_gt; clear - R2 HN; lia).
        assert (H2 : (nxt (passes (log s)) + N <? N + length (rev (puts (log s)))) = false) by (rewrite RL; apply Nat.ltb_ge; clear - R2 HN; lia).
        unfold flag. rewrite H1, H2. rewrite !andb_false_r. destruct (pp s); reflexivity.
      * apply V5. clear - Ha' Na. lia.
    + intros a c Ha Hb Hc. apply V6; auto. clear - Ha. lia.
    + unfold stopc. fields. destruct ret; [|exact Logic.I]. exists S0. rewrite NS. fields. split; [exact S1|]. split; [clear - S7; lia|]. split; [exact S4|]. split; [clear - S5; lia|]. split; [exact S6|discriminate].
    + unfold atc. fields. destruct ret; exact Logic.I.
    + intros c Hc. fields. destruct ret; destruct Hc.
    + rewrite V13. f_equal. destruct ret; cbn [decided]; clear; lia.
    + destruct ret; exact V15.
    + destruct ret; exact V16.
  - (* CWait *)
    destruct (ev s) eqn:EE; [|discriminate]. injection E as <-.
    apply (inv_c_light _ _ V); lc V EC LK EX VE VP.
  - (* CLock2 *)
    unfold take in E. destruct (lk s) eqn:EL; [discriminate|]. injection E as <-.
    apply (inv_c_light _ _ V); lc V EC LK EX VE VP.
  - (* CTest *)
    injection E as <-. rewrite andb_true_r in EX.
    destruct (posted s) eqn:EPo; (apply (inv_c_light _ _ V); lc V EC LK EX VE VP).
    + intro H. rewrite EPo in H. discriminate.
    + rewrite EPo. exact VP.
  - (* CClrP *)
    injection E as <-. rewrite andb_true_r in EX.
    apply (inv_c_light _ _ V); lc V EC LK EX VE VP.
    intro H. rewrite H in EX. discriminate EX.
  - (* CUnl2 *)
    injection E as <-. rewrite andb_true_r in EX.
    apply (inv_c_light _ _ V); lc V EC LK EX VE VP.
Qed.

Lemma inv_step s s' a : Inv s -> ahead N pre (log s) -> step N K T pre post s a = Some s' -> Inv s'.
Proof.
  intros V A E. destruct a; cbn [step] in E.
  - destruct (pp s) eqn:EP; try discriminate. injection E as <-.
    pose proof (i_w _ V) as W. unfold wc in W. rewrite EP in W. pose proof (i_lk _ V) as LK. pose proof (i_ex _ V) as EX. rewrite EP in LK, EX.
    pose proof (i_tr _ V) as TR. unfold trc in TR. rewrite EP in TR. pose proof (i_ev _ V) as VE.
    light V EP W LK EX TR. intro H. destruct (VE H) as [X|X]; [left; exact X|congruence].
  - eapply inv_p; eauto.
  - eapply inv_c; eauto.
  - destruct (cp s) eqn:EC; try discriminate. injection E as <-.
    pose proof (i_stop _ V) as ST. unfold stopc in ST. pose proof (i_lk _ V) as LK. pose proof (i_ex _ V) as EX.
    pose proof (i_ev _ V) as VE. pose proof (i_post _ V) as VP. rewrite EC in *.
    apply (inv_c_light _ _ V); lc V EC LK EX VE VP.
Qed.
End Inv.
