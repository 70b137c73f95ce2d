(** Invariant of MemoryMapAsyncOutputBroker with at least two buffers, as long as the service thread keeps up. *)
From Verif Require Import Base Conc AsyncBroker_Model.
Open Scope nat_scope.

(** ** What a log says *)
Fixpoint puts (l : list event) : list (list Z) :=
  match l with [] => [] | EPut x :: l => x :: puts l | _ :: l => puts l end.
Fixpoint syncs (l : list event) : list (list Z) :=
  match l with [] => [] | ESync x :: l => x :: syncs l | _ :: l => syncs l end.
Fixpoint dones (l : list event) : nat :=
  match l with [] => 0 | EDone :: l => S (dones l) | _ :: l => dones l end.
Fixpoint looped (l : list event) : bool :=
  match l with [] => false | ELoop :: _ => true | _ :: l => looped l end.

Definition ahead (N : nat) (l : list event) : Prop :=
  length (puts l) + (if looped l then 0 else 1) <= dones l + (N - 1).
(** At all times fewer than N accepted samples are unfinished, and fewer than N - 1 before the first BufferLoop. *)
Definition kept_up (N : nat) (l : list event) : Prop := forall l1 l2, l = l1 ++ l2 -> ahead N l2.

Lemma kept_up_tail N e l : kept_up N (e :: l) -> kept_up N l.
Proof. intros H l1 l2 E. apply (H (e :: l1)). rewrite E. reflexivity. Qed.
Lemma kept_up_now N l : kept_up N l -> ahead N l.
Proof. intros H. apply (H []). reflexivity. Qed.

(** ** Arithmetic *)
Lemma mod_neq N a b : a < b < a + N -> a mod N <> b mod N.
Proof.
  intros H E. assert (N <> 0) by lia.
  pose proof (Nat.div_mod a N ltac:(lia)) as A. pose proof (Nat.div_mod b N ltac:(lia)) as B.
  rewrite E in A. assert (b - a = N * (b / N) - N * (a / N)) by lia.
  assert (Hd : b / N <= a / N \/ a / N + 1 <= b / N) by lia. destruct Hd as [Hd|Hd].
  - assert (N * (b / N) <= N * (a / N)) by (apply Nat.mul_le_mono_l; exact Hd). lia.
  - assert (N * (a / N + 1) <= N * (b / N)) by (apply Nat.mul_le_mono_l; exact Hd). lia.
Qed.
Lemma mod_eq N a b : a <= b < a + N -> a mod N = b mod N -> a = b.
Proof. intros H E. destruct (Nat.eq_dec a b) as [|Hn]; [assumption|]. elim (mod_neq N a b); [lia|exact E]. Qed.
Lemma mod_plus N a : N <> 0 -> (a + N) mod N = a mod N.
Proof. intros H. replace (a + N) with (a + 1 * N) by lia. apply Nat.mod_add. exact H. Qed.
Lemma mod_succ N x : 1 < N -> (x + 1) mod N = if (x mod N + 1 =? N) then 0 else x mod N + 1.
Proof.
  intros H. rewrite <- Nat.add_mod_idemp_l by lia. pose proof (Nat.mod_upper_bound x N ltac:(lia)) as B.
  destruct (Nat.eqb_spec (x mod N + 1) N) as [E|E].
  - rewrite E. apply Nat.mod_same. lia.
  - apply Nat.mod_small. lia.
Qed.

(** ** The invariant *)
Definition mid (p : ppc) : bool := match p with PWrap _ | PPost | PPosted => true | _ => false end.
Definition fmid (p : ppc) : bool := match p with FPost | FPosted => true | _ => false end.
Definition crit_p (p : ppc) : bool :=
  match p with PInc _ | PWrap _ | PPost | PPosted | PUnlock _ | FClr | FPost | FPosted | FUnlock => true | _ => false end.
Definition crit_c (c : cpc) : bool := match c with CRead | CUnl1 _ | CTest | CClrP | CUnl2 => true | _ => false end.
Definition pok (p : ppc) : bool := match p with PSet b | PInc b | PWrap b | PUnlock b => b | _ => true end.
(** The sample put but not yet published by the write index. *)
Definition unpub (p : ppc) : nat := match p with PLock | PInc _ => 1 | _ => 0 end.

Section Inv.
Variables (N K : nat).
Hypothesis HN : 2 <= N.

Definition nxt (pd : bool) (D : nat) : nat := if pd then N + D else N - 1.

Definition stopped (pd : bool) (s : st) (P D stop : nat) (lo : bool) : Prop :=
  exists S, stop = S mod N /\ N <= S /\ nxt pd D <= S /\ S + unpub (pp s) <= N + P /\ S + 1 <= nxt pd D + N /\
    (S + unpub (pp s) < N + P -> posted s = true \/ mid (pp s) = true) /\ (lo = true -> N <= nxt pd D < S).

Definition stopc (pd : bool) (s : st) (P D : nat) : Prop :=
  match cp s with
  | CUnl1 stop | CLoop stop | CNext stop _ => stopped pd s P D stop false
  | CCopy stop _ | CSync stop | CClear stop _ => stopped pd s P D stop true
  | CFlush | CWait | CLock2 | CTest => pd = true /\ (D + unpub (pp s) < P -> posted s = true \/ mid (pp s) = true)
  | _ => True
  end.
Definition rc (pd : bool) (s : st) (D : nat) : Prop :=
  match cp s with
  | CNext _ _ => pd = true /\ r s = (nxt pd D - 1) mod N
  | _ => r s = nxt pd D mod N
  end.
Definition wc (s : st) (P : nat) : Prop :=
  w s = match pp s with
        | PWrap _ => (N + P - 1) mod N + 1
        | PLock | PInc _ => (N + P - 1) mod N
        | _ => (N + P) mod N
        end.
Definition dsmc (pd : bool) (s : st) (xs : list (list Z)) (D : nat) : Prop :=
  forall c, match cp s with CCopy _ n => c < n /\ c < K | CSync _ => c < K | _ => False end ->
     dsm s c = nth c (nth (nxt pd D - N) xs []) 0%Z.
Definition freed (c : cpc) : nat := match c with CClear _ _ => 1 | _ => 0 end.
Definition flc (s : st) : Prop :=
  match cp s with CWait | CLock2 | CTest => flushed s = false -> posted s = true \/ fmid (pp s) = true | _ => True end.
Definition at_start (c : cpc) : bool := match c with CLock1 | CRead => true | _ => false end.
Definition at_loop (c : cpc) : bool := match c with CUnl1 _ | CLoop _ => true | _ => false end.

Record Inv (pd : bool) (s : st) : Prop :=
  { i_pd : pd = false -> dones (log s) = 0;
    i_pok : pok (pp s) = true;
    i_DQ : dones (log s) + unpub (pp s) <= length (puts (log s));
    i_w : wc s (length (puts (log s)));
    i_r : rc pd s (dones (log s));
    i_tc : forall a, nxt pd (dones (log s)) <= a < nxt pd (dones (log s)) + N ->
             tc s (a mod N) = (N <=? a) && (a <? N + length (puts (log s)));
    i_mem : forall a c, nxt pd (dones (log s)) <= a -> N <= a < N + length (puts (log s)) -> c < K ->
             mem s (a mod N) c = nth c (nth (a - N) (rev (puts (log s))) []) 0%Z;
    i_pc : forall c, match pp s with PCopy n => c < n | PSet _ => c < K | _ => False end ->
             mem s ((N + length (puts (log s))) mod N) c = cur s c;
    i_stop : stopc pd s (length (puts (log s))) (dones (log s));
    i_dsm : dsmc pd s (rev (puts (log s))) (dones (log s));
    i_sync : rev (syncs (log s)) = firstn (dones (log s) + freed (cp s)) (rev (puts (log s)));
    i_len : forall x, In x (puts (log s)) -> length x = K;
    i_lk : lk s = crit_p (pp s) || crit_c (cp s);
    i_ex : crit_p (pp s) && crit_c (cp s) = false;
    i_ev : posted s = true -> ev s = true;
    i_ev2 : match pp s with PPosted | FPosted => ev s = true | _ => True end;
    i_loop : looped (log s) = false -> pd = false /\ at_start (cp s) = true;
    i_loop2 : pd = false -> looped (log s) = true -> at_loop (cp s) = true;
    i_fl : flc s }.

Ltac fields := cbn [mem tc w r lk ev posted flushed dsm cur pp cp log set_pp set_cp set_lk set_ev set_posted set_flushed set_w set_r
                    set_tc set_mem set_dsm set_cur say puts syncs dones looped length unpub mid fmid crit_p crit_c pok orb andb
                    Nat.add] in *.

Lemma inv_init : Inv false (init N).
Proof.
  constructor; unfold wc, rc, stopc, dsmc, flc; cbn [freed at_start at_loop init mem tc w r lk ev posted flushed dsm cur pp cp log puts syncs dones looped length unpub mid crit_p crit_c pok orb andb nxt rev];
    try solve [auto | intros; contradiction | discriminate | lia].
  - rewrite Nat.add_0_r, Nat.mod_same by lia. reflexivity.
  - symmetry. apply Nat.mod_small. lia.
Qed.

Lemma nxt_lo pd D : N - 1 <= nxt pd D.
Proof. destruct pd; cbn [nxt]; lia. Qed.

Lemma nth_cells f c : c < K -> nth c (cells K f) 0%Z = f c.
Proof.
  intro H. unfold cells. rewrite (nth_indep _ 0%Z (f 0)) by (rewrite map_length, seq_length; exact H).
  rewrite map_nth, seq_nth by exact H. reflexivity.
Qed.
Lemma cells_eq f x : length x = K -> (forall c, c < K -> f c = nth c x 0%Z) -> cells K f = x.
Proof.
  intros L E. apply (nth_ext _ _ 0%Z 0%Z); [unfold cells; rewrite map_length, seq_length; auto|].
  intros c Hc. unfold cells in Hc. rewrite map_length, seq_length in Hc. rewrite nth_cells by exact Hc. auto.
Qed.

Lemma stopc_p pd s s' P P' D :
  stopc pd s P D -> cp s' = cp s -> P + unpub (pp s') <= P' + unpub (pp s) ->
  (P + unpub (pp s') = P' + unpub (pp s) /\ (posted s = true \/ mid (pp s) = true -> posted s' = true \/ mid (pp s') = true)
   \/ (posted s' = true \/ mid (pp s') = true)) ->
  stopc pd s' P' D.
Proof.
  intros H C L M. unfold stopc in *. rewrite C.
  assert (ST : forall stop lo, stopped pd s P D stop lo -> stopped pd s' P' D stop lo).
  { intros stop lo (S0 & A & B & C0 & D0 & E & F & G). exists S0. do 3 (split; [assumption|]). split; [lia|]. split; [exact E|].
    split; [|exact G]. intro H1. destruct M as [[M1 M2]|M]; [|exact M]. apply M2, F. lia. }
  assert (SW : pd = true /\ (D + unpub (pp s) < P -> posted s = true \/ mid (pp s) = true) ->
               pd = true /\ (D + unpub (pp s') < P' -> posted s' = true \/ mid (pp s') = true)).
  { intros [A B]. split; [exact A|]. intro H1. destruct M as [[M1 M2]|M]; [|exact M]. apply M2, B. lia. }
  destruct (cp s); auto.
Qed.

Lemma put_room pd D l : ahead N l -> D = dones l -> (looped l = false -> pd = false) -> (pd = false -> D = 0) ->
  N + length (puts l) <= nxt pd D + N /\ (pd = true -> N + length (puts l) + 1 <= nxt pd D + N) /\
  (looped l = false -> N + length (puts l) + 1 <= nxt pd D + N).
Proof.
  intros A -> L Z0. unfold ahead in A.
  destruct pd; cbn [nxt].
  - destruct (looped l); [lia|]. specialize (L eq_refl). discriminate.
  - specialize (Z0 eq_refl). destruct (looped l); (split; [lia|]; split; [discriminate|]); [discriminate|lia].
Qed.

(** Moves of the real-time thread that leave the buffers alone. *)
Lemma inv_p_light pd s s' : Inv pd s ->
  mem s' = mem s -> tc s' = tc s -> r s' = r s -> dsm s' = dsm s -> cp s' = cp s ->
  puts (log s') = puts (log s) -> syncs (log s') = syncs (log s) -> dones (log s') = dones (log s) -> looped (log s') = looped (log s) ->
  pok (pp s') = true -> unpub (pp s') <= unpub (pp s) -> wc s' (length (puts (log s))) ->
  (forall c, match pp s' with PCopy n => c < n | PSet _ => c < K | _ => False end ->
             mem s ((N + length (puts (log s))) mod N) c = cur s' c) ->
  (unpub (pp s') = unpub (pp s) /\ (posted s = true \/ mid (pp s) = true -> posted s' = true \/ mid (pp s') = true)
   \/ (posted s' = true \/ mid (pp s') = true)) ->
  lk s' = crit_p (pp s') || crit_c (cp s) -> crit_p (pp s') && crit_c (cp s) = false ->
  (posted s' = true -> ev s' = true) -> match pp s' with PPosted | FPosted => ev s' = true | _ => True end ->
  (flc s -> flc s') ->
  Inv pd s'.
Proof.
  intros V EM ET ER ED EC EP ES EN EL H1 H2 H3 H4 H5 H6 H7 H8 H9 H10.
  destruct V as [V1 V2 V3 V4 V5 V6 V7 V8 V9 V10 V11 V12 V13 V14 V15 V16 V17 V18 V19].
  constructor; try rewrite EM; try rewrite ET; try rewrite EC; rewrite ?EP, ?ES, ?EN, ?EL; auto.
  - clear - V3 H2. lia.
  - unfold rc in *. rewrite EC, ER. exact V5.
  - eapply stopc_p; [exact V9|exact EC|clear - H2; lia|].
    destruct H5 as [[H5 H5']|H5]; [left; split; [rewrite H5; reflexivity|exact H5']|right; exact H5].
  - unfold dsmc in *. rewrite EC, ED. exact V10.
Qed.

Lemma flc_p s s' : flc s -> cp s' = cp s -> flushed s' = flushed s ->
  (posted s = true \/ fmid (pp s) = true -> posted s' = true \/ fmid (pp s') = true) -> flc s'.
Proof. unfold flc. intros H C F M. rewrite C, F. destruct (cp s); auto. Qed.

Ltac light V EP W LK EX := (* the trivial obligations of inv_p_light *)
  apply (inv_p_light _ _ _ V); fields; rewrite ?EP; fields; try reflexivity; try (clear; lia); try exact W; try exact LK; try exact EX;
  try (intros ? []; fail); try exact Logic.I; try (left; split; [reflexivity|]; tauto); try (exact (i_ev _ _ V));
  try (let F := fresh in intro F; eapply flc_p; [exact F|reflexivity|reflexivity|]; rewrite EP; fields; tauto).

Lemma inv_p pd s s' : Inv pd s -> ahead N (log s) -> ahead N (log s') -> pstep N K s = Some s' -> Inv pd s'.
Proof.
  intros V A A' E.
  pose proof (put_room pd _ _ A eq_refl (fun H => proj1 (i_loop _ _ V H)) (i_pd _ _ V)) as (R1 & R2 & R3).
  pose proof (nxt_lo pd (dones (log s))) as NL.
  assert (NH : nxt pd (dones (log s)) <= N + length (puts (log s))).
  { pose proof (i_DQ _ _ V) as Q. clear - Q. destruct pd; cbn [nxt]; lia. }
  pose proof (i_w _ _ V) as W. unfold wc in W.
  pose proof (i_lk _ _ V) as LK. pose proof (i_ex _ _ V) as EX. pose proof (i_pok _ _ V) as PO.
  unfold pstep in E. destruct (pp s) eqn:EP; try discriminate E.
  - (* PCheck *)
    assert (T : tc s (w s) = false).
    { rewrite W. pose proof (i_tc _ _ V) as V6. clear - HN R1 R2 NL NH V6.
      destruct (Nat.eq_dec (N + length (puts (log s))) (nxt pd (dones (log s)) + N)) as [Eq|Ne].
      - rewrite Eq, mod_plus by lia. rewrite V6 by lia.
        destruct pd; [specialize (R2 eq_refl); lia|]. cbn [nxt]. replace (N <=? N - 1) with false by (symmetry; apply Nat.leb_gt; lia). reflexivity.
      - rewrite V6 by lia. rewrite Nat.ltb_irrefl. apply andb_false_r. }
    rewrite T in E. injection E as <-. light V EP W LK EX.
  - (* PCopy *)
    destruct (Nat.ltb_spec n K) as [Hn|Hn]; injection E as <-.
    + destruct V as [V1 V2 V3 V4 V5 V6 V7 V8 V9 V10 V11 V12 V13 V14 V15 V16 V17 V18 V19].
      rewrite EP in V8, V3, V13.
      constructor; fields; auto.
      * intros a c Ha Hb Hc. rewrite <- V7 by assumption. rewrite upd_other; [reflexivity|].
        rewrite W. clear - HN R1 R2 NL Ha Hb. apply mod_neq. destruct pd; cbn [nxt] in *; [specialize (R2 eq_refl); lia|lia].
      * intros c Hc. rewrite W, upd_same. destruct (Nat.eq_dec c n) as [->|Nc]; [rewrite upd_same; reflexivity|].
        rewrite upd_other by exact Nc. apply V8. clear - Hc Nc. lia.
      * eapply stopc_p; [exact V9|reflexivity|rewrite EP; fields; clear; lia|left; rewrite EP; fields; auto].
      * eapply flc_p; [exact V19|reflexivity|reflexivity|]. rewrite EP. fields. tauto.
    + light V EP W LK EX.
      * intros c Hc. pose proof (i_pc _ _ V) as V8. rewrite EP in V8. apply V8. clear - Hc Hn. lia.
  - (* PSet *)
    cbn [pok] in PO. subst ret. injection E as <-.
    fields. unfold ahead in A'. fields.
    destruct V as [V1 V2 V3 V4 V5 V6 V7 V8 V9 V10 V11 V12 V13 V14 V15 V16 V17 V18 V19].
    rewrite EP in V8, V3, V13. fields. rewrite Nat.add_0_r in V3.
    set (P := length (puts (log s))) in *. set (D := dones (log s)) in *.
    assert (R4 : N + P + 1 <= nxt pd D + N).
    { clear - A' V1 HN. destruct pd; cbn [nxt]; [destruct (looped (log s)); lia|]. specialize (V1 eq_refl). destruct (looped (log s)); lia. }
    constructor; fields; auto; fold P D.
    + clear - V3. lia.
    + unfold wc. fields. fold P. rewrite W. f_equal. clear; lia.
    + intros a Ha. rewrite W. destruct (Nat.eq_dec a (N + P)) as [->|Na].
      * rewrite upd_same. symmetry. apply andb_true_iff. split; [apply Nat.leb_le|apply Nat.ltb_lt]; clear; lia.
      * rewrite upd_other.
        -- rewrite V6 by exact Ha. f_equal. clear - Na. destruct (Nat.ltb_spec a (N + P)), (Nat.ltb_spec a (N + S P)); auto; lia.
        -- clear - Na Ha R4 NL HN V3. destruct (Nat.lt_trichotomy a (N + P)) as [H|[H|H]]; [|lia|].
           ++ apply mod_neq. lia.
           ++ apply not_eq_sym. apply mod_neq. split; [exact H|]. destruct pd; cbn [nxt] in *; lia.
    + intros a c Ha Hb Hc. cbn [rev]. destruct (Nat.eq_dec a (N + P)) as [->|Na].
      * replace (N + P - N) with (length (rev (puts (log s)))) by (rewrite rev_length; fold P; clear; lia).
        rewrite nth_middle. rewrite nth_cells by exact Hc. apply V8. exact Hc.
      * rewrite app_nth1 by (rewrite rev_length; fold P; clear - Hb Na; lia). apply V7; auto. clear - Hb Na. lia.
    + intros c [].
    + eapply stopc_p; [exact V9|reflexivity|rewrite EP; fields; clear; lia|left; rewrite EP; fields; split; [clear; lia|auto]].
    + unfold dsmc in *. fields. intros c Hc. rewrite V10 by exact Hc. f_equal. cbn [rev].
      rewrite app_nth1; [reflexivity|]. rewrite rev_length. fold P.
      clear - Hc V9 HN V1 EP. unfold stopc in V9. destruct (cp s); try contradiction;
        destruct V9 as (S0 & _ & _ & _ & B & _ & _ & G); specialize (G eq_refl); rewrite EP in B; cbn [unpub] in B; lia.
    + cbn [rev]. rewrite V11. rewrite firstn_app.
      replace (D + freed (cp s) - length (rev (puts (log s)))) with 0; [cbn [firstn]; rewrite app_nil_r; reflexivity|].
      rewrite rev_length. fold P. clear - V9 V3 HN EP. unfold stopc in V9. destruct (cp s); cbn [freed]; try lia.
      destruct V9 as (S0 & _ & _ & _ & B & _ & _ & G); specialize (G eq_refl); rewrite EP in B; cbn [unpub] in B.
      destruct pd; cbn [nxt] in *; lia.
    + intros x [<-|Hx]; [unfold cells; rewrite map_length, seq_length; reflexivity|auto].
    + eapply flc_p; [exact V19|reflexivity|reflexivity|]. rewrite EP. fields. tauto.
  - (* PLock *)
    unfold take in E. destruct (lk s) eqn:EL; [discriminate|]. injection E as <-.
    light V EP W LK EX.
    all: try solve [rewrite <- LK; reflexivity].
  - (* PInc *)
    cbn [pok] in PO. subst ret. injection E as <-. light V EP W LK EX.
    all: try solve [unfold wc; fields; rewrite W; reflexivity].
    all: try solve [right; right; reflexivity].
  - (* PWrap *)
    cbn [pok] in PO. subst ret.
    assert (W' : (if w s =? N then 0 else w s) = (N + length (puts (log s))) mod N).
    { rewrite W. replace (N + length (puts (log s))) with (N + length (puts (log s)) - 1 + 1) at 3 by (clear - HN; lia).
      rewrite mod_succ by (clear - HN; lia). reflexivity. }
    assert (E' : s' = set_pp (set_w s (if w s =? N then 0 else w s)) PPost).
    { injection E as <-. destruct (w s =? N); [reflexivity|]. destruct s; reflexivity. }
    clear E. subst s'. light V EP W LK EX.
    all: try solve [exact W'].
    all: try solve [left; split; [reflexivity|]; right; reflexivity].
  - (* PPost *)
    injection E as <-. light V EP W LK EX.
    all: try solve [left; split; [reflexivity|]; right; reflexivity].
  - (* PPosted *)
    injection E as <-. pose proof (i_ev2 _ _ V) as V16. rewrite EP in V16. light V EP W LK EX.
    all: try solve [intros _; exact V16].
  - (* PUnlock *)
    cbn [pok] in PO. subst ret. injection E as <-. light V EP W LK EX.
    all: try solve [fields; clear - EX; destruct (crit_c (cp s)); [discriminate|reflexivity]].
  - (* FLock *)
    unfold take in E. destruct (lk s) eqn:EL; [discriminate|]. injection E as <-.
    light V EP W LK EX.
    all: try solve [rewrite <- LK; reflexivity].
  - (* FClr *)
    injection E as <-. light V EP W LK EX.
    all: try solve [intros _; unfold flc; fields; destruct (cp s); auto].
  - (* FPost *)
    injection E as <-. light V EP W LK EX.
  - (* FPosted *)
    injection E as <-. pose proof (i_ev2 _ _ V) as V16. rewrite EP in V16. light V EP W LK EX.
    all: try solve [intros _; exact V16].
  - (* FUnlock *)
    injection E as <-. light V EP W LK EX.
    all: try solve [fields; clear - EX; destruct (crit_c (cp s)); [discriminate|reflexivity]].
  - (* FSpin *)
    destruct (flushed s); [|discriminate]. injection E as <-. light V EP W LK EX.
Qed.

(** Moves of the service thread that leave the buffers alone. *)
Lemma inv_c_light pd s s' : Inv pd s ->
  mem s' = mem s -> tc s' = tc s -> w s' = w s -> cur s' = cur s -> pp s' = pp s ->
  puts (log s') = puts (log s) -> syncs (log s') = syncs (log s) -> dones (log s') = dones (log s) -> freed (cp s') = freed (cp s) ->
  rc pd s' (dones (log s)) -> stopc pd s' (length (puts (log s))) (dones (log s)) -> dsmc pd s' (rev (puts (log s))) (dones (log s)) ->
  lk s' = crit_p (pp s) || crit_c (cp s') -> crit_p (pp s) && crit_c (cp s') = false ->
  (posted s' = true -> ev s' = true) -> match pp s with PPosted | FPosted => ev s' = true | _ => True end ->
  (looped (log s') = false -> pd = false /\ at_start (cp s') = true) ->
  (pd = false -> looped (log s') = true -> at_loop (cp s') = true) ->
  flc s' -> Inv pd s'.
Proof.
  intros V EM ET EW ECU EP EPU ES EN EF H1 H2 H3 H4 H5 H6 H7 H8 H9 H10.
  destruct V as [V1 V2 V3 V4 V5 V6 V7 V8 V9 V10 V11 V12 V13 V14 V15 V16 V17 V18 V19].
  constructor; try rewrite EM; try rewrite ET; try rewrite EP; rewrite ?EPU, ?ES, ?EN, ?ECU, ?EF; auto.
  unfold wc in *. rewrite EP, EW. exact V4.
Qed.

Lemma stopped_same pd s s' P D stop lo : stopped pd s P D stop lo -> pp s' = pp s -> posted s' = posted s -> stopped pd s' P D stop lo.
Proof. unfold stopped. intros H E F. rewrite E, F. exact H. Qed.
Lemma stopped_lo pd s P D stop : stopped pd s P D stop true -> stopped pd s P D stop false.
Proof. intros (S0 & A & B & C & D0 & E & F & _). exists S0. do 6 (split; [assumption|]). discriminate. Qed.

Ltac lc EC LK EX L1 L2 ST := fields; rewrite ?EC; try reflexivity; try exact Logic.I; auto;
  try solve [ intros ? [] | discriminate | rewrite EX; reflexivity | rewrite EX; exact LK
            | rewrite orb_false_r in LK; rewrite <- LK; reflexivity
            | let Hl := fresh in intro Hl; destruct (L1 Hl) as [_ Hd]; discriminate Hd
            | let Hl := fresh in intro Hl; destruct (L1 Hl) as [Hd _]; discriminate Hd
            | let Hl := fresh in intros Hl; rewrite (proj1 ST) in Hl; discriminate Hl
            | let Hl := fresh in let Hm := fresh in intros Hl Hm; specialize (L2 Hl Hm); discriminate L2 ].

Lemma inv_c pd s s' b : Inv pd s -> ahead N (log s) -> cstep N K b s = Some s' -> exists pd', Inv pd' s'.
Proof.
  intros V A E.
  pose proof (put_room pd _ _ A eq_refl (fun H => proj1 (i_loop _ _ V H)) (i_pd _ _ V)) as (R1 & R2 & R3).
  pose proof (nxt_lo pd (dones (log s))) as NL.
  pose proof (i_r _ _ V) as R. unfold rc in R. pose proof (i_stop _ _ V) as ST. unfold stopc in ST.
  pose proof (i_lk _ _ V) as LK. pose proof (i_ex _ _ V) as EX. pose proof (i_DQ _ _ V) as DQ.
  pose proof (i_loop _ _ V) as L1. pose proof (i_loop2 _ _ V) as L2. pose proof (i_ev _ _ V) as VE. pose proof (i_ev2 _ _ V) as VE2.
  pose proof (i_fl _ _ V) as FL. unfold flc in FL.
  unfold cstep in E. destruct (cp s) eqn:EC.
  - (* CLock1 *)
    unfold take in E. destruct (lk s) eqn:EL; [discriminate|]. injection E as <-. exists pd.
    apply (inv_c_light _ _ _ V); lc EC LK EX L1 L2 ST.
  - (* CRead *)
    injection E as <-. exists pd. rewrite andb_true_r in EX.
    apply (inv_c_light _ _ _ V); lc EC LK EX L1 L2 ST.
    + unfold stopc. fields. exists (N + length (puts (log s)) - unpub (pp s)). pose proof (i_w _ _ V) as W. unfold wc in W. split; [rewrite W; destruct (pp s); try discriminate EX; cbn [unpub]; rewrite ?Nat.sub_0_r; reflexivity|]. fields. split; [clear - DQ; lia|]. split; [clear - DQ HN; destruct pd; cbn [nxt]; lia|]. split; [clear - DQ; lia|]. split; [|split; [intro Hx; exfalso; clear - Hx DQ; lia|discriminate]]. assert (N + length (puts (log s)) + 1 <= nxt pd (dones (log s)) + N). { destruct pd; [exact (R2 eq_refl)|]. destruct (looped (log s)) eqn:EL; [|exact (R3 eq_refl)]. specialize (L2 eq_refl eq_refl). discriminate L2. } clear - H. lia.
  - (* CUnl1 *)
    rewrite (proj2 (Nat.eqb_neq N 1)) in E by (clear - HN; lia). injection E as <-. exists pd. rewrite andb_true_r in EX.
    apply (inv_c_light _ _ _ V); lc EC LK EX L1 L2 ST.
    all: try solve [unfold stopc; fields; eapply stopped_same; [exact ST|reflexivity|reflexivity]].
  - (* CLoop *)
    destruct ST as (S0 & S1 & S2 & S3 & S4 & S5 & S6 & _).
    destruct (Nat.eqb_spec (r s) stop) as [Hr|Hr].
    + injection E as <-. assert (Eq : nxt pd (dones (log s)) = S0).
      { apply (mod_eq N); [clear - S3 S5; lia|]. rewrite <- R, <- S1. exact Hr. }
      assert (PD : pd = true).
      { destruct pd; [reflexivity|]. exfalso. cbn [nxt] in Eq. clear - Eq S2 HN. lia. }
      exists pd. apply (inv_c_light _ _ _ V); lc EC LK EX L1 L2 ST.
      all: try solve [unfold stopc; fields; split; [exact PD|]; intro Hx; apply S6; subst pd; cbn [nxt] in Eq; clear - Eq Hx; lia].
      all: try solve [intros Hl; rewrite PD in Hl; discriminate Hl].
    + assert (Ne : nxt pd (dones (log s)) < S0).
      { destruct (Nat.eq_dec (nxt pd (dones (log s))) S0) as [Eq|Ne]; [|clear - Ne S3; lia]. elim Hr. rewrite R, S1, Eq. reflexivity. }
      pose proof (i_tc _ _ V) as TC. pose proof (TC (nxt pd (dones (log s))) ltac:(clear - HN; lia)) as T. rewrite <- R in T.
      destruct (tc s (r s)) eqn:ET; injection E as <-.
      * assert (NN : N <= nxt pd (dones (log s))).
        { symmetry in T. apply andb_true_iff in T. destruct T as [T _]. apply Nat.leb_le. exact T. }
        assert (PD : pd = true).
        { destruct pd; [reflexivity|]. exfalso. cbn [nxt] in NN. clear - NN HN. lia. }
        exists pd. apply (inv_c_light _ _ _ V); lc EC LK EX L1 L2 ST.
        all: try solve [exists S0; do 6 (split; [assumption|]); intros _; split; assumption].
        all: try solve [intros c [Hc _]; fields; inversion Hc].
        all: try solve [intro Hl; destruct (L1 Hl) as [_ Hd]; discriminate Hd].
        all: try solve [intros Hl; rewrite PD in Hl; discriminate Hl].
      * (* the first buffer read is the empty last one *)
        assert (PD : pd = false).
        { destruct pd; [|reflexivity]. exfalso. cbn [nxt] in *.
          rewrite (proj2 (Nat.leb_le _ _)) in T by (clear; lia). rewrite (proj2 (Nat.ltb_lt _ _)) in T by (clear - Ne S4; lia). discriminate T. }
        exists true. subst pd. pose proof (i_pd _ _ V eq_refl) as D0.
        destruct V as [V1 V2 V3 V4 V5 V6 V7 V8 V9 V10 V11 V12 V13 V14 V15 V16 V17 V18 V19].
        assert (PL : length (puts (log s)) <= N - 1).
        { cbn [nxt] in R1. clear - R1 HN. lia. }
        constructor; fields; auto; cbn [nxt] in *; try solve [intros ? []].
        -- unfold rc. fields. split; [reflexivity|]. rewrite R. f_equal. cbn [nxt]. rewrite D0. clear; lia.
        -- intros a Ha. rewrite D0 in Ha. destruct (Nat.eq_dec a (N - 1 + N)) as [->|Na].
           ++ rewrite mod_plus by (clear - HN; lia). rewrite <- R, ET. symmetry. apply andb_false_iff. right. apply Nat.ltb_ge. clear - PL. lia.
           ++ apply V6. clear - Ha Na HN. lia.
        -- intros a c Ha. apply V7. clear - Ha. lia.
        -- exists S0. cbn [nxt]. rewrite D0. fields. do 2 (split; [assumption|]).
           split; [clear - S2; lia|]. split; [exact S4|]. split; [clear - S5; lia|]. split; [exact S6|discriminate].
        -- rewrite V11, EC. reflexivity.
        -- intro Hl. destruct (L1 Hl) as [_ Hd]. discriminate Hd.
  - (* CCopy *)
    assert (PD : pd = true).
    { destruct ST as (S0 & S1 & S2 & S3 & S4 & S5 & S6 & S7). specialize (S7 eq_refl). destruct pd; [reflexivity|]. exfalso. cbn [nxt] in S7. clear - S7 HN. lia. }
    destruct (Nat.ltb_spec c K) as [Hk|Hk]; injection E as <-; exists pd;
      (apply (inv_c_light _ _ _ V); lc EC LK EX L1 L2 ST); try (intros Hl; rewrite PD in Hl; discriminate Hl).
    + intros c0 Hc. fields. pose proof (i_dsm _ _ V) as DS. unfold dsmc in DS. rewrite EC in DS.
      destruct (Nat.eq_dec c0 c) as [->|Nc]; [|rewrite upd_other by exact Nc; apply DS; clear - Hc Nc; lia].
      rewrite upd_same. rewrite R. destruct ST as (S0 & S1 & S2 & S3 & S4 & S5 & S6 & S7). specialize (S7 eq_refl).
      apply (i_mem _ _ V); [clear; lia|clear - S4 S7; lia|exact Hk].
    + intros c0 Hc. fields. pose proof (i_dsm _ _ V) as DS. unfold dsmc in DS. rewrite EC in DS. apply DS. clear - Hc Hk. lia.
  - (* CSync *)
    injection E as <-.
    destruct ST as (S0 & S1 & S2 & S3 & S4 & S5 & S6 & S7). specialize (S7 eq_refl).
    assert (PD : pd = true).
    { destruct pd; [reflexivity|]. exfalso. cbn [nxt] in S7. clear - S7 HN. lia. }
    exists pd. subst pd. cbn [nxt] in *.
    pose proof (i_dsm _ _ V) as DS. unfold dsmc in DS. rewrite EC in DS. cbn [nxt] in DS.
    assert (LT : dones (log s) < length (puts (log s))) by (clear - S4 S7; lia).
    assert (NE : cells K (dsm s) = nth (dones (log s)) (rev (puts (log s))) []).
    { apply cells_eq.
      - apply (i_len _ _ V). apply in_rev. apply nth_In. rewrite rev_length. exact LT.
      - intros c Hc. rewrite DS by exact Hc. do 2 f_equal. clear; lia. }
    destruct V as [V1 V2 V3 V4 V5 V6 V7 V8 V9 V10 V11 V12 V13 V14 V15 V16 V17 V18 V19].
    constructor; fields; auto; try solve [intros ? []].
    + exists S0. do 6 (split; [assumption|]). intros _. exact S7.
    + cbn [rev freed]. rewrite V11, EC. cbn [freed]. rewrite Nat.add_0_r, Nat.add_1_r, NE.
      clear - LT. assert (H : dones (log s) < length (rev (puts (log s)))) by (rewrite rev_length; exact LT). revert H.
      generalize (rev (puts (log s))), (dones (log s)). intros l n. revert l. induction n; intros [|x l] H; cbn in *; try lia; [reflexivity|].
      f_equal. apply IHn. lia.
    all: try solve [discriminate | intro Hl; destruct (L1 Hl) as [_ Hd]; discriminate Hd].
  - (* CClear *)
    injection E as <-.
    destruct ST as (S0 & S1 & S2 & S3 & S4 & S5 & S6 & S7). specialize (S7 eq_refl).
    assert (PD : pd = true).
    { destruct pd; [reflexivity|]. exfalso. cbn [nxt] in S7. clear - S7 HN. lia. }
    exists pd. subst pd. specialize (R2 eq_refl). cbn [nxt] in *.
    destruct V as [V1 V2 V3 V4 V5 V6 V7 V8 V9 V10 V11 V12 V13 V14 V15 V16 V17 V18 V19].
    cbn [nxt] in *. constructor; fields; auto; cbn [nxt]; try discriminate; try solve [intros ? []].
    + clear - S4 S7. lia.
    + unfold rc. fields. split; [reflexivity|]. rewrite R. f_equal. cbn [nxt]. clear; lia.
    + intros a Ha. rewrite R. destruct (Nat.eq_dec a (N + dones (log s) + N)) as [->|Na].
      * rewrite mod_plus by (clear - HN; lia). rewrite upd_same. symmetry. apply andb_false_iff. right. apply Nat.ltb_ge. clear - R2. lia.
      * rewrite upd_other; [apply V6; clear - Ha Na; lia|]. apply not_eq_sym. apply mod_neq. clear - Ha Na. lia.
    + intros a c Ha Hb Hc. apply V7; auto. clear - Ha. lia.
    + exists S0. cbn [nxt]. fields. do 2 (split; [assumption|]). split; [clear - S7; lia|]. split; [exact S4|]. split; [clear - S5; lia|]. split; [exact S6|discriminate].
    + cbn [freed]. rewrite V11, EC. cbn [freed]. f_equal. clear; lia.
    all: try solve [discriminate | intro Hl; destruct (L1 Hl) as [_ Hd]; discriminate Hd].
  - (* CNext *)
    destruct R as [PD R]. subst pd. cbn [nxt] in *.
    assert (R' : (if (1 <? N) && (r s + 1 =? N) then 0 else r s + 1) = (N + dones (log s)) mod N).
    { replace (1 <? N) with true by (symmetry; apply Nat.ltb_lt; clear - HN; lia). rewrite R. cbn [andb].
      replace (N + dones (log s)) with (N + dones (log s) - 1 + 1) at 3 by (clear - HN; lia). rewrite mod_succ by (clear - HN; lia). reflexivity. }
    rewrite R' in E. injection E as <-. exists true.
    apply (inv_c_light _ _ _ V); fields; rewrite ?EC; try (destruct ret; reflexivity); auto.
    all: try solve [ unfold stopc; fields; destruct ret; [|exact Logic.I]; eapply stopped_same; [exact ST|reflexivity|reflexivity]
                   | intros c Hc; fields; destruct ret; destruct Hc | destruct ret; exact LK | destruct ret; exact EX
                   | intro Hl; destruct (L1 Hl) as [Hd _]; discriminate Hd | discriminate | unfold flc; fields; destruct ret; exact Logic.I ].
  - (* CFlush *)
    injection E as <-. exists pd.
    apply (inv_c_light _ _ _ V); lc EC LK EX L1 L2 ST.
    all: try solve [unfold flc; fields; discriminate].
  - (* CWait *)
    destruct (ev s) eqn:EE; [|discriminate]. injection E as <-. exists pd.
    apply (inv_c_light _ _ _ V); lc EC LK EX L1 L2 ST.
    all: rewrite EE; assumption.
  - (* CLock2 *)
    unfold take in E. destruct (lk s) eqn:EL; [discriminate|]. injection E as <-. exists pd.
    apply (inv_c_light _ _ _ V); lc EC LK EX L1 L2 ST.
  - (* CTest *)
    injection E as <-. exists pd. rewrite andb_true_r in EX.
    destruct (posted s) eqn:EPo;
    (apply (inv_c_light _ _ _ V); lc EC LK EX L1 L2 ST).
    all: try solve [intro Hl; rewrite EPo in Hl; discriminate Hl].
    all: try solve [clear - EX; destruct (pp s); try exact Logic.I; discriminate EX].
  - (* CClrP *)
    injection E as <-. exists pd. rewrite andb_true_r in EX.
    apply (inv_c_light _ _ _ V); lc EC LK EX L1 L2 ST.
  - (* CUnl2 *)
    injection E as <-. exists pd. rewrite andb_true_r in EX.
    apply (inv_c_light _ _ _ V); lc EC LK EX L1 L2 ST.
Qed.

Lemma inv_step pd s s' a : Inv pd s -> ahead N (log s) -> ahead N (log s') -> step N K s a = Some s' -> exists pd', Inv pd' s'.
Proof.
  intros V A A' E. destruct a; cbn [step] in E.
  - destruct (pp s) eqn:EP; try discriminate. injection E as <-. exists pd.
    pose proof (i_w _ _ V) as W. unfold wc in W. rewrite EP in W. pose proof (i_lk _ _ V) as LK. pose proof (i_ex _ _ V) as EX. rewrite EP in LK, EX.
    light V EP W LK EX.
  - destruct (pp s) eqn:EP; try discriminate. injection E as <-. exists pd.
    pose proof (i_w _ _ V) as W. unfold wc in W. rewrite EP in W. pose proof (i_lk _ _ V) as LK. pose proof (i_ex _ _ V) as EX. rewrite EP in LK, EX.
    light V EP W LK EX.
  - exists pd. eapply inv_p; eauto.
  - eapply inv_c; eauto.
  - destruct (cp s) eqn:EC; try discriminate. injection E as <-. exists pd.
    pose proof (i_r _ _ V) as R. unfold rc in R. pose proof (i_stop _ _ V) as ST. unfold stopc in ST.
    pose proof (i_lk _ _ V) as LK. pose proof (i_ex _ _ V) as EX.
    pose proof (i_loop _ _ V) as L1. pose proof (i_loop2 _ _ V) as L2. pose proof (i_ev _ _ V) as VE. pose proof (i_ev2 _ _ V) as VE2.
    pose proof (i_fl _ _ V) as FL. unfold flc in FL. rewrite EC in *.
    apply (inv_c_light _ _ _ V); fields; rewrite ?EC; try reflexivity; try exact Logic.I; auto.
    intros c [].
Qed.
End Inv.
