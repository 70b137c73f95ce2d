(** C27: the reader of a circular buffer data source. *)
From Verif Require Import Base Conc AsyncBroker_Proofs TrigBroker_Proofs CircBuf_Model.
Open Scope nat_scope.

(** ** Specification *)
(** The blocks given to the reader (latest first) are runs of [T] consecutive samples, in the order of acquisition, without repetition, and
    what lies between two blocks is a multiple of [T] samples: none when [gapless]. [e]: the number of the sample after the last block. *)
Inductive in_order (gapless : bool) (T : nat) : list (list nat) -> nat -> Prop :=
| io_nil : in_order gapless T [] 0
| io_cons bs e a : in_order gapless T bs e -> e <= a -> Nat.divide T (a - e) -> (gapless = true -> a = e) -> in_order gapless T (seq a T :: bs) (a + T).

(** The acquisition thread never writes into a buffer that was not read, and the unread samples together with the ones the reader is going to
    wait for do not fill all buffers (k: the unread samples that Synchronise counted). *)
Definition calm (c : cfg) (sched : list act) : Prop :=
  forall p a q s, sched = p ++ a :: q -> exec (step c) (init c) p = Some s ->
    (a = Prod -> pp s = PIdle -> fresh s (cur s) = false) /\
    (forall k, a = Cons -> cp s = Back k -> k - k mod trig c + trig c < nbuf c).

(** ** Proof *)
Lemma nxt_mod c x : 1 <= nbuf c -> nxt c (x mod nbuf c) = S x mod nbuf c.
Proof.
  intro H. unfold nxt. replace (S x) with (x + 1) by lia. destruct (Nat.eq_dec (nbuf c) 1) as [E|E].
  - rewrite E. rewrite !Nat.mod_1_r. reflexivity.
  - rewrite mod_succ by lia. pose proof (Nat.mod_upper_bound x (nbuf c)). destruct (Nat.leb_spec (nbuf c) (S (x mod nbuf c))), (Nat.eqb_spec (x mod nbuf c + 1) (nbuf c)); lia.
Qed.
Lemma zwrap_spec n x : (0 < n < 2 ^ 31 -> - n <= x < n -> zwrap n x = if x <? 0 then x + n else x)%Z.
Proof.
  intros H1 H2. unfold zwrap, uwrap. destruct (Z.ltb_spec x 0).
  - assert (E : (x mod 2 ^ 32 = x + 2 ^ 32)%Z) by (symmetry; apply (Z.mod_unique x (2 ^ 32) (-1)); lia). rewrite E.
    destruct (Z.leb_spec n (x + 2 ^ 32)); [|lia]. symmetry. apply (Z.mod_unique _ (2 ^ 32) 1); lia.
  - rewrite Z.mod_small by lia. destruct (Z.leb_spec n x); lia.
Qed.
Lemma back_mod c x k : 1 <= nbuf c -> (Z.of_nat (nbuf c) < 2 ^ 31)%Z -> k < nbuf c -> k <= x -> back c (x mod nbuf c) k = (x - k) mod nbuf c.
Proof.
  intros H1 H2 H3 H4. rewrite mod_back by assumption. pose proof (Nat.mod_upper_bound x (nbuf c)). unfold back, zback.
  rewrite zwrap_spec by lia. destruct (Nat.ltb_spec (x mod nbuf c) k); destruct (Z.ltb_spec (Z.of_nat (x mod nbuf c) - Z.of_nat k) 0); lia.
Qed.
(** Offsets: for a signal of [size] bytes per sample, in [n] buffers. *)
Lemma in_offset_spec n last samples size : (0 < n < 2 ^ 31 -> 0 <= last < n -> 1 <= samples <= n -> 0 <= size -> n * size < 2 ^ 32 ->
  in_offset n last samples size = (last + 1 - samples) mod n * size)%Z.
Proof.
  intros H1 H2 H3 H4 H5. unfold in_offset.
  assert (E : zwrap n (uwrap 32 (last - samples) + 1) = zwrap n (last - samples + 1)).
  { unfold zwrap, uwrap. rewrite Z.add_mod_idemp_l by lia. reflexivity. }
  rewrite E, zwrap_spec by lia. assert (M : ((last + 1 - samples) mod n = if last - samples + 1 <? 0 then last - samples + 1 + n else last - samples + 1)%Z).
  { destruct (Z.ltb_spec (last - samples + 1) 0); symmetry; [apply (Z.mod_unique _ n (-1)); lia|apply (Z.mod_unique _ n 0); lia]. }
  rewrite M. apply uwrap_id. destruct (Z.ltb_spec (last - samples + 1) 0); nia.
Qed.
Lemma start_mod c A : 1 <= trig c < nbuf c -> (Z.of_nat (nbuf c) < 2 ^ 31)%Z -> trig c <= A -> start c ((A + nbuf c - 1) mod nbuf c) = (A - trig c) mod nbuf c.
Proof.
  intros H1 H2 H3. unfold start.
  assert (E : (A - trig c) mod nbuf c = (A + nbuf c - 1 - (trig c - 1)) mod nbuf c).
  { replace (A + nbuf c - 1 - (trig c - 1)) with (A - trig c + nbuf c) by lia. symmetry. apply mod_plus. lia. }
  rewrite E, (mod_back (nbuf c) (A + nbuf c - 1) (trig c - 1)) by lia. pose proof (Nat.mod_upper_bound (A + nbuf c - 1) (nbuf c) ltac:(lia)) as U.
  set (r := (A + nbuf c - 1) mod nbuf c) in *. clearbody r. clear E. set (n := nbuf c) in *. set (t := trig c) in *. clearbody n t. clear H3.
  rewrite in_offset_spec by lia. rewrite Z.mul_1_r. destruct (Nat.ltb_spec r (t - 1)).
  - rewrite <- (Z.mod_unique (Z.of_nat r + 1 - Z.of_nat t) (Z.of_nat n) (-1) (Z.of_nat r + 1 - Z.of_nat t + Z.of_nat n)) by lia. lia.
  - rewrite Z.mod_small by lia. lia.
Qed.

Section Order.
Variable c : cfg.
Hypothesis HT : 1 <= trig c.
Hypothesis HN : 1 <= nbuf c.
Hypothesis HB : (Z.of_nat (nbuf c) < 2 ^ 31)%Z.
Notation N := (nbuf c).
Notation T := (trig c).

Record INV (s : st) (R A : nat) : Prop := {
  I_last : last s = (A + N - 1) mod N;
  I_cur : cur s = npub s mod N;
  I_ra : R <= A <= npub s;
  I_n : npub s <= R + N;
  I_p : pp s <> PIdle -> npub s < R + N;
  I_f : forall i, i < N -> (fresh s i = true <-> exists q, R <= q < npub s /\ q mod N = i);
  I_d : forall q, R <= q < npub s -> data s (q mod N) = q;
  I_dp : pp s <> PIdle -> data s (npub s mod N) = npub s;
  I_l1 : match cp s with Idle | Clear _ => True | _ => last1 s = (R + N - 1) mod N end;
  I_c : match cp s with
    | Idle => A = R
    | Scan k => A = R + k /\ first c = false
    | Back k => A = R + k /\ (first c = true -> k = 0)
    | Wait m => exists D, A + m = R + D /\ D < N /\ T <= D /\ m <= T /\ Nat.divide T (D - T) /\ (first c = true -> D = T)
    | Copy j i b => j <= T /\ R + T <= A < R + N /\ Nat.divide T (A - T - R) /\ (first c = true -> A = R + T) /\ i = (A - T + j) mod N /\ b = rev (seq (A - T) j)
    | Clear i => i = (R + N - 1) mod N /\ A < R + N end;
  I_o : in_order (first c) T (blocks s) (match cp s with Clear _ => A | _ => R end) }.

Lemma fresh_next s R A : INV s R A -> A < R + N -> (fresh s (nxt c (last s)) = true <-> A < npub s).
Proof.
  intros V H. rewrite (I_last s R A V), nxt_mod by lia. replace (S (A + N - 1)) with (A + N) by lia. rewrite mod_plus by lia.
  rewrite (I_f s R A V) by (apply Nat.mod_upper_bound; lia). pose proof (I_ra s R A V). split.
  - intros (q & Q1 & Q2). pose proof (I_n s R A V). destruct (Nat.eq_dec q A) as [->|NE]; [lia|]. elim (mod_rng N R q A ltac:(lia) ltac:(lia) NE Q2).
  - intro L. exists A. split; [lia|reflexivity].
Qed.
Lemma last_next A : nxt c ((A + N - 1) mod N) = (S A + N - 1) mod N.
Proof. rewrite nxt_mod by lia. f_equal. lia. Qed.

Lemma inv_init : INV (init c) 0 0.
Proof.
  split; cbn [init last last1 cur npub pp fresh data cp blocks]; auto; try lia; try congruence.
  - rewrite Nat.mod_small by lia. reflexivity.
  - rewrite Nat.mod_0_l by lia. reflexivity.
  - intros i _. split; [discriminate|]. intros (q & Q & _). lia.
  - constructor.
Qed.
Lemma inv_prod s R A s' : INV s R A -> (pp s = PIdle -> fresh s (cur s) = false) -> step c s Prod = Some s' -> INV s' R A.
Proof.
  intros V G E. cbn [step] in E. destruct (pp s) eqn:EP; injection E as <-; destruct V as [V1 V2 V3 V4 V5 V6 V7 V8 V9 V10 V11]; unfold set_p.
  - specialize (G eq_refl). assert (L : npub s < R + N).
    { destruct (Nat.lt_ge_cases (npub s) (R + N)) as [L|L]; [exact L|]. exfalso. rewrite V2 in G. assert (F : fresh s (npub s mod N) = true).
      { apply V6; [apply Nat.mod_upper_bound; lia|]. exists R. split; [lia|]. replace (npub s) with (R + N) by lia. symmetry. apply mod_plus. lia. } congruence. }
    split; cbn [last last1 cur npub pp fresh data cp blocks]; auto.
    + intros q Q. rewrite upd_other; [auto|]. rewrite V2. apply (mod_rng N R); lia.
    + intros _. rewrite V2. apply upd_same.
  - split; cbn [last last1 cur npub pp fresh data cp blocks]; auto; intros _; [apply V5|apply V8]; congruence.
  - assert (L : npub s < R + N) by (apply V5; congruence). assert (D : data s (npub s mod N) = npub s) by (apply V8; congruence).
    split; cbn [last last1 cur npub pp fresh data cp blocks]; auto; try lia; try congruence.
    + rewrite V2. apply nxt_mod. lia.
    + intros i Hi. rewrite V2. destruct (upd_cases (fresh s) (npub s mod N) true i) as [[-> ->]|[NE ->]].
      * split; [|reflexivity]. intros _. exists (npub s). split; [lia|reflexivity].
      * rewrite V6 by exact Hi. split; intros (q & Q1 & Q2); exists q; (split; [|exact Q2]); [lia|]. destruct (Nat.eq_dec q (npub s)) as [->|]; [congruence|lia].
    + intros q Q. destruct (Nat.eq_dec q (npub s)) as [->|]; [exact D|apply V7; lia].
Qed.
Ltac light := repeat match goal with H : context [Nat.modulo] |- _ => clear H | H : context [Nat.divide] |- _ => clear H | H : in_order _ _ _ _ |- _ => clear H end; lia.
Ltac keep V := destruct V as [V1 V2 V3 V4 V5 V6 V7 V8 V9 V10 V11]; split; unfold set_c; cbn [last last1 cur npub pp fresh data cp blocks]; auto; try light.
Lemma inv_cons s R A s' : INV s R A -> (forall k, cp s = Back k -> k - k mod T + T < N) -> step c s Cons = Some s' -> exists R' A', INV s' R' A'.
Proof.
  intros V G E. pose proof (fresh_next s R A V) as FN. pose proof (I_last s R A V) as LA. pose proof (I_ra s R A V) as RA. pose proof (I_n s R A V) as NN.
  pose proof (I_c s R A V) as HC. pose proof (I_l1 s R A V) as L1. pose proof (I_o s R A V) as HO. cbn [step] in E. destruct (cp s) as [|k|k|m|j i b|i] eqn:EC.
  - injection E as <-. exists R, A. keep V.
    + destruct (first c); congruence.
    + destruct (first c); [split; [light|reflexivity]|split; [light|reflexivity]].
    + destruct (first c); exact HO.
  - destruct HC as [HA HF]. destruct (Nat.ltb_spec k N) as [L|L].
    + destruct (fresh s (nxt c (last s))) eqn:F; injection E as <-.
      * assert (F2 : A < npub s) by (apply FN; [light|reflexivity]). exists R, (S A). keep V; rewrite LA; apply last_next.
      * exists R, A. keep V.
    + injection E as <-. assert (k = N) by light. subst k. exists R, R. keep V. rewrite LA, HA. replace (R + N + N - 1) with (R + N - 1 + N) by light. apply mod_plus. light.
  - destruct HC as [HA HF]. injection E as <-. specialize (G k eq_refl).
    assert (exists x, k mod T = x /\ x < T /\ x <= k /\ Nat.divide T (k - x) /\ (k = 0 -> x = 0)) as (x & EX & X1 & X2 & X3 & X4).
    { exists (k mod T). split; [reflexivity|]. split; [apply Nat.mod_upper_bound; light|]. split; [apply Nat.mod_le; light|]. split.
      - exists (k / T). pose proof (Nat.div_mod k T ltac:(light)) as DM. rewrite Nat.mul_comm. clear - DM. revert DM. generalize (T * (k / T)), (k mod T). light.
      - intros ->. apply Nat.mod_0_l. light. }
    rewrite EX in *. clear EX. exists R, (A - x). keep V.
    + rewrite LA, back_mod by light. f_equal. light.
    + exists (k - x + T). repeat split; try light.
      * replace (k - x + T - T) with (k - x) by light. exact X3.
  - destruct m as [|m].
    + injection E as <-. destruct HC as (D & D1 & D2 & D3 & D4 & D5 & D6). exists R, A. keep V.
      split; [light|]. split; [light|]. split; [replace (A - T - R) with (D - T) by light; exact D5|]. split; [intro F; specialize (D6 F); light|]. split; [|reflexivity].
      rewrite LA, start_mod by light. f_equal. light.
    + destruct HC as (D & D1 & D2 & D3 & D4 & D5 & D6). destruct (fresh s (nxt c (last s))) eqn:F; [|discriminate]. injection E as <-. assert (F2 : A < npub s) by (apply FN; [light|reflexivity]).
      exists R, (S A). keep V; [rewrite LA; apply last_next|]. exists D. repeat split; auto; light.
  - destruct HC as (C1 & C2 & C3 & C4 & C5 & C6). destruct (Nat.ltb_spec j T) as [L|L]; injection E as <-.
    + exists R, A. pose proof (I_d s R A V (A - T + j) ltac:(light)) as DD. keep V. repeat split; auto; try light.
      * rewrite C5. rewrite nxt_mod by light. f_equal. light.
      * rewrite seq_S, rev_app_distr, C6, C5, DD. reflexivity.
    + exists R, A. keep V.
      * split; [exact L1|light].
      * assert (j = T) by light. subst j. rewrite C6, rev_involutive. replace A with (A - T + T) at 2 by light. apply io_cons with (e := R); auto; [light|]. intro F. specialize (C4 F). light.
  - destruct HC as (C1 & C2). destruct (Nat.eqb_spec i (last s)) as [Q|Q]; injection E as <-.
    + assert (A = R). { destruct (Nat.eq_dec A R); [auto|]. exfalso. rewrite C1, LA in Q. elim (mod_neq N (R + N - 1) (A + N - 1)); [light|exact Q]. }
      subst A. exists R, R. keep V.
    + assert (A <> R) by (intros ->; congruence). exists (S R), A. assert (NI : nxt c i = R mod N). { rewrite C1, last_next. replace (S R + N - 1) with (R + N) by light. apply mod_plus. light. }
      keep V.
      * intros x Hx. rewrite NI. destruct (upd_cases (fresh s) (R mod N) false x) as [[-> ->]|[NE ->]].
        -- split; [discriminate|]. intros (q & Q1 & Q2). elim (mod_rng N R q R ltac:(light) ltac:(light) ltac:(light) Q2).
        -- rewrite V6 by exact Hx. split; intros (q & Q1 & Q2); exists q; (split; [|exact Q2]); [|light]. destruct (Nat.eq_dec q R) as [->|]; [congruence|light].
      * intros q Hq. apply V7. light.
      * split; [rewrite C1; apply last_next|light].
Qed.
End Order.
Lemma calm_prefix c p q : calm c (p ++ q) -> calm c p.
Proof. intros H p' a q' s E. apply (H p' a (q' ++ q) s). rewrite E, <- app_assoc. reflexivity. Qed.
Lemma calm_inv c sched s : 1 <= trig c -> 1 <= nbuf c -> (Z.of_nat (nbuf c) < 2 ^ 31)%Z -> calm c sched -> exec (step c) (init c) sched = Some s -> exists R A, INV c s R A.
Proof.
  intros HT HN HB. revert s. induction sched as [|a r IH] using rev_ind; intros s H E.
  - injection E as <-. exists 0, 0. apply inv_init; assumption.
  - rewrite exec_app in E. destruct (exec (step c) (init c) r) as [s1|] eqn:E1; [|discriminate]. cbn in E. destruct (step c s1 a) as [s2|] eqn:ES; [|discriminate].
    injection E as <-. destruct (IH s1 (calm_prefix _ _ _ H) eq_refl) as (R & A & V). destruct (H r a [] s1 eq_refl E1) as [G1 G2]. destruct a.
    + exists R, A. apply (inv_prod c HT HN s1 R A s2); auto.
    + apply (inv_cons c HT HN HB s1 R A s2); auto.
Qed.

(** ** The property, as long as the reader is not overtaken *)
Theorem C27_order_partial c sched s : 1 <= trig c -> 1 <= nbuf c -> (Z.of_nat (nbuf c) < 2 ^ 31)%Z -> calm c sched -> exec (step c) (init c) sched = Some s ->
  exists e, in_order (first c) (trig c) (blocks s) e /\ e <= npub s.
Proof.
  intros HT HN HB H E. destruct (calm_inv c sched s HT HN HB H E) as (R & A & V). eexists. split; [exact (I_o c s R A V)|]. pose proof (I_ra c s R A V). destruct (cp s); lia.
Qed.
(** With GetFirst nothing is skipped. *)
Theorem C27_gapless_partial c sched s : first c = true -> 1 <= trig c -> 1 <= nbuf c -> (Z.of_nat (nbuf c) < 2 ^ 31)%Z -> calm c sched -> exec (step c) (init c) sched = Some s ->
  concat (rev (blocks s)) = seq 0 (trig c * length (blocks s)).
Proof.
  intros F HT HN HB H E. destruct (C27_order_partial c sched s HT HN HB H E) as (e & IO & _). rewrite F in IO.
  assert (G : concat (rev (blocks s)) = seq 0 e /\ e = trig c * length (blocks s)).
  { clear - IO. induction IO as [|bs e a IO [IH1 IH2] L D G]; [split; [reflexivity|cbn; lia]|]. rewrite (G eq_refl). cbn [rev length]. split; [|nia].
    rewrite concat_app, IH1. cbn [concat]. rewrite app_nil_r, seq_app. reflexivity. }
  destruct G as [G1 G2]. rewrite G1, G2. reflexivity.
Qed.
(** The reader is blocked only while the block that it is to be given next is not complete. *)
Theorem C27_progress_partial c sched s : 1 <= trig c -> 1 <= nbuf c -> (Z.of_nat (nbuf c) < 2 ^ 31)%Z -> calm c sched -> exec (step c) (init c) sched = Some s ->
  step c s Cons = None -> exists e a, in_order (first c) (trig c) (blocks s) e /\ e <= a /\ Nat.divide (trig c) (a - e) /\ (first c = true -> a = e) /\ a <= npub s < a + trig c.
Proof.
  intros HT HN HB H E B. destruct (calm_inv c sched s HT HN HB H E) as (R & A & V).
  pose proof (I_o c s R A V) as IO. pose proof (fresh_next c HT HN s R A V) as FN. pose proof (I_c c s R A V) as HC. pose proof (I_ra c s R A V). pose proof (I_n c s R A V).
  cbn [step] in B. destruct (cp s) as [|k|k|[|m]|j i b|i]; try discriminate.
  - destruct (k <? nbuf c); [destruct (fresh s _)|]; discriminate.
  - destruct HC as (D & D1 & D2 & D3 & D4 & D5 & D6). destruct (fresh s (nxt c (last s))) eqn:F; [discriminate|]. exists R, (R + D - trig c). split; [exact IO|]. split; [lia|].
    split; [replace (R + D - trig c - R) with (D - trig c) by lia; exact D5|]. split; [intro X; specialize (D6 X); lia|].
    assert (~ A < npub s) by (intro X; apply FN in X; [discriminate|lia]). lia.
  - destruct (j <? trig c); discriminate.
  - destruct (i =? last s); discriminate.
Qed.

(** ** The overlap flag *)
(** The acquisition of a sample is not interrupted by the reader between the writing of the buffer and the raising of its flag. *)
Inductive whole : list act -> Prop :=
| wh_nil : whole []
| wh_prod l : whole l -> whole (Prod :: Prod :: Prod :: l)
| wh_cons l : whole l -> whole (Cons :: l).
Record FI (c : cfg) (s : st) : Prop := {
  F_pp : pp s = PIdle;
  F_cur : cur s = npub s mod nbuf c;
  F_new : forall i, npub s <= i -> i < nbuf c -> fresh s i = false;
  F_data : forall q, q < npub s <= q + nbuf c -> data s (q mod nbuf c) = q;
  F_fresh : forall q, q < npub s <= q + nbuf c -> (fresh s (q mod nbuf c) = true <-> ~ In q (freed s));
  F_freed : forall q, In q (freed s) -> q < npub s;
  F_marks : forall q, In q (marks s) <-> nbuf c <= q < npub s /\ ~ In (q - nbuf c) (freed s) }.
Lemma nxt_lt c i : 1 <= nbuf c -> nxt c i < nbuf c.
Proof. intro H. unfold nxt. destruct (Nat.leb_spec (nbuf c) (S i)); lia. Qed.
(** Every buffer that was written holds a sample of the last turn. *)
Lemma window N P i : i < N -> i < P -> exists q, q < P <= q + N /\ q mod N = i.
Proof.
  intros H1 H2. exists (i + N * ((P - 1 - i) / N)). pose proof (Nat.div_mod (P - 1 - i) N ltac:(lia)) as D. pose proof (Nat.mod_upper_bound (P - 1 - i) N ltac:(lia)) as U. split.
  - revert D U. generalize (N * ((P - 1 - i) / N)), ((P - 1 - i) mod N). lia.
  - rewrite Nat.mul_comm, Nat.mod_add by lia. apply Nat.mod_small. exact H1.
Qed.
Lemma fi_cons c s s' : 1 <= nbuf c -> FI c s -> step c s Cons = Some s' -> FI c s'.
Proof.
  intros HN V E. cbn [step] in E. destruct (cp s) as [|k|k|[|m]|j i b|i].
  - injection E as <-. destruct V. split; assumption.
  - destruct (k <? nbuf c); [destruct (fresh s (nxt c (last s))) eqn:F|]; injection E as <-; destruct V; split; assumption.
  - injection E as <-. destruct V. split; assumption.
  - injection E as <-. destruct V. split; assumption.
  - destruct (fresh s (nxt c (last s))) eqn:F; [|discriminate]. injection E as <-. destruct V. split; assumption.
  - destruct (j <? trig c); injection E as <-; destruct V; split; assumption.
  - destruct (i =? last s); [injection E as <-; destruct V; split; assumption|].
    pose proof (nxt_lt c i HN) as NL. set (x := nxt c i) in *. clearbody x. destruct V as [V1 V2 V3 V4 V5 V6 V7].
    destruct (fresh s x) eqn:FX; injection E as <-; split; unfold set_c; cbn [pp cur npub fresh data marks freed]; auto.
    + intros y L1 L2. destruct (upd_cases (fresh s) x false y) as [[-> ->]|[NE ->]]; auto.
    + intros q Q. assert (XP : x < npub s). { destruct (Nat.lt_ge_cases x (npub s)); [auto|]. rewrite V3 in FX by auto. discriminate. }
      destruct (upd_cases (fresh s) x false (q mod nbuf c)) as [[E1 ->]|[NE ->]].
      * split; [discriminate|]. intro H. destruct H. left. rewrite <- E1. apply V4. exact Q.
      * rewrite V5 by exact Q. cbn [In]. split; [intros H [K|K]; [|auto]|intros H K; auto]. destruct (window (nbuf c) (npub s) x NL XP) as (r & R1 & R2).
        rewrite <- R2, V4 in K by exact R1. subst r. congruence.
    + intros q [<-|H]; [|auto]. assert (XP : x < npub s). { destruct (Nat.lt_ge_cases x (npub s)); [auto|]. rewrite V3 in FX by auto. discriminate. }
      destruct (window (nbuf c) (npub s) x NL XP) as (r & R1 & R2). rewrite <- R2, V4 by exact R1. lia.
    + intro q. rewrite V7. assert (XP : x < npub s). { destruct (Nat.lt_ge_cases x (npub s)); [auto|]. rewrite V3 in FX by auto. discriminate. }
      destruct (window (nbuf c) (npub s) x NL XP) as (r & R1 & R2). rewrite <- R2, V4 by exact R1. cbn [In]. split; intros [A B]; (split; [exact A|]); [intros [K|K]; [lia|auto]|auto].
    + intros y L1 L2. destruct (upd_cases (fresh s) x false y) as [[-> ->]|[NE ->]]; auto.
    + intros q Q. rewrite <- V5 by exact Q. destruct (upd_cases (fresh s) x false (q mod nbuf c)) as [[E1 ->]|[NE ->]]; [rewrite E1, FX|]; reflexivity.
Qed.
Lemma fi_prod c s s' : 1 <= nbuf c -> FI c s -> exec (step c) s [Prod; Prod; Prod] = Some s' -> FI c s'.
Proof.
  intros HN V E. destruct V as [V1 V2 V3 V4 V5 V6 V7]. cbn [exec step] in E. rewrite V1 in E. unfold set_p in E. cbn [exec step pp cur npub fresh data marks freed] in E. injection E as <-.
  assert (W : forall q, q < S (npub s) <= q + nbuf c -> q = npub s \/ (q <> npub s /\ q < npub s <= q + nbuf c /\ q mod nbuf c <> npub s mod nbuf c)).
  { intros q Q. destruct (Nat.eq_dec q (npub s)) as [|NE]; [auto|right]. split; [auto|]. split; [lia|]. apply (mod_rng (nbuf c) q); lia. }
  split; cbn [pp cur npub fresh data marks freed]; auto.
  - rewrite V2. apply nxt_mod. exact HN.
  - intros i L1 L2. rewrite upd_other; [apply V3; lia|]. rewrite V2, Nat.mod_small by lia. lia.
  - intros q Q. rewrite V2. destruct (W q Q) as [->|(A & B & C)]; [apply upd_same|]. rewrite upd_other by auto. auto.
  - intros q Q. rewrite V2. destruct (W q Q) as [->|(A & B & C)]; [rewrite upd_same; split; [intros _ H; apply V6 in H; lia|reflexivity]|]. rewrite upd_other by auto. auto.
  - intros q H. apply V6 in H. lia.
  - intro q. rewrite V2. destruct (fresh s (npub s mod nbuf c)) eqn:F; cbn [In]; rewrite V7.
    + assert (LN : nbuf c <= npub s). { destruct (Nat.lt_ge_cases (npub s) (nbuf c)) as [L|L]; [|exact L]. rewrite Nat.mod_small, V3 in F by lia. discriminate. }
      assert (M : (npub s - nbuf c) mod nbuf c = npub s mod nbuf c). { rewrite <- (mod_plus (nbuf c) (npub s - nbuf c)) by lia. f_equal. lia. }
      rewrite <- M in F. apply V5 in F; [|lia]. split; [intros [<-|[A B]]; [split; [lia|exact F]|split; [lia|exact B]]|].
      intros [A B]. destruct (Nat.eq_dec q (npub s)); [left; lia|right; split; [lia|exact B]].
    + split; [intros [A B]; split; [lia|exact B]|]. intros [A B]. split; [|exact B]. destruct (Nat.eq_dec q (npub s)) as [->|]; [|lia].
      assert (M : (npub s - nbuf c) mod nbuf c = npub s mod nbuf c). { rewrite <- (mod_plus (nbuf c) (npub s - nbuf c)) by lia. f_equal. lia. }
      assert (K : fresh s ((npub s - nbuf c) mod nbuf c) = true) by (apply V5; [lia|exact B]). rewrite M in K. congruence.
Qed.
(** Exactly the samples that replaced one that was not read carry the flag (also when the reader is overtaken any number of times). *)
Theorem C27_overlap_flag_partial c sched s : 1 <= nbuf c -> whole sched -> exec (step c) (init c) sched = Some s ->
  forall q, In q (marks s) <-> nbuf c <= q < npub s /\ ~ In (q - nbuf c) (freed s).
Proof.
  intros HN W E. cut (FI c s); [apply F_marks|]. assert (V : FI c (init c)).
  { split; cbn [init pp cur npub fresh data marks freed]; auto; try lia; try (intros q []). - rewrite Nat.mod_0_l by lia. reflexivity. - intro q. cbn [In]. split; [tauto|lia]. }
  revert E V. generalize (init c) as s0. induction W as [|l W IH|l W IH]; intros s0 E V.
  - injection E as <-. exact V.
  - change (Prod :: Prod :: Prod :: l) with ([Prod; Prod; Prod] ++ l) in E. rewrite exec_app in E. destruct (exec (step c) s0 [Prod; Prod; Prod]) as [s1|] eqn:E1; [|discriminate].
    apply (IH s1 E). eapply fi_prod; eauto.
  - cbn [exec] in E. destruct (step c s0 Cons) as [s1|] eqn:E1; [|discriminate]. apply (IH s1 E). eapply fi_cons; eauto.
Qed.

(** ** Offsets *)
Theorem C27_offset (n last samples size : Z) : (0 < n < 2 ^ 31 -> 0 <= last < n -> 1 <= samples <= n -> 0 <= size -> n * size < 2 ^ 32 ->
  in_offset n last samples size = (last + 1 - samples) mod n * size /\ 0 <= in_offset n last samples size /\ in_offset n last samples size + size <= n * size)%Z.
Proof.
  intros H1 H2 H3 H4 H5. rewrite in_offset_spec by assumption. split; [reflexivity|]. pose proof (Z.mod_pos_bound (last + 1 - samples) n). nia.
Qed.
(** More samples than buffers (nothing refuses such a configuration): outside the memory of the signal. *)
Theorem C27_offset_refuted : exists n last samples size, (0 < n /\ 0 <= last < n /\ 0 < samples /\ 0 < size /\ n * size < 2 ^ 32 /\ in_offset n last samples size > n * size)%Z.
Proof. exists 4%Z, 0%Z, 6%Z, 8%Z. repeat split; try lia; try reflexivity. Qed.

(** ** What goes wrong otherwise *)
(** The acquisition thread writes the buffer that the reader is about to copy; the reader marks it as read before the thread looks at the mark:
    sample 0 is lost, sample 2 is given twice, out of order, and no sample carries the flag. *)
Theorem C27_silent_overwrite_refuted : exists sched s, exec (step (Cf 2 1 true)) (init (Cf 2 1 true)) sched = Some s /\ rev (blocks s) = [[2]; [1]; [2]] /\ marks s = [].
Proof.
  exists ([Prod; Prod; Prod] ++ repeat Cons 4 ++ [Prod; Prod; Prod; Prod] ++ repeat Cons 4 ++ [Prod; Prod] ++ repeat Cons 15). eexists.
  split; [vm_compute; reflexivity|]. split; reflexivity.
Qed.
(** Once all buffers are unread the reader is never given anything again, whatever happens. *)
Lemma stuck c s : 1 <= nbuf c -> first c = false -> (forall i, i < nbuf c -> fresh s i = true) -> cp s = Idle ->
  forall sched s', exec (step c) s sched = Some s' -> blocks s' = blocks s.
Proof.
  intros HN HF H0 H1 sched s' E.
  assert (V : (forall i, i < nbuf c -> fresh s' i = true) /\ (cp s' = Idle \/ exists k, cp s' = Scan k) /\ blocks s' = blocks s); [|tauto].
  revert E. apply (exec_inv (step c) (fun x => (forall i, i < nbuf c -> fresh x i = true) /\ (cp x = Idle \/ exists k, cp x = Scan k) /\ blocks x = blocks s)).
  - clear - HN HF. intros x [|] y (A & B & C) E; cbn [step] in E.
    + destruct (pp x); injection E as <-; cbn; auto. split; auto. intros i Hi. destruct (upd_cases (fresh x) (cur x) true i) as [[-> ->]|[N ->]]; auto.
    + destruct B as [B|(k & B)]; rewrite B in E; [rewrite HF in E; injection E as <-; cbn; eauto|].
      destruct (k <? nbuf c); [rewrite A in E by (apply nxt_lt; exact HN)|]; injection E as <-; cbn; eauto.
  - auto.
Qed.
Theorem C27_overtaken_refuted : exists sched s, exec (step (Cf 4 1 false)) (init (Cf 4 1 false)) sched = Some s /\ npub s = 4 /\
  forall sched' s', exec (step (Cf 4 1 false)) s sched' = Some s' -> blocks s' = [].
Proof.
  exists (repeat Prod 12). eexists. split; [vm_compute; reflexivity|]. split; [reflexivity|]. intros sched' s' E. refine (eq_trans (stuck (Cf 4 1 false) _ _ eq_refl _ _ sched' s' E) _); [cbn; lia| |reflexivity|reflexivity].
  intros i Hi. cbn in Hi. destruct i as [|[|[|[|i]]]]; try reflexivity. lia.
Qed.
(** Blocks of 2 samples in 4 buffers, the reader one block late and never overtaken: it is given one block, after which no buffer is marked as
    read, and nothing more. *)
Theorem C27_double_buffer_refuted : exists sched s, exec (step (Cf 4 2 false)) (init (Cf 4 2 false)) sched = Some s /\ marks s = [] /\
  forall sched' s', exec (step (Cf 4 2 false)) s sched' = Some s' -> blocks s' = [[2; 3]].
Proof.
  exists (repeat Prod 6 ++ repeat Cons 5 ++ repeat Prod 6 ++ repeat Cons 7). eexists. split; [vm_compute; reflexivity|]. split; [reflexivity|].
  intros sched' s' E. refine (eq_trans (stuck (Cf 4 2 false) _ _ eq_refl _ _ sched' s' E) _); [cbn; lia| |reflexivity|reflexivity].
  intros i Hi. cbn in Hi. destruct i as [|[|[|[|i]]]]; try reflexivity. lia.
Qed.
(** Blocks of 3 samples in 4 buffers, the reader one block late and never overtaken: it is given samples 3, 0, 1 as if 4 and 5 had arrived. *)
Theorem C27_stale_refuted : exists sched s, exec (step (Cf 4 3 false)) (init (Cf 4 3 false)) sched = Some s /\ blocks s = [[3; 0; 1]] /\ npub s = 4 /\ marks s = [].
Proof. exists (repeat Prod 9 ++ repeat Cons 6 ++ repeat Prod 3 ++ repeat Cons 8). eexists. split; [vm_compute; reflexivity|]. repeat split. Qed.
(** As many samples as buffers: the same block again and again. *)
Theorem C27_same_block_refuted : exists sched s, exec (step (Cf 2 2 true)) (init (Cf 2 2 true)) sched = Some s /\ blocks s = [[0; 1]; [0; 1]] /\ npub s = 2.
Proof. exists (repeat Prod 6 ++ repeat Cons 17). eexists. split; [vm_compute; reflexivity|]. repeat split. Qed.

(** ** Non-trivial cases *)
(** [calm] can be decided along a schedule. *)
Fixpoint calm_from (c : cfg) (s : st) (sched : list act) : bool :=
  match sched with
  | [] => true
  | a :: r =>
    match a with Prod => match pp s with PIdle => negb (fresh s (cur s)) | _ => true end
            | Cons => match cp s with Back k => k - k mod trig c + trig c <? nbuf c | _ => true end end &&
    match step c s a with Some s' => calm_from c s' r | None => true end
  end.
Lemma calm_check c sched : calm_from c (init c) sched = true -> calm c sched.
Proof.
  unfold calm. generalize (init c) as s0. induction sched as [|a r IH]; intros s0 H p b q s E EX.
  - destruct p; discriminate.
  - cbn [calm_from] in H. apply andb_true_iff in H. destruct H as [H1 H2]. destruct p as [|d p].
    + injection E as <- <-. injection EX as <-. split.
      * intros -> P. rewrite P in H1. destruct (fresh s0 (cur s0)); [discriminate|reflexivity].
      * intros k -> P. rewrite P in H1. apply Nat.ltb_lt. exact H1.
    + injection E as <- E. cbn [exec] in EX. destruct (step c s0 a) as [s1|]; [|discriminate]. exact (IH s1 H2 p b q s E EX).
Qed.
(** Three buffers, blocks of two: with GetFirst two blocks, without it the reader is one block late and skips it. *)
Example C27_case : (let c := Cf 3 2 true in let sched := repeat Prod 6 ++ repeat Cons 11 ++ repeat Prod 6 ++ repeat Cons 11 in
    calm c sched /\ exists s, exec (step c) (init c) sched = Some s /\ rev (blocks s) = [[0; 1]; [2; 3]]) /\
  (let c := Cf 6 2 false in let sched := repeat Prod 6 ++ repeat Cons 5 ++ repeat Prod 6 ++ repeat Cons 11 in
    calm c sched /\ exists s, exec (step c) (init c) sched = Some s /\ rev (blocks s) = [[2; 3]] /\ freed s = [3; 2; 1; 0]).
Proof.
  split; (split; [apply calm_check; reflexivity|]); eexists; (split; [vm_compute; reflexivity|]); repeat split.
Qed.
(** The reader sleeps while seven samples are acquired in three buffers. *)
Example C27_flag_case : let sched := repeat Prod 9 ++ repeat Cons 8 ++ repeat Prod 12 in whole sched /\
  exists s, exec (step (Cf 3 1 true)) (init (Cf 3 1 true)) sched = Some s /\ freed s = [0] /\ rev (marks s) = [4; 5; 6].
Proof. split; [repeat constructor|]. eexists. split; [vm_compute; reflexivity|]. split; reflexivity. Qed.

Print Assumptions C27_order_partial.
Print Assumptions C27_gapless_partial.
Print Assumptions C27_progress_partial.
Print Assumptions C27_overlap_flag_partial.
Print Assumptions C27_offset.
Print Assumptions C27_offset_refuted.
Print Assumptions C27_silent_overwrite_refuted.
Print Assumptions C27_overtaken_refuted.
Print Assumptions C27_double_buffer_refuted.
Print Assumptions C27_stale_refuted.
Print Assumptions C27_same_block_refuted.
