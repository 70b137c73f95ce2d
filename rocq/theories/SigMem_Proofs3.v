(** The memory of a function, of a data source, and the broker between them. *)
From Coq Require Import ZArith List Bool String Lia.
From Verif Require Import Base MultiBuf_Model Broker_Model Broker_Props SigMem_Model SigMem_Spec SigMem_Proofs SigMem_Proofs2.
Import ListNotations.
Open Scope string_scope. Open Scope Z_scope. Open Scope list_scope.

Lemma stated_stated1 a f : stated a f <-> stated1 (a_default a) (a_ds a) f.
Proof. unfold stated, stated1, source_of. reflexivity. Qed.

(** * Agreement *)

Lemma made_agrees a v dss f t r :
  map_opt verify_ds dss = Some v -> Forall nds dss -> sane_signal f ->
  made (a_default a) f t r -> agree1 dss r -> agrees a v f r.
Proof.
  intros V N (_ & SS & _) (M1 & M2 & M3 & M4 & M5 & M6 & M7) (D & d & F & A & T & TE & NE & EE).
  fold (source_of a f) in M1. unfold agrees. split; [exact M1|]. split; [exact M2|]. split; [exact M3|]. split.
  { rewrite M3 in *. destruct (q_samples f) as [n|]; [|lia]. pose proof (SS n eq_refl) as (P & _). lia. }
  rewrite M1, M2 in *.
  destruct (signal_of_final v dss D _ _ d V F A) as (s & S1 & (VT & VE & _)). rewrite S1.
  pose proof (signal_of_Forall good _ _ _ _ (verified_good _ _ V N) S1) as ((G & _) & _).
  destruct (p_elems (r_props r)) as [e|] eqn:PE; [|congruence]. rewrite (VE e EE). split; [congruence|].
  split; [reflexivity|]. rewrite (VE e EE) in G. split; [exact G|].
  destruct M7 as (X1 & _ & X3). split.
  - intros t' Q. apply X1 in Q. congruence.
  - intros e' Q. apply X3 in Q. rewrite (VE e EE). congruence.
Qed.

Lemma build_spec a v gs :
  sane a -> all_stated a -> build a = Some (v, gs) ->
  Forall (fun x => Forall good (snd x)) v /\
  Forall2 (fun g rg =>
    (made_all (a_default a) (g_in g) 0 (rg_in rg) (rg_in_bytes rg) /\ Forall2 (agrees a v) (g_in g) (rg_in rg)) /\
    (made_all (a_default a) (g_out g) 0 (rg_out rg) (rg_out_bytes rg) /\ Forall2 (agrees a v) (g_out g) (rg_out rg)))
    (a_gams a) gs /\
  (forall D k p, In D (a_ds a) -> find_ds (d_name D) (a_ds a) = Some D -> assoc k (d_signals D) = Some p ->
     match signal_of v (d_name D) k with Some s => respects p s | None => False end).
Proof.
  intros (SD & SG) ST B. unfold build in B.
  destruct (resolve (a_default a) (a_ds a) (a_gams a)) as [[dss rgs]|] eqn:R; [|discriminate].
  destruct (map_opt verify_ds dss) as [v'|] eqn:V; [|discriminate]. injection B as -> ->.
  pose proof (resolve_numbers _ _ _ _ _ R SG SD) as N.
  assert (ST' : Forall (fun g => Forall (stated1 (a_default a) (a_ds a)) (g_in g) /\
                                 Forall (stated1 (a_default a) (a_ds a)) (g_out g)) (a_gams a)) by exact ST.
  destruct (resolve_spec _ _ _ _ _ R ST') as (G & F2).
  split; [exact (verified_good _ _ V N)|]. split.
  - assert (AG : forall fs t rs tot, Forall sane_signal fs -> made_all (a_default a) fs t rs tot ->
              Forall (agree1 dss) rs -> Forall2 (agrees a v) fs rs).
    { induction fs as [|f fs IH]; intros t rs tot SF MA AA; destruct rs as [|r rs]; cbn in MA;
        try contradiction; [constructor|].
      destruct MA as (M & MA). inversion SF; subst. inversion AA; subst. constructor; [|eauto].
      eapply made_agrees; eassumption. }
    clear ST ST' R. revert SG. induction F2 as [|g rg gl rl H F IH]; intro SG; [constructor|].
    inversion SG as [|? ? (S1 & S2) S3]; subst. destruct H as ((A1 & A2) & (B1 & B2)).
    constructor; [|apply IH; exact S3].
    split; (split; [assumption|eapply AG; eassumption]).
  - intros D k p _ FD A. destruct (G _ _ FD) as (D' & F' & GN & GR). destruct (GR _ _ A) as (p' & A' & X1 & _ & X3).
    destruct (signal_of_final v dss D' _ _ p' V F' A') as (s & S1 & (VT & VE & _)).
    rewrite S1. split.
    + intros t T. apply X1 in T. congruence.
    + intros e E. apply VE, X3, E.
Qed.

(** * The memory of a function *)

Lemma made_nonneg a v f t r :
  sane_signal f -> made (a_default a) f t r -> agrees a v f r -> 0 <= size_in_gam v a f.
Proof.
  intros (_ & SS & SR) M (A1 & A2 & A3 & A4 & A5). unfold size_in_gam.
  destruct (signal_of v (source_of a f) (q_key f)) as [s|]; [|contradiction].
  rewrite <- A3. destruct A5 as (T & E & P & _).
  destruct M as (_ & _ & _ & _ & _ & M6 & _).
  assert (0 <= wanted_elems f s) as W.
  { unfold wanted_elems. unfold memory_size in M6. rewrite T, E in M6.
    destruct (type_bits (v_type s)) as [b|]; [|discriminate].
    destruct (q_ranges f) as [rs|]; [|lia]. destruct SR as (NE & FU). destruct rs as [|r0 rs]; [congruence|].
    exact (cnt_nonneg _ _ (range_legal _ _ _ _ _ _ M6 FU)). }
  pose proof (elem_size_pos (v_type s)). nia.
Qed.

Definition exact_for (a : app) (v : list (string * list vsignal)) (f : fsignal) (r : rsignal) : Prop :=
  match signal_of v (source_of a f) (q_key f) with
  | Some s => exact f s r /\ v_bytes s = size_in_ds s
  | None => False
  end.

Lemma made_layout a v :
  Forall (fun x => Forall good (snd x)) v -> small_signals v ->
  forall fs t rs total,
  Forall sane_signal fs -> made_all (a_default a) fs t rs total -> Forall2 (agrees a v) fs rs ->
  0 <= t -> t + sum (map (size_in_gam v a) fs) < 2 ^ 32 ->
  Forall (fun z => 0 <= z) (map (size_in_gam v a) fs) /\
  total = t + sum (map (size_in_gam v a) fs) /\
  map r_gam rs = blocks t (map (size_in_gam v a) fs) /\
  gam_pointers rs t = blocks t (map (size_in_gam v a) fs) /\
  Forall2 (exact_for a v) fs rs.
Proof.
  intros GV SM. induction fs as [|f fs IH]; intros t rs total SF MA F2 T0 TL.
  - destruct rs; [|contradiction]. cbn in *. subst. split; [constructor|]. split; [lia|]. split; [reflexivity|].
    split; [reflexivity|constructor].
  - destruct rs as [|r rs]; [contradiction|]. destruct MA as (M & MA).
    inversion SF as [|? ? S1 S2]; subst. inversion F2 as [|? ? ? ? A1 A2]; subst.
    assert (NN : forall fs rs t, Forall sane_signal fs -> made_all (a_default a) fs t rs total ->
              Forall2 (agrees a v) fs rs -> 0 <= sum (map (size_in_gam v a) fs)).
    { clear. induction fs as [|f fs IH]; intros rs t SF MA F2; [cbn; lia|].
      destruct rs as [|r rs]; [contradiction|]. destruct MA as (M & MA).
      inversion SF as [|? ? S1 S2]; subst. inversion F2 as [|? ? ? ? A1 A2]; subst.
      pose proof (made_nonneg a v f t r S1 M A1). pose proof (IH _ _ S2 MA A2).
      cbn [map sum fold_right]. fold (sum (map (size_in_gam v a) fs)). lia. }
    pose proof (NN _ _ _ S2 MA A2) as N2. pose proof (made_nonneg a v f t r S1 M A1) as N1.
    cbn [map sum fold_right] in TL |- *. fold (sum (map (size_in_gam v a) fs)) in TL |- *.
    assert (EX : exact_for a v f r /\ r_bytes r * r_samples r = size_in_gam v a f).
    { unfold exact_for, size_in_gam in *. destruct A1 as (_ & _ & B3 & B4 & B5).
      destruct (signal_of v (source_of a f) (q_key f)) as [s|] eqn:SO; [|contradiction].
      destruct B5 as (T & E & P & _).
      pose proof (signal_of_Forall good _ _ _ _ GV SO) as G.
      assert (L : 8 * size_in_ds s < 2 ^ 32) by exact (signal_of_Forall _ _ _ _ _ SM SO).
      destruct M as (_ & _ & M3 & _ & _ & M6 & _).
      rewrite <- M3 in N1, TL.
      assert (X : exact f s r).
      { apply made_exact; try assumption. nia. }
      split; [split; [exact X|apply good_bytes; assumption]|]. destruct X as (X & _). rewrite X, M3. reflexivity. }
    destruct EX as (EX & SZ). rewrite SZ in MA.
    rewrite (w32_id (size_in_gam v a f)) in MA by lia.
    rewrite (w32_id (t + size_in_gam v a f)) in MA by lia.
    destruct (IH _ _ _ S2 MA A2 ltac:(lia) ltac:(lia)) as (I1 & I2 & I3 & I4 & I5).
    split; [constructor; assumption|]. split; [lia|].
    split; [cbn [map blocks]; rewrite I3; destruct M as (_ & _ & _ & _ & -> & _); reflexivity|].
    split; [|constructor; assumption].
    cbn [gam_pointers blocks]. rewrite SZ, (w32_id (size_in_gam v a f)), (w32_id (t + size_in_gam v a f)) by lia.
    rewrite I4. reflexivity.
Qed.

(** * The memory of a data source *)

Lemma mem_offsets_exact nbuf : 0 <= nbuf -> forall sizes off e l,
  mem_offsets nbuf sizes off = Some (e, l) -> Forall (fun z => 0 <= z) sizes -> 0 <= off ->
  off + nbuf * sum sizes < 2 ^ 32 ->
  e = off + nbuf * sum sizes /\ l = blocks off (map (fun z => nbuf * z) sizes) /\ Forall (fun z => 0 < z) sizes.
Proof.
  intro NB. induction sizes as [|s sizes IH]; intros off e l; cbn [mem_offsets].
  - intros E _ _ _. injection E as <- <-. cbn. split; [lia|]. split; [reflexivity|constructor].
  - destruct (s =? 0) eqn:S0; [discriminate|].
    destruct (mem_offsets nbuf sizes _) as [[e0 l0]|] eqn:M; [|discriminate].
    intros E F O L. injection E as <- <-. inversion F as [|? ? P F']; subst.
    pose proof (sum_nonneg _ F'). cbn [sum fold_right] in L |- *. fold (sum sizes) in L |- *.
    rewrite (w32_id (s * nbuf)) in M by nia. rewrite (w32_id (off + s * nbuf)) in M by nia.
    destruct (IH _ _ _ M F') as (A & B & C); [nia|nia|].
    apply Z.eqb_neq in S0. split; [nia|]. split; [|constructor; [lia|exact C]].
    cbn [map blocks]. rewrite B. do 3 f_equal. lia.
Qed.

Lemma sum_scale n l : sum (map (fun z => n * z) l) = n * sum l.
Proof. induction l as [|z l IH]; cbn [map sum fold_right]; [lia|]. fold (sum l) in *. fold (sum (map (fun z => n * z) l)). rewrite IH. lia. Qed.

Lemma scale_nonneg n l : 0 <= n -> Forall (fun z => 0 <= z) l -> Forall (fun z => 0 <= z) (map (fun z => n * z) l).
Proof. intros N F. apply Forall_map. eapply Forall_impl; [|exact F]. intros z H. cbn in H. nia. Qed.

(** The place of a signal in a state buffer. *)
Lemma mem_place nbuf nstates vs m i b s :
  0 <= nbuf -> 0 <= b < nstates -> Forall (fun s => 0 <= v_bytes s) vs ->
  nbuf * sum (map v_bytes vs) * nstates < 2 ^ 32 ->
  mem_allocate nbuf nstates vs = Some m -> nth_error vs i = Some s ->
  exists o, nth_error (blocks 0 (map (fun z => nbuf * z) (map v_bytes vs))) i = Some o /\
    nth_error (m_offsets m) i = Some o /\
    mem_address nstates m i b = Some (b * (nbuf * sum (map v_bytes vs)) + o) /\
    m_state m = nbuf * sum (map v_bytes vs) /\
    m_size m = nstates * (nbuf * sum (map v_bytes vs)) /\
    0 <= o /\ o + nbuf * v_bytes s <= nbuf * sum (map v_bytes vs) /\ 0 < v_bytes s.
Proof.
  intros NB B F L A N. unfold mem_allocate in A.
  destruct (mem_offsets nbuf (map v_bytes vs) 0) as [[e l]|] eqn:M; [|discriminate].
  destruct (nstates =? 0); [discriminate|]. injection A as <-.
  assert (F' : Forall (fun z => 0 <= z) (map v_bytes vs)) by (apply Forall_map; exact F).
  pose proof (sum_nonneg _ F') as SN.
  destruct (mem_offsets_exact nbuf NB _ _ _ _ M F') as (E1 & E2 & E3); [lia|nia|].
  rewrite Z.add_0_l in E1. cbn [m_state m_size m_offsets].
  assert (exists o, nth_error l i = Some o) as (o & O).
  { destruct (nth_error l i) eqn:Q; [eauto|]. apply nth_error_None in Q.
    rewrite E2, blocks_length, !map_length in Q. assert (nth_error vs i <> None) as X by congruence.
    apply nth_error_Some in X. lia. }
  exists o. rewrite <- E2. split; [exact O|]. split; [exact O|].
  assert (Z1 : nth_error (map (fun z => nbuf * z) (map v_bytes vs)) i = Some (nbuf * v_bytes s)).
  { rewrite map_map. apply (map_nth_error (fun x => nbuf * v_bytes x)). exact N. }
  destruct (blocks_in _ 0 i o _ (scale_nonneg _ _ NB F') ltac:(rewrite <- E2; exact O) Z1) as (P1 & P2).
  rewrite sum_scale in P2.
  assert (VP : 0 < v_bytes s).
  { rewrite Forall_forall in E3. apply E3. apply in_map. eapply nth_error_In. exact N. }
  split.
  { unfold mem_address. cbn [m_offsets m_state]. destruct (b <? nstates) eqn:BB; [|lia]. rewrite O, E1.
    rewrite w32_id by nia. f_equal. lia. }
  split; [exact E1|]. split; [rewrite E1, w32_id by nia; lia|]. split; [exact P1|]. split; [lia|exact VP].
Qed.

(** * The broker *)

Lemma find_index k : forall vs s,
  List.find (fun s => String.eqb (v_name s) k) vs = Some s ->
  exists i, index_of k vs = Some i /\ nth_error vs i = Some s.
Proof.
  induction vs as [|x vs IH]; cbn; [discriminate|]. intros s.
  destruct (String.eqb (v_name x) k).
  - intro E. injection E as <-. exists 0%nat. auto.
  - intro E. destruct (IH _ E) as (i & A & B). exists (S i). rewrite A. auto.
Qed.

(** One record of the broker per signal of the function in the data source. *)
Definition fsig_for (v : list (string * list vsignal)) (vs : list vsignal) (r : rsignal) (x : fsig) : Prop :=
  exists s, nth_error vs (f_sig x) = Some s /\ f_bytes x = v_bytes s /\ f_gam x = r_gam r /\
    Z.of_nat (f_samples x) = r_samples r /\ f_ranges x = r_offsets r /\
    signal_of v (r_ds r) (r_key r) = Some s /\ index_of (r_key r) vs = Some (f_sig x).

Lemma broker_signals_spec a v name vs :
  assoc name v = Some vs ->
  forall fs rs, Forall2 (agrees a v) fs rs ->
  exists sigs, broker_signals name vs rs = Some sigs /\
    (forall x, In x sigs -> exists r, In r rs /\ r_ds r = name /\ fsig_for v vs r x) /\
    (forall r, In r rs -> r_ds r = name -> exists x, In x sigs /\ fsig_for v vs r x).
Proof.
  intro AV. induction 1 as [|f r fs rs A F IH].
  - exists []. split; [reflexivity|]. split; [contradiction|]. contradiction.
  - destruct IH as (sigs & B & C & C'). cbn [broker_signals].
    destruct A as (A1 & A2 & A3 & A4 & A5).
    destruct (String.eqb (r_ds r) name) eqn:N.
    + apply String.eqb_eq in N.
      destruct (signal_of v (source_of a f) (q_key f)) as [s|] eqn:SO; [|contradiction].
      rewrite <- A1, <- A2 in SO.
      pose proof SO as SO'. unfold signal_of in SO'. rewrite N, AV in SO'.
      destruct (find_index _ _ _ SO') as (i & I1 & I2). rewrite I1, I2, B.
      eexists. split; [reflexivity|].
      assert (FF : fsig_for v vs r (FSig (r_gam r) (v_bytes s) (Z.to_nat (r_samples r)) (r_offsets r) i)).
      { exists s. cbn. repeat (split; [assumption || reflexivity|]). split; [|split; [reflexivity|split; [exact SO|exact I1]]].
        apply Z2Nat.id. lia. }
      split.
      * intros x [<-|H]; [exists r; split; [left; reflexivity|auto]|].
        destruct (C _ H) as (r' & H1 & H2). exists r'. split; [right; exact H1|exact H2].
      * intros r' [<-|H] HN; [eexists; split; [left; reflexivity|exact FF]|].
        destruct (C' _ H HN) as (x & H1 & H2). exists x. split; [right; exact H1|exact H2].
    + exists sigs. split; [exact B|]. split.
      * intros x H. destruct (C _ H) as (r' & H1 & H2). exists r'. split; [right; exact H1|exact H2].
      * intros r' [<-|H] HN; [apply String.eqb_neq in N; contradiction|]. exact (C' _ H HN).
Qed.

Lemma byte_of_bound bytes n : forall rs i,
  0 < n -> Forall (fun x => 0 <= fst x /\ 0 < snd x /\ fst x + snd x <= bytes) rs ->
  0 <= i < fold_right (fun r a => n * snd r + a) 0 rs ->
  0 <= byte_of rs n bytes i < n * bytes.
Proof.
  induction rs as [|[st sz] rs IH]; intros i N F H; cbn [fold_right] in H; [lia|].
  inversion F as [|? ? (P1 & P2 & P3) F']; subst. cbn [fst snd] in *. cbn [byte_of].
  destruct (i <? n * sz) eqn:C.
  - apply Z.ltb_lt in C. pose proof (Z.div_mod i sz ltac:(lia)). pose proof (Z.mod_pos_bound i sz P2).
    assert (0 <= i / sz) by (apply Z.div_pos; lia).
    assert (i / sz < n) by (apply Z.div_lt_upper_bound; lia).
    split; nia.
  - apply Z.ltb_ge in C. apply IH; [exact N|exact F'|]. lia.
Qed.

Lemma total_sum x : total x = Z.of_nat (f_samples x) * fold_right (fun r n => snd r + n) 0 (f_ranges x).
Proof.
  unfold total. induction (f_ranges x) as [|r l IH]; cbn [fold_right]; [lia|]. rewrite IH. lia.
Qed.

Lemma Forall2_nth {A B} (R : A -> B -> Prop) l l' : Forall2 R l l' ->
  forall i x y, nth_error l i = Some x -> nth_error l' i = Some y -> R x y.
Proof.
  induction 1; intros i x0 y0; destruct i; cbn; try discriminate.
  - intros A1 A2. injection A1 as <-. injection A2 as <-. assumption.
  - apply IHForall2.
Qed.
Lemma Forall2_nth_l {A B} (R : A -> B -> Prop) l l' : Forall2 R l l' ->
  forall i y, nth_error l' i = Some y -> exists x, nth_error l i = Some x.
Proof.
  induction 1; intros i y0; destruct i; cbn; try discriminate; eauto.
Qed.

(** The records of the broker ask for bytes that exist, each byte of the
    function once. *)
Section Broker.
  Variables (a : app) (v : list (string * list vsignal)) (fs : list fsignal) (rs : list rsignal) (total : Z).
  Hypothesis AG : Forall2 (agrees a v) fs rs.
  Hypothesis NN : Forall (fun z => 0 <= z) (map (size_in_gam v a) fs).
  Hypothesis TT : total = sum (map (size_in_gam v a) fs).
  Hypothesis GG : map r_gam rs = blocks 0 (map (size_in_gam v a) fs).
  Hypothesis EX : Forall2 (exact_for a v) fs rs.
  Variables (name : string) (vs : list vsignal) (nbuf nstates b : Z) (m : dmem).
  Hypothesis AV : assoc name v = Some vs.
  Hypothesis MA : mem_allocate nbuf nstates vs = Some m.
  Hypothesis NB : 0 <= nbuf.
  Hypothesis BB : 0 <= b < nstates.
  Hypothesis VP : Forall (fun s => 0 <= v_bytes s) vs.
  Hypothesis ML : nbuf * sum (map v_bytes vs) * nstates < 2 ^ 32.
  Hypothesis SL : forall f, In f fs -> source_of a f = name ->
    match q_samples f with Some n => n | None => 1 end <= nbuf.

  Definition place (i : nat) : Z := nth i (m_offsets m) 0.
  Definition shift : Z := b * m_state m.

  (** All that is known of one record. *)
  Lemma record_facts i f r x :
    nth_error fs i = Some f -> nth_error rs i = Some r -> r_ds r = name -> fsig_for v vs r x ->
    exists s, signal_of v (source_of a f) (q_key f) = Some s /\
      f_gam x = r_gam r /\ Broker_Props.total x = size_in_gam v a f /\
      0 <= r_gam r /\ r_gam r + size_in_gam v a f <= total /\
      configured x /\ f_ranges x = byte_ranges f s /\ f_bytes x = size_in_ds s /\
      Z.of_nat (f_samples x) = match q_samples f with Some n => n | None => 1 end /\
      mem_address nstates m (f_sig x) b = Some (place (f_sig x) + shift) /\
      (forall j, 0 <= j < Broker_Props.total x ->
         0 <= place (f_sig x) + shift + byte_of (f_ranges x) (Z.of_nat (f_samples x)) (f_bytes x) j < m_size m).
  Proof.
    intros Fi Ri RN (s & X1 & X2 & X3 & X4 & X5 & X6 & X7).
    pose proof (Forall2_nth _ _ _ AG i f r Fi Ri) as (A1 & A2 & A3 & A4 & A5).
    pose proof (Forall2_nth _ _ _ EX i f r Fi Ri) as E.
    unfold exact_for in E. rewrite <- A1, <- A2, X6 in E. destruct E as ((E1 & E2 & E3 & E4 & E5 & E6 & E7) & EB).
    exists s. rewrite <- A1, <- A2. split; [exact X6|].
    assert (SZ : size_in_gam v a f = r_samples r * r_bytes r).
    { unfold size_in_gam. rewrite <- A1, <- A2, X6, E1, <- A3. lia. }
    assert (TX : Broker_Props.total x = size_in_gam v a f) by (rewrite total_sum, X4, X5, E5; lia).
    assert (G1 : nth_error (blocks 0 (map (size_in_gam v a) fs)) i = Some (r_gam r))
      by (rewrite <- GG; apply map_nth_error; exact Ri).
    destruct (blocks_in _ 0 i _ _ NN G1 (map_nth_error _ _ _ Fi)) as (P1 & P2).
    destruct (mem_place nbuf nstates vs m _ b s NB BB VP ML MA X1) as (o & O1 & O2 & O3 & O4 & O5 & O6 & O7 & O8).
    assert (ES : 0 < elem_size (v_type s)).
    { rewrite EB in O8. unfold size_in_ds in O8. pose proof (elem_size_pos (v_type s)).
      destruct (Z.eq_dec (elem_size (v_type s)) 0) as [Z0|]; [rewrite Z0 in O8; lia|lia]. }
    assert (PL : place (f_sig x) = o) by (unfold place; apply nth_error_nth; exact O2).
    split; [exact X3|]. split; [exact TX|]. split; [lia|]. split; [lia|].
    split.
    { unfold configured. rewrite X5. split; [lia|]. split; [exact E6|]. exact (E7 ES). }
    split; [congruence|]. split; [congruence|]. split; [congruence|].
    unfold shift. rewrite PL, O4. split; [rewrite O3; f_equal; lia|].
    intros j J. rewrite X5, X4, X2, EB.
    assert (BD : 0 <= byte_of (r_offsets r) (r_samples r) (size_in_ds s) j < r_samples r * size_in_ds s).
    { apply byte_of_bound; [exact A4| |].
      - specialize (E7 ES). clear - E4 E7. induction E4 as [|y l H F IH]; [constructor|].
        inversion E7; subst. constructor; [lia|auto].
      - unfold Broker_Props.total in J. rewrite X4, X5 in J. exact J. }
    assert (SB : r_samples r <= nbuf).
    { rewrite A3. apply SL; [eapply nth_error_In; exact Fi|congruence]. }
    rewrite O5, <- EB in *. split; nia.
  Qed.

  Lemma broker_facts : exists sigs, broker_signals name vs rs = Some sigs /\
    Forall configured sigs /\
    one_source (fun i => place i + shift) sigs /\
    (forall ds gam, msize ds = m_size m -> msize gam = total -> within (fun i => place i + shift) sigs ds gam) /\
    (forall i f r j, nth_error fs i = Some f -> nth_error rs i = Some r -> source_of a f = name ->
       0 <= j < size_in_gam v a f ->
       match signal_of v name (q_key f), index_of (q_key f) vs with
       | Some s, Some k =>
           match mem_address nstates m k b with
           | Some adr => wanted (fun i => place i + shift) sigs (r_gam r + j)
                           (adr + byte_of (byte_ranges f s) (match q_samples f with Some n => n | None => 1 end) (size_in_ds s) j)
           | None => False
           end
       | _, _ => False
       end).
  Proof.
    destruct (broker_signals_spec a v name vs AV fs rs AG) as (sigs & B & C & C'). exists sigs. split; [exact B|].
    assert (K : forall x, In x sigs -> exists i f r, nth_error fs i = Some f /\ nth_error rs i = Some r /\
              r_ds r = name /\ fsig_for v vs r x).
    { intros x H. destruct (C x H) as (r & R1 & R2 & R3). apply In_nth_error in R1. destruct R1 as (i & R1).
      destruct (Forall2_nth_l _ _ _ AG i r R1) as (f & F1). exists i, f, r. auto. }
    split.
    { apply Forall_forall. intros x H. destruct (K x H) as (i & f & r & F1 & R1 & RN & FF).
      destruct (record_facts i f r x F1 R1 RN FF) as (s & _ & _ & _ & _ & _ & Q & _). exact Q. }
    split.
    { intros x y y' (q & j & Q1 & Q2 & Q3 & Q4) (q' & j' & Q1' & Q2' & Q3' & Q4').
      destruct (K q Q1) as (i & f & r & F1 & R1 & RN & FF). destruct (K q' Q1') as (i' & f' & r' & F1' & R1' & RN' & FF').
      destruct (record_facts i f r q F1 R1 RN FF) as (s & _ & G1 & T1 & _).
      destruct (record_facts i' f' r' q' F1' R1' RN' FF') as (s' & _ & G1' & T1' & _).
      assert (Z1 : nth_error (blocks 0 (map (size_in_gam v a) fs)) i = Some (r_gam r))
        by (rewrite <- GG; apply map_nth_error; exact R1).
      assert (Z1' : nth_error (blocks 0 (map (size_in_gam v a) fs)) i' = Some (r_gam r'))
        by (rewrite <- GG; apply map_nth_error; exact R1').
      destruct (Nat.lt_total i i') as [LT|[EQ|LT]].
      - pose proof (blocks_apart _ 0 i i' _ _ _ NN LT Z1 (map_nth_error _ _ _ F1) Z1'). lia.
      - subst i'. rewrite F1 in F1'. injection F1' as <-. rewrite R1 in R1'. injection R1' as <-.
        destruct FF as (z & U1 & U2 & U3 & U4 & U5 & U6 & U7). destruct FF' as (z' & U1' & U2' & U3' & U4' & U5' & U6' & U7').
        assert (f_sig q = f_sig q') as ES by congruence.
        assert (j = j') as EJ by lia. rewrite Q4, Q4', ES, U5, U5', U4, U4', EJ.
        do 2 f_equal. congruence.
      - pose proof (blocks_apart _ 0 i' i _ _ _ NN LT Z1' (map_nth_error _ _ _ F1') Z1). lia. }
    split.
    { intros ds gam MD MG x y (q & j & Q1 & Q2 & Q3 & Q4). destruct (K q Q1) as (i & f & r & F1 & R1 & RN & FF).
      destruct (record_facts i f r q F1 R1 RN FF) as (s & _ & G1 & T1 & P1 & P2 & _ & _ & _ & _ & _ & MB).
      rewrite MG, MD. split; [lia|]. rewrite Q4. apply MB. exact Q2. }
    intros i f r j F1 R1 SN J.
    pose proof (Forall2_nth _ _ _ AG i f r F1 R1) as (A1 & A2 & _).
    destruct (C' r (nth_error_In _ _ R1) ltac:(congruence)) as (x & X & FF).
    destruct (record_facts i f r x F1 R1 ltac:(congruence) FF) as (s & S1 & G1 & T1 & P1 & P2 & _ & U1 & U2 & U3 & MM & MB).
    destruct FF as (z & _ & _ & _ & _ & _ & _ & U7).
    rewrite <- SN, S1, <- A2, U7, MM.
    exists x, j. split; [exact X|]. split; [lia|]. split; [lia|].
    rewrite U1, U2, U3. reflexivity.
  Qed.
End Broker.
