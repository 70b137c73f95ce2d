(** Proofs about the fast scheduler: the actions of the threads keep the invariant. *)
From Coq Require Import Lia.
From Verif Require Import Base Conc Fast_Model Fast_Spec Fast_Proofs.
Open Scope nat_scope.

Section Inv.
Variable n : nat.
Variable plan : nat -> list (nat * list exec).
Hypothesis n_pos : 0 < n.
Notation work := (work plan).
Notation tok := (tok n plan).
Notation inv := (inv n plan).
Notation good := (good n plan).

(** What a thread adds to the log. *)
Definition own_event (p : nat) (es : list ev) : Prop :=
  es = [] \/ (exists st, es = [EBegin p st]) \/ (exists e o, es = [ERun p e o]) \/ es = [EEnd p].
Definition adds (s : sys) (es : list ev) : sys :=
  Sys (index s) (booted s) (tab s) (evf s) (cnt s) (cntf s) (unf s) (thr s) (ctl s) (es ++ log s).

Lemma own_facts : forall p es l, own_event p es ->
  prepared (es ++ l) = prepared l /\ in_force (es ++ l) = in_force l /\ prepared_since (es ++ l) = prepared_since l /\
  stopped (es ++ l) = stopped l /\ running (es ++ l) = running l /\ (forall q, q <> p -> current q (es ++ l) = current q l) /\
  (forall q, overdue q l = false -> overdue q (es ++ l) = false).
Proof.
  intros p es l [->|[(st & ->)|[(e & o & ->)| ->]]]; cbn [app prepared in_force prepared_since stopped running current overdue]; repeat split; auto.
  - intros q N. destruct (Nat.eqb_spec p q); [congruence|reflexivity].
  - intros q N. destruct (Nat.eqb_spec p q); [congruence|reflexivity].
  - intros q N. destruct (Nat.eqb_spec p q); [congruence|reflexivity].
  - intros q H. destruct (p =? q); [reflexivity|exact H].
Qed.

Lemma tok_other : forall s p q x es t, own_event p es -> q <> p -> thr s p <> TBc -> tok s q t -> tok (adds (set_thr s p x) es) q t.
Proof.
  intros s p q x es t OE N NB H. destruct (own_facts p es (log s) OE) as (_ & F2 & _ & _ & _ & F6 & _). specialize (F6 q N).
  destruct t; cbn [Fast_Proofs.tok] in *; unfold born in *; cbn [adds set_thr booted ctl log index evf cnt cntf thr] in *; rewrite ?F2, ?F6; auto.
  destruct H as (A & B & C). split; [exact A|]. split; [exact B|]. intros Hc. destruct (C Hc) as (r & Hr & Hb). exists r. split; [exact Hr|].
  rewrite upd_other by congruence. exact Hb.
Qed.

(** A thread goes on without counting itself or posting. *)
Lemma inv_thread : forall s p x es, inv s -> p < n -> thr s p <> TBc -> thr s p <> TPost -> x <> TPost -> own_event p es ->
  (cntf s = false -> counted x = counted (thr s p)) -> tok (adds (set_thr s p x) es) p x -> good (es ++ log s) -> inv (adds (set_thr s p x) es).
Proof.
  intros s p x es I Hp NB NP NX OE EC T G. pose proof (own_facts p es (log s) OE) as (F1 & F2 & F3 & F4 & F5 & F6 & F7).
  constructor; cbn [adds set_thr booted ctl log index evf cnt cntf thr tab]; rewrite ?F1, ?F2, ?F3, ?F4, ?F5; try apply I.
  - intros q Hq. destruct (Nat.eq_dec q p) as [->|N].
    + rewrite upd_same. exact T.
    + rewrite upd_other by exact N. apply tok_other; auto. apply (i_thr _ _ _ I). exact Hq.
  - intros q Hq. rewrite upd_other by lia. apply (i_out _ _ _ I). exact Hq.
  - pose proof (i_tab _ _ _ I) as P. unfold ptab, ready, filled in *. cbn [adds set_thr tab index ctl log] in *. rewrite ?F1, ?F3. exact P.
  - intros Hc. destruct (i_go _ _ _ I Hc) as [A B]. split; [exact A|]. destruct (ctl s); auto.
  - intros Hc. destruct (i_wait _ _ _ I Hc) as (A & B & C). split; [|split].
    + rewrite A. symmetry. pose proof (sum_change (fun q => counted (upd (thr s) p x q)) (fun q => counted (thr s q)) n p Hp) as SC. cbv beta in SC.
      rewrite upd_same in SC. enough (forall q, q <> p -> counted (upd (thr s) p x q) = counted (thr s q)) as Q by (specialize (SC Q); specialize (EC Hc); lia).
      intros q N. rewrite upd_other by exact N. reflexivity.
    + intros E. destruct (B E) as (q & Hq & Q). exists q. split; [exact Hq|]. destruct (Nat.eq_dec q p) as [->|N]; [congruence|]. rewrite upd_other by exact N. exact Q.
    + intros q Hq. destruct (Nat.eq_dec q p) as [->|N].
      * rewrite upd_same. destruct x; auto. congruence.
      * rewrite upd_other by exact N. specialize (C q Hq). destruct (thr s q); auto. intros r Hr Q. destruct (Nat.eq_dec r p) as [->|Nr].
        -- rewrite upd_same in Q. congruence.
        -- rewrite upd_other in Q by exact Nr. apply C; assumption.
  - exact G.
Qed.

Lemma adds_nil : forall s, adds s [] = s.
Proof. intros []; reflexivity. Qed.
Lemma inv_quiet : forall s p x, inv s -> p < n -> thr s p <> TBc -> thr s p <> TPost -> x <> TPost -> (cntf s = false -> counted x = counted (thr s p)) ->
  tok (set_thr s p x) p x -> inv (set_thr s p x).
Proof.
  intros s p x I Hp NB NP NX EC T. rewrite <- (adds_nil (set_thr s p x)). apply inv_thread; auto.
  - left; reflexivity.
  - apply (i_good _ _ _ I).
Qed.

Lemma force_some : forall s p, born s p -> exists st, in_force (log s) = Some st.
Proof. intros s p [_ H]. destruct (in_force (log s)) as [st|]; [exists st; reflexivity|congruence]. Qed.

Lemma step_cnt : forall s p, inv s -> p < n -> thr s p = TCnt ->
  inv (set_cnt (set_thr s p (if S (cnt s) =? n then TPost else TCw)) (if n <? S (cnt s) then n else S (cnt s)) (cntf s)).
Proof.
  intros s p I Hp E. pose proof (i_thr _ _ _ I p Hp) as T. rewrite E in T. destruct T as (TB & TC & TS).
  destruct (cntf s) eqn:Ef.
  - destruct (i_go _ _ _ I Ef) as [Ec _]. rewrite Ec. destruct (Nat.eqb_spec (S n) n); [lia|]. destruct (Nat.ltb_spec n (S n)); [|lia].
    replace (set_cnt (set_thr s p TCw) n true) with (set_thr (set_cnt s n true) p TCw) by reflexivity.
    assert (set_cnt s n true = s) as -> by (transitivity (set_cnt s (cnt s) (cntf s)); [rewrite Ec, Ef; reflexivity|destruct s; reflexivity]).
    apply inv_quiet; auto; try (rewrite E; discriminate); try discriminate.
    + intros C. exfalso. rewrite Ef in C. discriminate.
    + cbn [Fast_Proofs.tok]. unfold born in *. cbn [set_thr booted ctl log]. auto.
  - destruct (i_wait _ _ _ I Ef) as (A & B & C).
    assert (sum (fun q => counted (thr s q)) n < n) as L.
    { destruct (Nat.eq_dec (sum (fun q => counted (thr s q)) n) n) as [Z|Z].
      - pose proof (sum_ones (fun q => counted (thr s q)) n (counted_le (thr s)) Z p Hp) as Q. cbv beta in Q. rewrite E in Q. discriminate.
      - pose proof (sum_bound (fun q => counted (thr s q)) n (counted_le (thr s))). lia. }
    rewrite <- A in L. destruct (Nat.ltb_spec n (S (cnt s))); [lia|].
    assert (forall q, q < n -> thr s q <> TPost) as NP.
    { intros q Hq Q. pose proof (i_thr _ _ _ I q Hq) as T. rewrite Q in T. cbn in T. lia. }
    set (x := if S (cnt s) =? n then TPost else TCw).
    assert (counted x = 1) as Cx by (unfold x; destruct (S (cnt s) =? n); reflexivity).
    constructor; cbn [set_cnt set_thr booted ctl log index evf cnt cntf thr tab]; try apply I.
    + intros q Hq. destruct (Nat.eq_dec q p) as [->|N].
      * rewrite upd_same. unfold x. destruct (Nat.eqb_spec (S (cnt s)) n) as [Z|Z]; cbn [Fast_Proofs.tok]; unfold born in *; cbn [set_cnt set_thr booted ctl log cnt cntf]; auto.
      * rewrite upd_other by exact N. pose proof (i_thr _ _ _ I q Hq) as T.
        destruct (thr s q) eqn:Q; cbn [Fast_Proofs.tok] in *; unfold born in *; cbn [set_cnt set_thr booted ctl log cnt cntf evf thr index] in *; rewrite ?Ef in *; auto.
        -- exfalso. lia.
        -- destruct T as (T1 & T2 & T3). split; [exact T1|]. split; [exact T2|]. discriminate.
    + intros q Hq. rewrite upd_other by lia. apply (i_out _ _ _ I). exact Hq.
    + pose proof (i_un _ _ _ I) as U. destruct (ctl s); auto; exfalso; apply TS; exact Logic.I.
    + discriminate.
    + intros _. split; [|split].
      * pose proof (sum_change (fun q => counted (upd (thr s) p x q)) (fun q => counted (thr s q)) n p Hp) as SC. cbv beta in SC.
        rewrite upd_same, E in SC. cbn [counted] in SC. rewrite Cx in SC.
        enough (forall q, q <> p -> counted (upd (thr s) p x q) = counted (thr s q)) as Q by (specialize (SC Q); lia).
        intros q N. rewrite upd_other by exact N. reflexivity.
      * intros Z. exists p. split; [exact Hp|]. rewrite upd_same. unfold x. rewrite (proj2 (Nat.eqb_eq _ _) Z). reflexivity.
      * intros q Hq. destruct (upd (thr s) p x q) eqn:Q; auto. intros r Hr R.
        assert (q = p) as -> by (destruct (Nat.eq_dec q p); [assumption|rewrite upd_other in Q by assumption; exfalso; exact (NP q Hq Q)]).
        destruct (Nat.eq_dec r p); [assumption|]. rewrite upd_other in R by assumption. exfalso; exact (NP r Hr R).
Qed.

Lemma step_post : forall s p, inv s -> p < n -> thr s p = TPost -> inv (set_cnt (set_thr s p TBc) (cnt s) true).
Proof.
  intros s p I Hp E. pose proof (i_thr _ _ _ I p Hp) as T. rewrite E in T. destruct T as (TB & TC & TS & Tf & Tn).
  destruct (i_wait _ _ _ I Tf) as (A & B & C).
  assert (forall q, q < n -> counted (thr s q) = 1) as AL.
  { apply (sum_ones (fun q => counted (thr s q)) n (counted_le (thr s))). lia. }
  assert (forall q, q < n -> q <> p -> thr s q = TCw \/ thr s q = TCwS) as OT.
  { intros q Hq N. pose proof (AL q Hq) as Q. pose proof (C p Hp) as Cp. rewrite E in Cp. destruct (thr s q) eqn:R; try discriminate; auto.
    exfalso. apply N. apply Cp; assumption. }
  assert (forall q, q < n -> current q (log s) = None) as NC.
  { intros q Hq. destruct (Nat.eq_dec q p) as [->|N]; [exact TC|]. pose proof (i_thr _ _ _ I q Hq) as T. destruct (OT q Hq N) as [R|R]; rewrite R in T; apply T. }
  constructor; cbn [set_cnt set_thr booted ctl log index evf cnt cntf thr tab]; try apply I.
  - intros q Hq. destruct (Nat.eq_dec q p) as [->|N].
    + rewrite upd_same. cbn [Fast_Proofs.tok]. unfold born in *. cbn [set_cnt set_thr booted ctl log cnt cntf]. auto.
    + rewrite upd_other by exact N. pose proof (i_thr _ _ _ I q Hq) as T.
      destruct (OT q Hq N) as [R|R]; rewrite R in *; cbn [Fast_Proofs.tok] in *; unfold born in *; cbn [set_cnt set_thr booted ctl log cnt cntf evf thr index] in *.
      * exact T.
      * destruct T as (T1 & T2 & T3). split; [exact T1|]. split; [exact T2|]. intros _. exists p. split; [exact Hp|]. apply upd_same.
  - intros q Hq. rewrite upd_other by lia. apply (i_out _ _ _ I). exact Hq.
  - pose proof (i_un _ _ _ I) as U. destruct (ctl s); auto; exfalso; apply TS; exact Logic.I.
  - intros _. split; [exact Tn|]. destruct (ctl s); auto; intros q Hq; apply not_overdue; apply NC; exact Hq.
  - discriminate.
Qed.

Lemma step_bc : forall s p, inv s -> p < n -> thr s p = TBc -> inv (set_thr (set_thrs s (fun q => wake_cnt (thr s q))) p TIdx).
Proof.
  intros s p I Hp E. pose proof (i_thr _ _ _ I p Hp) as T. rewrite E in T. destruct T as (TB & TC & TS & Tf).
  constructor; cbn [set_thrs set_thr booted ctl log index evf cnt cntf thr tab]; try apply I.
  - intros q Hq. destruct (Nat.eq_dec q p) as [->|N].
    + rewrite upd_same. cbn [Fast_Proofs.tok]. unfold born in *. cbn [set_thrs set_thr booted ctl log cnt cntf]. auto.
    + rewrite upd_other by exact N. pose proof (i_thr _ _ _ I q Hq) as T.
      destruct (thr s q) eqn:Q; cbn [wake_cnt Fast_Proofs.tok] in *; unfold born in *; cbn [set_thrs set_thr booted ctl log cnt cntf evf thr index] in *; auto.
      destruct T as (T1 & T2 & _). auto.
  - intros q Hq. rewrite upd_other by lia. rewrite (i_out _ _ _ I q Hq). reflexivity.
  - rewrite Tf. discriminate.
Qed.

Lemma in_order_snoc : forall w r e, in_order w r -> nth_error w (length r) = Some e -> in_order w (r ++ [(e, Ran)]).
Proof.
  intros w r e [(rest & E) F] N. assert (length (map fst r) = length r) as L by apply map_length.
  rewrite E in N. rewrite nth_error_app2 in N by lia. rewrite L, Nat.sub_diag in N. destruct rest as [|y rest]; [discriminate|]. injection N as ->. split.
  - exists rest. rewrite map_app. cbn. rewrite <- app_assoc. exact E.
  - apply Forall_app. split; [exact F|]. constructor; [reflexivity|constructor].
Qed.
Lemma failed_snoc : forall w r e, in_order w r -> nth_error w (length r) = Some e -> complete w (r ++ [(e, Failed)]).
Proof.
  intros w r e [(rest & E) F] N. assert (length (map fst r) = length r) as L by apply map_length.
  rewrite E in N. rewrite nth_error_app2 in N by lia. rewrite L, Nat.sub_diag in N. destruct rest as [|y rest]; [discriminate|]. injection N as ->.
  right. exists r, e, rest. split; [reflexivity|]. split; [|exact F]. rewrite map_app. cbn. rewrite <- app_assoc. exact E.
Qed.
Lemma in_order_all : forall w r, in_order w r -> length w <= length r -> complete w r.
Proof.
  intros w r [(rest & E) F] L. left. split; [|exact F]. apply (f_equal (@length _)) in E as E'. rewrite app_length, map_length in E'.
  destruct rest; [rewrite app_nil_r in E; auto|cbn in E'; lia].
Qed.

(** Every action of a thread. *)
Lemma inv_tstep : forall s p o s', inv s -> p < n -> tstep n false plan s p o = Some s' -> inv s'.
Proof.
  intros s p o s' I Hp H. pose proof (i_thr _ _ _ I p Hp) as T. unfold tstep in H.
  destruct (thr s p) eqn:E; try discriminate H.
  - (* TEv *) injection H as <-. destruct T as (TB & TC). destruct (evf s) eqn:Ee.
    + apply inv_quiet; auto; try (rewrite E; discriminate); try discriminate; [rewrite E; reflexivity|].
      cbn [Fast_Proofs.tok]. unfold born in *. cbn [set_thr booted ctl log]. split; [exact TB|]. split; [exact TC|].
      intros Z. pose proof (i_start _ _ _ I Z) as (X & _). congruence.
    + apply inv_quiet; auto; try (rewrite E; discriminate); try discriminate; [rewrite E; reflexivity|].
      cbn [Fast_Proofs.tok]. unfold born in *. cbn [set_thr booted ctl log evf]. auto.
  - (* TCnt *) injection H as <-. apply step_cnt; assumption.
  - (* TPost *) injection H as <-. apply step_post; assumption.
  - (* TBc *) injection H as <-. apply step_bc; assumption.
  - (* TCw *) injection H as <-. destruct T as (TB & TC & TS). destruct (cntf s) eqn:Ef.
    + apply inv_quiet; auto; try (rewrite E; discriminate); try discriminate; [congruence|].
      cbn [Fast_Proofs.tok]. unfold born in *. cbn [set_thr booted ctl log cntf]. auto.
    + apply inv_quiet; auto; try (rewrite E; discriminate); try discriminate; [rewrite E; reflexivity|].
      cbn [Fast_Proofs.tok]. unfold born in *. cbn [set_thr booted ctl log cntf]. split; [exact TB|]. split; [exact TC|]. congruence.
  - (* TIdx *) injection H as <-. destruct T as (TB & TC & TS & Tf).
    apply inv_quiet; auto; try (rewrite E; discriminate); try discriminate; [congruence|].
    cbn [Fast_Proofs.tok]. unfold born in *. cbn [set_thr booted ctl log cntf index]. auto.
  - (* TNum *) destruct T as (TB & TC & TS & Tf & ->). destruct (force_some s p TB) as (st & F).
    pose proof (i_force _ _ _ I st F p Hp) as (N & _). rewrite N in H.
    destruct (length (work st p)) as [|k] eqn:L.
    + injection H as <-. apply inv_quiet; auto; try (rewrite E; discriminate); try discriminate; [congruence|].
      cbn [Fast_Proofs.tok]. unfold born in *. cbn [set_thr booted ctl log cntf index]. split; [exact TB|]. split; [exact TC|]. split; [exact TS|]. split; [exact Tf|].
      intros st' F'. assert (st' = st) as -> by congruence. apply length_zero_iff_nil. exact L.
    + injection H as <-. apply inv_quiet; auto; try (rewrite E; discriminate); try discriminate; [congruence|].
      cbn [Fast_Proofs.tok]. unfold born in *. cbn [set_thr booted ctl log cntf index]. repeat (split; [assumption || reflexivity || lia|]).
      intros st' F'. assert (st' = st) as -> by congruence. congruence.
  - (* TPtr *) destruct T as (TB & TC & TS & Tf & -> & Tk & TL). destruct (force_some s p TB) as (st & F). specialize (TL st F).
    pose proof (i_force _ _ _ I st F p Hp) as (_ & N). rewrite N in H by (intros Z; rewrite Z in TL; cbn in TL; lia). injection H as <-.
    apply (inv_thread s p (TCycle st 0 k) [EBegin p st]); auto; try (rewrite E; discriminate); try discriminate.
    + right; left. exists st. reflexivity.
    + congruence.
    + cbn [Fast_Proofs.tok]. unfold born in *. cbn [adds set_thr booted ctl log app in_force current]. rewrite Nat.eqb_refl. split; [exact TB|].
      exists []. split; [reflexivity|]. split; [reflexivity|]. split; [|exact TL]. split; [exists (work st p); reflexivity|constructor].
    + cbn [app Fast_Proofs.good]. split; [apply (i_good _ _ _ I)|]. split; [exact F|]. split; [exact TC|].
      destruct (i_go _ _ _ I Tf) as [_ O]. destruct (ctl s); try exact O; exfalso; apply TS; exact Logic.I.
  - (* TCycle *) destruct T as (TB & r & TC & TL & TO & ->). destruct (Nat.ltb_spec i (length (work st p))) as [L|L].
    + destruct (nth_error (work st p) i) as [e|] eqn:N; [|apply nth_error_None in N; lia]. injection H as <-.
      assert (good ([ERun p e o] ++ log s)) as G.
      { cbn [app Fast_Proofs.good]. split; [apply (i_good _ _ _ I)|]. exists st, r. split; [exact TC|]. split; [exact TO|]. congruence. }
      assert (own_event p [ERun p e o]) as OE by (right; right; left; exists e, o; reflexivity).
      destruct o.
      * apply (inv_thread s p (TCycle st (S i) (length (work st p))) [ERun p e Ran]); auto; try (rewrite E; discriminate); try discriminate; [rewrite E; reflexivity|].
        cbn [Fast_Proofs.tok]. unfold born in *. cbn [adds set_thr booted ctl log app in_force current]. rewrite Nat.eqb_refl, TC. split; [exact TB|].
        exists (r ++ [(e, Ran)]). split; [reflexivity|]. split; [rewrite app_length; cbn; lia|]. split; [|reflexivity]. apply in_order_snoc; [exact TO|congruence].
      * apply (inv_thread s p TFin [ERun p e Failed]); auto; try (rewrite E; discriminate); try discriminate; [rewrite E; reflexivity|].
        cbn [Fast_Proofs.tok]. unfold born in *. cbn [adds set_thr booted ctl log app in_force current]. rewrite Nat.eqb_refl, TC. split; [exact TB|].
        exists st, (r ++ [(e, Failed)]). split; [reflexivity|]. apply failed_snoc; [exact TO|congruence].
    + injection H as <-. apply inv_quiet; auto; try (rewrite E; discriminate); try discriminate; [rewrite E; reflexivity|].
      cbn [Fast_Proofs.tok]. unfold born in *. cbn [set_thr booted ctl log]. split; [exact TB|]. exists st, r. split; [exact TC|]. apply in_order_all; [exact TO|lia].
  - (* TFin *) destruct T as (TB & st & r & TC & TF). injection H as <-.
    apply (inv_thread s p TEv [EEnd p]); auto; try (rewrite E; discriminate); try discriminate.
    + right; right; right. reflexivity.
    + rewrite E; reflexivity.
    + cbn [Fast_Proofs.tok]. unfold born in *. cbn [adds set_thr booted ctl log app in_force current]. rewrite Nat.eqb_refl. auto.
    + cbn [app Fast_Proofs.good]. split; [apply (i_good _ _ _ I)|]. exists st, r. auto.
  - (* TUn *) injection H as <-. destruct T as (TB & TC & TS & Tf & TW). destruct (unf s).
    + apply inv_quiet; auto; try (rewrite E; discriminate); try discriminate; [rewrite E; reflexivity|].
      cbn [Fast_Proofs.tok]. unfold born in *. cbn [set_thr booted ctl log]. auto.
    + apply inv_quiet; auto; try (rewrite E; discriminate); try discriminate; [rewrite E; reflexivity|].
      cbn [Fast_Proofs.tok]. unfold born in *. cbn [set_thr booted ctl log cntf]. split; [exact TB|]. split; [exact TC|]. split; [congruence|].
      intros _. destruct (ctl s); auto.
Qed.
End Inv.
