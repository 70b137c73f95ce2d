(** C20: a resource of a pool created free has at most one owner, none is lost; and what goes wrong otherwise. *)
From Verif Require Import Base BitsBase Conc Pool_Model Pool_Proofs.

Section Props.
Variables (n h : Z) (threads : nat).
Hypothesis (N : 1 <= n <= 2^31) (H : height n h).
Notation step := (step n false threads).
Notation inv := (inv n h threads).

Lemma no_stuck s t : inv s -> pcs s t <> Idle -> exists s', step s (AStep t) = Some s'.
Proof.
  intros I NI. pose proof H as (H0 & H1 & H2). pose proof (i_pc _ _ _ _ I t) as OK. cbn [Pool_Model.step].
  assert (IN : forall i, 0 <= i < n -> inside n i = true) by (intros; apply inside_iff; auto).
  destruct (pcs s t) as [ | |bit pos path ret|bit pos path ret tot|pos temp bit|pos temp bit|r|i|temp bit|temp bit| ] eqn:EP; try contradiction; cbn [pc_ok] in OK.
  - rewrite IN by lia. eexists; reflexivity.
  - destruct (bit <=? tree_half n) eqn:EB; [apply Z.leb_le in EB|eexists; reflexivity]. destruct (bit =? 0) eqn:E0.
    + rewrite IN by (apply OK). destruct (sem s pos =? 0); eexists; reflexivity.
    + apply Z.eqb_neq in E0. destruct (negb (Z.land ret bit =? 0)) eqn:ER; [eexists; reflexivity|]. destruct (negb (Z.land path bit =? 0)) eqn:EL.
      * rewrite IN by (apply OK). eexists; reflexivity.
      * destruct (search_right n h N H _ _ _ _ OK E0 EB ER EL) as (A & B & C & D). rewrite A. destruct (pos + bit <? n) eqn:EN; [|eexists; reflexivity].
        apply Z.ltb_lt in EN. rewrite IN. { destruct (size s (pos + bit) >? 0); eexists; reflexivity. }
        destruct OK as (P & _ & [[X _]|(j & m & e & J & X & _)]); [contradiction|]. subst bit. assert (0 < 2^j) by lia. lia.
  - destruct OK as (OK & -> & j & J & ->). pose proof (pow_half j ltac:(lia)) as PH. destruct OK as (P & _). rewrite uwrap_id by lia.
    destruct (pos + 2^j <? n) eqn:EN; [|eexists; reflexivity]. apply Z.ltb_lt in EN. rewrite IN by lia. eexists; reflexivity.
  - destruct OK as (OK & j & m & J & _ & _ & P). rewrite IN by lia. eexists; reflexivity.
  - eexists; reflexivity.
  - eexists; reflexivity.
  - rewrite IN by lia. eexists; reflexivity.
  - destruct OK as (j & m & J & _ & _ & P). rewrite IN by lia. eexists; reflexivity.
  - eexists; reflexivity.
  - eexists; reflexivity.
Qed.

(** * One thread running alone *)
Definition runs (t : nat) (s s' : sys) : Prop := exists k, exec step s (repeat (AStep t) k) = Some s'.
Lemma runs_refl t s : runs t s s. Proof. exists O. reflexivity. Qed.
Lemma runs_step t s s1 s2 : step s (AStep t) = Some s1 -> runs t s1 s2 -> runs t s s2.
Proof. intros ES (k & K). exists (S k). cbn [repeat exec]. rewrite ES. exact K. Qed.
Lemma upd_twice {A} (f : nat -> A) t x y u : upd (upd f t x) t y u = upd f t y u.
Proof. unfold upd. destruct (Nat.eqb u t); reflexivity. Qed.

(** What a thread alone leaves behind. *)
Definition ends (t : nat) (s : sys) (e : ev) (s' : sys) : Prop :=
  log s' = (t, e) :: log s /\ pcs s' t = Idle /\ (forall u, u <> t -> pcs s' u = pcs s u).

Lemma dec_run : forall d s t pos temp j, inv s -> 0 <= j -> Z.to_nat (h - j) = d -> pcs s t = TDecLoop pos temp (2^j) ->
  exists s', runs t s s' /\ ends t s (ERetTake (Some pos)) s'.
Proof.
  pose proof H as (H0 & H1 & H2). induction d as [|d IH]; intros s t pos temp j I J D EP; pose proof (i_pc _ _ _ _ I t) as OK; rewrite EP in OK; destruct OK as (OK & W).
  - destruct W as (j' & m & J' & BJ & _). assert (j' = j) by (apply (Z.pow_inj_r 2); lia). subst j'. assert (j = h) by lia. subst j.
    eexists. split.
    + eapply runs_step; [cbn [Pool_Model.step]; rewrite EP; rewrite (le_half n h) by (auto; lia); rewrite Z.ltb_irrefl; reflexivity|].
      eapply runs_step; [cbn [Pool_Model.step pcs]; rewrite upd_same; reflexivity|]. apply runs_refl.
    + split; [reflexivity|]. cbn [pcs]. split; [rewrite upd_same; reflexivity|]. intros u U. rewrite upd_twice, upd_other by auto. reflexivity.
  - assert (JH : j < h) by lia.
    assert (E1 : step s (AStep t) = Some (Sys (sem s) (size s) (upd (pcs s) t (if negb (Z.land temp (2^j) =? 0) then TDec pos (temp - 2^j) (2^(j+1)) else TDecLoop pos temp (2^(j+1)))) (log s))).
    { cbn [Pool_Model.step]. rewrite EP. rewrite (le_half n h) by (auto; lia). rewrite (proj2 (Z.ltb_lt j h) JH). rewrite pow_succ_shift by lia. reflexivity. }
    pose proof (inv_step n h threads N H _ _ _ I E1) as I1. destruct (negb (Z.land temp (2^j) =? 0)) eqn:EL.
    + destruct (no_stuck _ t I1) as (s2 & E2); [cbn [pcs]; rewrite upd_same; discriminate|]. pose proof (inv_step n h threads N H _ _ _ I1 E2) as I2.
      pose proof E2 as E2'. cbn [Pool_Model.step pcs] in E2'. rewrite upd_same in E2'. destruct (inside n (temp - 2^j)); [|discriminate]. injection E2' as <-.
      destruct (IH _ t pos (temp - 2^j) (j+1) I2 ltac:(lia) ltac:(lia)) as (s3 & R & L & X & Y); [cbn [pcs]; rewrite upd_same; reflexivity|].
      exists s3. split; [eapply runs_step; [exact E1|]; eapply runs_step; [exact E2|exact R]|]. split; [exact L|]. split; [exact X|].
      intros u U. rewrite Y by auto. cbn [pcs]. rewrite !upd_other by auto. reflexivity.
    + destruct (IH _ t pos temp (j+1) I1 ltac:(lia) ltac:(lia)) as (s3 & R & L & X & Y); [cbn [pcs]; rewrite upd_same; reflexivity|].
      exists s3. split; [eapply runs_step; [exact E1|exact R]|]. split; [exact L|]. split; [exact X|].
      intros u U. rewrite Y by auto. cbn [pcs]. rewrite !upd_other by auto. reflexivity.
Qed.
Lemma inc_run : forall d s t temp j, inv s -> 0 <= j -> Z.to_nat (h - j) = d -> pcs s t = RLoop temp (2^j) ->
  exists s', runs t s s' /\ ends t s ERetReturn s'.
Proof.
  pose proof H as (H0 & H1 & H2). induction d as [|d IH]; intros s t temp j I J D EP; pose proof (i_pc _ _ _ _ I t) as W; rewrite EP in W; cbn [pc_ok] in W.
  - destruct W as (j' & m & J' & BJ & _). assert (j' = j) by (apply (Z.pow_inj_r 2); lia). subst j'. assert (j = h) by lia. subst j.
    eexists. split.
    + eapply runs_step; [cbn [Pool_Model.step]; rewrite EP; rewrite (le_half n h) by (auto; lia); rewrite Z.ltb_irrefl; reflexivity|].
      eapply runs_step; [cbn [Pool_Model.step pcs]; rewrite upd_same; reflexivity|]. apply runs_refl.
    + split; [reflexivity|]. cbn [pcs]. split; [rewrite upd_same; reflexivity|]. intros u U. rewrite upd_twice, upd_other by auto. reflexivity.
  - assert (JH : j < h) by lia.
    assert (E1 : step s (AStep t) = Some (Sys (sem s) (size s) (upd (pcs s) t (if negb (Z.land temp (2^j) =? 0) then RInc (temp - 2^j) (2^(j+1)) else RLoop temp (2^(j+1)))) (log s))).
    { cbn [Pool_Model.step]. rewrite EP. rewrite (le_half n h) by (auto; lia). rewrite (proj2 (Z.ltb_lt j h) JH). rewrite pow_succ_shift by lia. reflexivity. }
    pose proof (inv_step n h threads N H _ _ _ I E1) as I1. destruct (negb (Z.land temp (2^j) =? 0)) eqn:EL.
    + destruct (no_stuck _ t I1) as (s2 & E2); [cbn [pcs]; rewrite upd_same; discriminate|]. pose proof (inv_step n h threads N H _ _ _ I1 E2) as I2.
      pose proof E2 as E2'. cbn [Pool_Model.step pcs] in E2'. rewrite upd_same in E2'. destruct (inside n (temp - 2^j)); [|discriminate]. injection E2' as <-.
      destruct (IH _ t (temp - 2^j) (j+1) I2 ltac:(lia) ltac:(lia)) as (s3 & R & L & X & Y); [cbn [pcs]; rewrite upd_same; reflexivity|].
      exists s3. split; [eapply runs_step; [exact E1|]; eapply runs_step; [exact E2|exact R]|]. split; [exact L|]. split; [exact X|].
      intros u U. rewrite Y by auto. cbn [pcs]. rewrite !upd_other by auto. reflexivity.
    + destruct (IH _ t temp (j+1) I1 ltac:(lia) ltac:(lia)) as (s3 & R & L & X & Y); [cbn [pcs]; rewrite upd_same; reflexivity|].
      exists s3. split; [eapply runs_step; [exact E1|exact R]|]. split; [exact L|]. split; [exact X|].
      intros u U. rewrite Y by auto. cbn [pcs]. rewrite !upd_other by auto. reflexivity.
Qed.

Definition alone (s : sys) (t : nat) : Prop := forall u, u <> t -> pcs s u = Idle.
Lemma exact_size s t q : inv s -> alone s t -> pend h (pcs s t) q = 0 -> size s q = count n (fun i => (sem s i =? 0) && anc h q i).
Proof.
  intros I A P. rewrite (i_size _ _ _ _ I). rewrite sumn_zero; [lia|]. intros u U. destruct (Nat.eq_dec u t) as [->|NE]; [exact P|]. rewrite A by auto. reflexivity.
Qed.

(** Between TAS and return. *)
Lemma tas_run s t pos path ret : inv s -> pcs s t = THead 0 pos path ret -> sem s pos = 0 -> exists s', runs t s s' /\ ends t s (ERetTake (Some pos)) s'.
Proof.
  intros I EP S0. pose proof H as (H0 & H1 & H2). pose proof (i_pc _ _ _ _ I t) as OK. rewrite EP in OK. destruct OK as (P & _).
  assert (E1 : step s (AStep t) = Some (Sys (put (sem s) pos 1) (size s) (upd (pcs s) t (TDec pos pos 1)) (log s))).
  { cbn [Pool_Model.step]. rewrite EP. rewrite (proj2 (Z.leb_le 0 (tree_half n)) (half_nonneg n h H)). rewrite Z.eqb_refl. rewrite (proj2 (inside_iff n pos) P), S0. reflexivity. }
  pose proof (inv_step n h threads N H _ _ _ I E1) as I1.
  destruct (no_stuck _ t I1) as (s2 & E2); [cbn [pcs]; rewrite upd_same; discriminate|]. pose proof (inv_step n h threads N H _ _ _ I1 E2) as I2.
  pose proof E2 as E2'. cbn [Pool_Model.step pcs] in E2'. rewrite upd_same in E2'. destruct (inside n pos); [|discriminate]. injection E2' as <-.
  destruct (dec_run _ _ t pos pos 0 I2 ltac:(lia) eq_refl) as (s3 & R & L & X & Y); [cbn [pcs]; rewrite upd_same; reflexivity|].
  exists s3. split; [eapply runs_step; [exact E1|]; eapply runs_step; [exact E2|exact R]|]. split; [exact L|]. split; [exact X|].
  intros u U. rewrite Y by auto. cbn [pcs]. rewrite !upd_other by auto. reflexivity.
Qed.

(** The search finds the highest free resource of its window. *)
Lemma search_run : forall d s t j m ret, inv s -> alone s t -> Z.of_nat d = j -> j <= h ->
  pcs s t = THead (Z.shiftr (2^j) 1) (2^j * m) (2^j * m) ret -> (forall k, k < j -> Z.testbit ret k = false) ->
  (exists i, 0 <= i < n /\ sem s i = 0 /\ 2^j * m <= i < 2^j * m + 2^j) ->
  exists i s', runs t s s' /\ ends t s (ERetTake (Some i)) s' /\ 0 <= i < n /\ sem s i = 0 /\ 2^j * m <= i < 2^j * m + 2^j /\
    (forall x, i < x < 2^j * m + 2^j -> x < n -> sem s x <> 0).
Proof.
  pose proof H as (H0 & H1 & H2). induction d as [|d IH]; intros s t j m ret I A D J EP RET (i & IN & S0 & W).
  - cbn in D. subst j. change (2^0) with 1 in *. change (Z.shiftr 1 1) with 0 in EP. assert (i = 1 * m) by lia. subst i.
    destruct (tas_run s t _ _ _ I EP S0) as (s' & R & E). exists (1*m), s'. split; [exact R|]. split; [exact E|]. split; [exact IN|]. split; [exact S0|]. split; [lia|]. intros; lia.
  - set (k := Z.of_nat d) in *. assert (JK : j = k + 1) by lia. assert (K : 0 <= k) by lia. clear D. subst j.
    pose proof (i_pc _ _ _ _ I t) as OK. rewrite EP in OK. cbn [pc_ok] in OK. rewrite pow_shiftr in EP, OK by lia.
    set (pos := 2^(k+1) * m) in *. assert (PK : pos = 2^k * (2*m)) by (unfold pos; rewrite Z.pow_add_r by lia; ring).
    assert (PR : pos + 2^k = 2^k * (2*m+1)) by (rewrite PK; ring). assert (P2 : 2^(k+1) = 2^k + 2^k) by (rewrite Z.pow_add_r by lia; change (2^1) with 2; lia).
    assert (PP : 0 < 2^k) by lia. assert (B0 : 2^k <> 0) by lia. assert (BH : 2^k <= tree_half n) by (apply Z.leb_le; rewrite (le_half n h) by auto; apply Z.ltb_lt; lia).
    assert (ER : negb (Z.land ret (2^k) =? 0) = false) by (rewrite land_pow2 by lia; rewrite RET by lia; reflexivity).
    assert (TB : Z.testbit pos k = false) by (replace pos with (2^(k+1)*m + 0*2^k) by (unfold pos; ring); rewrite bit_of_sum by lia; reflexivity).
    assert (EL : negb (Z.land pos (2^k) =? 0) = false) by (rewrite land_pow2 by lia; rewrite TB; reflexivity).
    destruct (search_right n h N H _ _ _ _ OK B0 BH ER EL) as (UW & LB & _ & _).
    pose proof OK as (PIN & _).
    assert (SZ : forall q, size s q = count n (fun i => (sem s i =? 0) && anc h q i)) by (intros q; apply (exact_size s t); auto; rewrite EP; reflexivity).
    assert (RIGHT : 0 < size s (pos + 2^k) <-> exists i, 0 <= i < n /\ sem s i = 0 /\ pos + 2^k <= i < pos + 2^(k+1)).
    { rewrite SZ, count_pos. split; intros (x & X & Y).
      - apply andb_true_iff in Y. destruct Y as [Y1 Y2]. apply Z.eqb_eq in Y1. rewrite (anc_range h (pos + 2^k) x k m) in Y2 by (try lia; reflexivity).
        apply andb_true_iff in Y2. rewrite Z.leb_le, Z.ltb_lt in Y2. exists x. repeat split; lia.
      - destruct Y as [Y1 Y2]. exists x. split; [exact X|]. rewrite Y1. rewrite (anc_range h (pos + 2^k) x k m) by (try lia; reflexivity).
        cbn [Z.eqb andb]. apply andb_true_iff. rewrite Z.leb_le, Z.ltb_lt. lia. }
    destruct ((pos + 2^k <? n) && (size s (pos + 2^k) >? 0)) eqn:ECASE.
    + (* right *)
      apply andb_true_iff in ECASE. destruct ECASE as [EN ES]. pose proof EN as EN'. apply Z.ltb_lt in EN'. pose proof ES as ES'. rewrite Z.gtb_lt in ES'.
      assert (E1 : step s (AStep t) = Some (Sys (sem s) (size s) (upd (pcs s) t (THead (Z.shiftr (2^k) 1) (2^k*(2*m+1)) (2^k*(2*m+1)) ret)) (log s))).
      { cbn [Pool_Model.step]. rewrite EP. rewrite (proj2 (Z.leb_le _ _) BH). rewrite (proj2 (Z.eqb_neq _ _) B0). rewrite ER, EL, UW, LB, EN. rewrite (proj2 (inside_iff n (pos + 2^k))) by lia. rewrite ES. rewrite <- PR. reflexivity. }
      pose proof (inv_step n h threads N H _ _ _ I E1) as I1.
      destruct (IH _ t k (2*m+1) ret I1) as (x & s' & R & (L & X & Y) & XI & XS & XW & XM).
      * intros u U. cbn [pcs]. rewrite upd_other by auto. apply A. exact U.
      * reflexivity.
      * lia.
      * cbn [pcs]. rewrite upd_same. reflexivity.
      * intros; apply RET; lia.
      * cbn [sem]. apply RIGHT in ES'. destruct ES' as (x & X1 & X2 & X3). exists x. split; [exact X1|]. split; [exact X2|]. lia.
      * cbn [sem] in XS, XM. exists x, s'. split; [eapply runs_step; [exact E1|exact R]|]. split.
        { split; [exact L|]. split; [exact X|]. intros u U. rewrite Y by auto. cbn [pcs]. rewrite upd_other by auto. reflexivity. }
        split; [exact XI|]. split; [exact XS|]. split; [lia|]. intros y Y1 Y2. apply XM; lia.
    + (* left: nothing free on the right *)
      assert (NR : forall x, 0 <= x < n -> pos + 2^k <= x < pos + 2^(k+1) -> sem s x <> 0).
      { intros x X1 X2 X3. apply andb_false_iff in ECASE. destruct ECASE as [EC|EC]; [apply Z.ltb_ge in EC; lia|].
        assert (G : 0 < size s (pos + 2^k)) by (apply RIGHT; exists x; auto). rewrite Z.gtb_ltb in EC. apply Z.ltb_ge in EC. lia. }
      assert (IL : pos <= i < pos + 2^k). { split; [lia|]. destruct (Z_lt_ge_dec i (pos + 2^k)); auto. exfalso. apply (NR i IN); auto. lia. }
      assert (E1 : step s (AStep t) = Some (Sys (sem s) (size s) (upd (pcs s) t (THead (2^k) pos (pos + 2^k) ret)) (log s))).
      { cbn [Pool_Model.step]. rewrite EP. rewrite (proj2 (Z.leb_le _ _) BH). rewrite (proj2 (Z.eqb_neq _ _) B0). rewrite ER, EL, UW, LB.
        destruct (pos + 2^k <? n) eqn:EN; [|reflexivity]. apply Z.ltb_lt in EN. rewrite (proj2 (inside_iff n (pos + 2^k))) by lia. cbn [andb] in ECASE. rewrite ECASE. reflexivity. }
      pose proof (inv_step n h threads N H _ _ _ I E1) as I1.
      pose proof (i_pc _ _ _ _ I1 t) as OK1. cbn [pcs] in OK1. rewrite upd_same in OK1. cbn [pc_ok] in OK1.
      assert (EL1 : negb (Z.land (pos + 2^k) (2^k) =? 0) = true) by (rewrite land_pow2 by lia; rewrite <- (lor_pow2 pos k K TB), Z.lor_spec, Z.pow2_bits_true by lia; rewrite orb_true_r; reflexivity).
      destruct (search_left n h N H _ _ _ _ OK1 B0 BH ER EL1) as (LD & _).
      assert (E2 : step (Sys (sem s) (size s) (upd (pcs s) t (THead (2^k) pos (pos + 2^k) ret)) (log s)) (AStep t) =
                   Some (Sys (sem s) (size s) (upd (upd (pcs s) t (THead (2^k) pos (pos + 2^k) ret)) t (TTot (2^k) pos pos (Z.lor ret (2^k)) (size s pos))) (log s))).
      { cbn [Pool_Model.step pcs sem size log]. rewrite upd_same. rewrite (proj2 (Z.leb_le _ _) BH). rewrite (proj2 (Z.eqb_neq _ _) B0). rewrite ER, EL1, LD.
        rewrite (proj2 (inside_iff n pos)) by auto. reflexivity. }
      pose proof (inv_step n h threads N H _ _ _ I1 E2) as I2.
      assert (TOT : 0 < size s pos).
      { rewrite SZ, count_pos. exists i. split; [exact IN|]. rewrite S0. cbn [Z.eqb andb]. apply anc_iff; [lia|]. exists k. split; [lia|]. rewrite PK. symmetry. apply clr_range; lia. }
      set (s2 := Sys (sem s) (size s) (upd (upd (pcs s) t (THead (2^k) pos (pos + 2^k) ret)) t (TTot (2^k) pos pos (Z.lor ret (2^k)) (size s pos))) (log s)) in *.
      assert (E3 : step s2 (AStep t) = Some (Sys (sem s) (size s) (upd (pcs s2) t (THead (Z.shiftr (2^k) 1) (2^k*(2*m)) (2^k*(2*m)) (Z.lor ret (2^k)))) (log s))).
      { unfold s2 at 1. cbn [Pool_Model.step pcs sem size log]. rewrite upd_same, UW. rewrite <- PK. destruct (pos + 2^k <? n) eqn:EN.
        - apply Z.ltb_lt in EN. rewrite (proj2 (inside_iff n (pos + 2^k))) by lia. cbn [andb] in ECASE. rewrite Z.gtb_ltb in ECASE. apply Z.ltb_ge in ECASE.
          assert (SN : 0 <= size s (pos + 2^k)) by (rewrite SZ; apply count_nonneg). rewrite (proj2 (Z.gtb_lt _ _)) by lia. reflexivity.
        - rewrite (proj2 (Z.gtb_lt _ _)) by lia. reflexivity. }
      pose proof (inv_step n h threads N H _ _ _ I2 E3) as I3.
      destruct (IH _ t k (2*m) (Z.lor ret (2^k)) I3) as (x & s' & R & (L & X & Y) & XI & XS & XW & XM).
      * intros u U. unfold s2. cbn [pcs]. rewrite !upd_other by auto. apply A. exact U.
      * reflexivity.
      * lia.
      * cbn [pcs]. rewrite upd_same. reflexivity.
      * intros y Y. destruct (Z_lt_ge_dec y 0); [apply Z.testbit_neg_r; lia|]. rewrite Z.lor_spec, RET, Z.pow2_bits_false by lia. reflexivity.
      * cbn [sem]. exists i. split; [exact IN|]. split; [exact S0|]. lia.
      * cbn [sem] in XS, XM. exists x, s'. split; [eapply runs_step; [exact E1|]; eapply runs_step; [exact E2|]; eapply runs_step; [exact E3|exact R]|]. split.
        { split; [exact L|]. split; [exact X|]. intros u U. rewrite Y by auto. unfold s2. cbn [pcs]. rewrite !upd_other by auto. reflexivity. }
        split; [exact XI|]. split; [exact XS|]. split; [lia|]. intros y Y1 Y2. destruct (Z_lt_ge_dec y (pos + 2^k)); [apply XM; lia|apply NR; lia].
Qed.
End Props.

Definition quiet (s : sys) : Prop := forall t, pcs s t = Idle.

(** Under every schedule of any number of threads, Take only hands out a resource of the pool that nobody has. *)
Theorem C20_one_owner n threads sched a s s' t i : 1 <= n <= 2^31 -> exec (step n false threads) (init n false) sched = Some s ->
  step n false threads s a = Some s' -> log s' = (t, ERetTake (Some i)) :: log s -> 0 <= i < n /\ out false (log s) i = false.
Proof.
  intros N E S L. destruct (height_ex n N) as (h & H). pose proof (inv_exec n h threads N H _ _ E) as I.
  assert (R : pcs s t = TRet (Some i)).
  { assert (NC : forall x, x :: log s <> log s). { intros x Z. apply (f_equal (@length _)) in Z. cbn in Z. lia. }
    destruct a as [v e|v]; cbn [step] in S; try (destruct (Nat.ltb v threads); [|discriminate]); destruct (pcs s v) as [ | |bit pos path ret|bit pos path ret tot|pos temp bit|pos temp bit|r|i'|temp bit|temp bit| ] eqn:EP;
      try discriminate; try (destruct e; try discriminate);
      repeat match type of S with (if ?b then _ else _) = _ => destruct b; [|try discriminate] | (if ?b then _ else _) = _ => destruct b end;
      try discriminate; injection S as <-; cbn [log] in L; try discriminate; try (symmetry in L; exfalso; exact (NC _ L)); injection L as -> ->; exact EP. }
  pose proof (i_pc _ _ _ _ I t) as OK. rewrite R in OK. split; [exact OK|]. apply (i_not_out _ _ _ _ I i t). rewrite R. reflexivity.
Qed.
(** No access leaves the arrays: a thread inside an operation can always go on. *)
Theorem C20_no_wild_access n threads sched s t : 1 <= n <= 2^31 -> exec (step n false threads) (init n false) sched = Some s ->
  pcs s t <> Idle -> exists s', step n false threads s (AStep t) = Some s'.
Proof. intros N E P. destruct (height_ex n N) as (h & H). apply (no_stuck n h threads N H); auto. apply (inv_exec n h threads N H _ _ E). Qed.
Lemma quiet_free n h threads s i : inv n h threads s -> quiet s -> (sem s i =? 0) = negb (out false (log s) i).
Proof.
  intros I Q. destruct (out false (log s) i) eqn:O; cbn [negb].
  - apply Z.eqb_neq. intros Z. destruct (i_free _ _ _ _ I i Z) as [X _]. congruence.
  - apply Z.eqb_eq. destruct (i_sem _ _ _ _ I i) as [Z|Z]; auto. destruct (i_busy _ _ _ _ I i Z) as [X|[t X]]; [congruence|]. rewrite Q in X. contradiction.
Qed.
(** No resource is lost: whenever no operation is in progress, GetSize is the number of resources that are not out. *)
Theorem C20_size_counts_free n threads sched s : 1 <= n <= 2^31 -> exec (step n false threads) (init n false) sched = Some s -> quiet s ->
  size s 0 = count n (fun i => negb (out false (log s) i)).
Proof.
  intros N E Q. destruct (height_ex n N) as (h & H). pose proof (inv_exec n h threads N H _ _ E) as I. pose proof H as (H0 & H1 & H2).
  rewrite (exact_size n h threads s 0 0 I) by (try (intros u _; apply Q); rewrite Q; reflexivity).
  apply count_ext. intros i X. rewrite (quiet_free n h threads) by auto. rewrite anc_zero by lia. apply andb_true_r.
Qed.
(** A Take that meets no other operation gives the highest resource that is not out, and fails only if all are out. *)
Theorem C20_take_alone n threads sched s t : 1 <= n <= 2^31 -> exec (step n false threads) (init n false) sched = Some s -> quiet s -> (t < threads)%nat ->
  exists k s' r, exec (step n false threads) s (ACall t ECallTake :: repeat (AStep t) k) = Some s' /\
    log s' = (t, ERetTake r) :: (t, ECallTake) :: log s /\ quiet s' /\
    match r with
    | Some i => 0 <= i < n /\ out false (log s) i = false /\ forall j, i < j < n -> out false (log s) j = true
    | None => forall i, 0 <= i < n -> out false (log s) i = true
    end.
Proof.
  intros N E Q T. destruct (height_ex n N) as (h & H). pose proof (inv_exec n h threads N H _ _ E) as I. pose proof H as (H0 & H1 & H2).
  set (s1 := Sys (sem s) (size s) (upd (pcs s) t TSize) ((t, ECallTake) :: log s)).
  assert (E1 : step n false threads s (ACall t ECallTake) = Some s1) by (cbn [step]; rewrite (proj2 (Nat.ltb_lt _ _) T), Q; reflexivity).
  pose proof (inv_step n h threads N H _ _ _ I E1) as I1.
  assert (FREE : forall i, sem s i = 0 <-> out false (log s) i = false).
  { intros i. rewrite <- Z.eqb_eq, (quiet_free n h threads) by auto. rewrite negb_true_iff. reflexivity. }
  assert (SZ : size s 0 = count n (fun i => sem s i =? 0)).
  { rewrite (exact_size n h threads s t 0 I) by (try (intros u _; apply Q); rewrite Q; reflexivity). apply count_ext. intros i X. rewrite anc_zero by lia. apply andb_true_r. }
  destruct (size s 0 =? 0) eqn:E0.
  - apply Z.eqb_eq in E0. set (s2 := Sys (sem s) (size s) (upd (pcs s1) t (TRet None)) (log s1)).
    assert (E2 : step n false threads s1 (AStep t) = Some s2). { unfold s2, s1. cbn [step pcs size sem log]. rewrite upd_same. rewrite (proj2 (inside_iff n 0)) by lia. rewrite E0. reflexivity. }
    exists 2%nat. eexists. exists None. split; [|split; [|split]].
    + cbn [repeat exec]. rewrite E1, E2. cbn [step]. unfold s2 at 1. cbn [pcs]. rewrite upd_same. reflexivity.
    + reflexivity.
    + intros u. cbn [pcs]. unfold s2. cbn [pcs]. destruct (upd_cases (upd (pcs s1) t (TRet None)) t Idle u) as [[-> ->]|[NE ->]]; [reflexivity|]. rewrite upd_other by auto. unfold s1. cbn [pcs]. rewrite upd_other by auto. apply Q.
    + intros i X. destruct (out false (log s) i) eqn:O; auto. exfalso. apply FREE in O. assert (0 < size s 0); [|lia]. rewrite SZ. apply count_pos. exists i. split; [exact X|]. rewrite O. reflexivity.
  - apply Z.eqb_neq in E0. set (s2 := Sys (sem s) (size s) (upd (pcs s1) t (THead (tree_half n) 0 0 0)) (log s1)).
    assert (E2 : step n false threads s1 (AStep t) = Some s2). { unfold s2, s1. cbn [step pcs size sem log]. rewrite upd_same. rewrite (proj2 (inside_iff n 0)) by lia. rewrite (proj2 (Z.eqb_neq _ _) E0). reflexivity. }
    pose proof (inv_step n h threads N H _ _ _ I1 E2) as I2.
    destruct (search_run n h threads N H (Z.to_nat h) s2 t h 0 0 I2) as (i & s' & (k & R) & (L & X & Y) & XI & XS & XW & XM).
    + intros u U. unfold s2, s1. cbn [pcs]. rewrite !upd_other by auto. apply Q.
    + lia.
    + lia.
    + unfold s2. cbn [pcs]. rewrite upd_same. rewrite Z.mul_0_r. f_equal. rewrite H2. destruct (h =? 0) eqn:EH; [apply Z.eqb_eq in EH; rewrite EH; reflexivity|].
      apply Z.eqb_neq in EH. replace h with (h - 1 + 1) at 2 by lia. rewrite pow_shiftr by lia. reflexivity.
    + intros; apply Z.testbit_0_l.
    + assert (C : 0 < size s 0) by (pose proof (count_nonneg n (fun i => sem s i =? 0)); lia). rewrite SZ in C. apply count_pos in C. destruct C as (i & C1 & C2). apply Z.eqb_eq in C2.
      exists i. unfold s2. cbn [sem]. split; [exact C1|]. split; [exact C2|]. lia.
    + exists (S k), s', (Some i). split; [|split; [|split]].
      * cbn [repeat exec]. rewrite E1, E2. exact R.
      * exact L.
      * intros u. destruct (Nat.eq_dec u t) as [->|U]; [exact X|]. rewrite Y by auto. unfold s2, s1. cbn [pcs]. rewrite !upd_other by auto. apply Q.
      * unfold s2 in XS, XM. cbn [sem] in XS, XM. split; [exact XI|]. split; [apply FREE; exact XS|]. intros j J. specialize (XM j ltac:(lia) ltac:(lia)).
        destruct (out false (log s) j) eqn:O; auto. apply FREE in O. contradiction.
Qed.
(** A Return that meets no other operation ends, and then the resource is not out. *)
Theorem C20_return_alone n threads sched s t i : 1 <= n <= 2^31 -> exec (step n false threads) (init n false) sched = Some s -> quiet s -> (t < threads)%nat ->
  0 <= i < n -> out false (log s) i = true ->
  exists k s', exec (step n false threads) s (ACall t (ECallReturn i) :: repeat (AStep t) k) = Some s' /\
    log s' = (t, ERetReturn) :: (t, ECallReturn i) :: log s /\ quiet s'.
Proof.
  intros N E Q T IN O. destruct (height_ex n N) as (h & H). pose proof (inv_exec n h threads N H _ _ E) as I. pose proof H as (H0 & H1 & H2).
  set (s1 := Sys (sem s) (size s) (upd (pcs s) t (RStore i)) ((t, ECallReturn i) :: log s)).
  assert (E1 : step n false threads s (ACall t (ECallReturn i)) = Some s1) by (cbn [step]; rewrite (proj2 (Nat.ltb_lt _ _) T), Q, O, (proj2 (inside_iff n i) IN); reflexivity).
  pose proof (inv_step n h threads N H _ _ _ I E1) as I1.
  set (s2 := Sys (put (sem s) i 0) (size s) (upd (pcs s1) t (RInc i 1)) (log s1)).
  assert (E2 : step n false threads s1 (AStep t) = Some s2) by (cbn [step]; unfold s1 at 1; cbn [pcs]; rewrite upd_same, (proj2 (inside_iff n i) IN); reflexivity).
  pose proof (inv_step n h threads N H _ _ _ I1 E2) as I2.
  set (s3 := Sys (sem s2) (put (size s) i (size s i + 1)) (upd (pcs s2) t (RLoop i 1)) (log s1)).
  assert (E3 : step n false threads s2 (AStep t) = Some s3) by (cbn [step]; unfold s2 at 1; cbn [pcs]; rewrite upd_same, (proj2 (inside_iff n i) IN); reflexivity).
  pose proof (inv_step n h threads N H _ _ _ I2 E3) as I3.
  destruct (inc_run n h threads N H _ s3 t i 0 I3 ltac:(lia) eq_refl) as (s' & (k & R) & L & X & Y); [unfold s3; cbn [pcs]; rewrite upd_same; reflexivity|].
  exists (S (S k)), s'. split; [|split].
  - cbn [repeat exec]. rewrite E1, E2, E3. exact R.
  - exact L.
  - intros u. destruct (Nat.eq_dec u t) as [->|U]; [exact X|]. rewrite Y by auto. unfold s3, s2, s1. cbn [pcs]. rewrite !upd_other by auto. apply Q.
Qed.

(** * What does not hold *)
(** The return of i that came last has itself returned. *)
Fixpoint given_back (l : list (nat * ev)) (done : list nat) (i : Z) : bool :=
  match l with
  | [] => true
  | (t, ERetReturn) :: r => given_back r (t :: done) i
  | (t, ECallReturn j) :: r => if j =? i then existsb (Nat.eqb t) done else given_back r (filter (fun u => negb (Nat.eqb u t)) done) i
  | _ :: r => given_back r done i
  end.
Definition available (s : sys) (i : Z) : bool := (sem s i =? 0) && given_back (log s) [] i.
Definition take t := ACall t ECallTake.
Definition give t i := ACall t (ECallReturn i).
Definition steps t k := repeat (AStep t) k.
Definition lose_sched : list action :=
  take 0%nat :: steps 0%nat 8 ++ take 1%nat :: steps 1%nat 2 ++ take 2%nat :: steps 2%nat 2 ++ give 3%nat 1 :: steps 3%nat 6 ++ steps 2%nat 7 ++ steps 1%nat 5.
(** Take can fail although at every moment one of the resources is available (pool of two resources, four threads). *)
Theorem C20_take_fails_only_when_empty_refuted :
  exists sched s, exec (step 2 false 4) (init 2 false) sched = Some s /\ In (1%nat, ERetTake None) (log s) /\
    forall k s_k, exec (step 2 false 4) (init 2 false) (firstn k sched) = Some s_k -> available s_k 0 = true \/ available s_k 1 = true.
Proof.
  exists lose_sched. eexists. split; [vm_compute; reflexivity|]. split; [vm_compute; auto|].
  assert (A : forallb (fun k => match exec (step 2 false 4) (init 2 false) (firstn k lose_sched) with Some s => available s 0 || available s 1 | None => true end) (seq 0 (S (length lose_sched))) = true) by (vm_compute; reflexivity).
  rewrite forallb_forall in A. intros k s_k E. apply orb_true_iff. destruct (Nat.le_gt_cases k (length lose_sched)) as [K|K].
  - specialize (A k (proj2 (in_seq (S (length lose_sched)) 0 k) ltac:(lia))). rewrite E in A. exact A.
  - specialize (A (length lose_sched) (proj2 (in_seq (S (length lose_sched)) 0 (length lose_sched)) ltac:(lia))). rewrite firstn_all in A. rewrite firstn_all2 in E by lia. rewrite E in A. exact A.
Qed.
(** In a pool created taken (the log entries of the Logger), a single thread that takes can be handed a resource that was never given:
    thread 1 gives 2, 3 and 7 while thread 0 searches, and thread 0 gets 0. *)
Theorem C20_created_taken_refuted :
  exists sched s, exec (step 8 true 2) (init 8 true) sched = Some s /\
    log s = [(0%nat, ERetTake (Some 0)); (1%nat, ERetReturn); (1%nat, ECallReturn 7); (1%nat, ERetReturn); (1%nat, ECallReturn 3); (0%nat, ECallTake); (1%nat, ERetReturn); (1%nat, ECallReturn 2)].
Proof.
  exists (give 1%nat 2 :: steps 1%nat 8 ++ take 0%nat :: steps 0%nat 7 ++ give 1%nat 3 :: steps 1%nat 9 ++ steps 0%nat 2 ++ give 1%nat 7 :: steps 1%nat 10 ++ steps 0%nat 12).
  eexists. split; [vm_compute; reflexivity|]. vm_compute. reflexivity.
Qed.
(** The messages read by a sequence of operations: Some m logs m, None reads one. *)
Fixpoint reads (n : Z) (g : logger) (ops : list (option Z)) : option (list (option Z)) :=
  match ops with
  | [] => Some []
  | Some m :: r => match log_message n g m with None => None | Some g => reads n g r end
  | None :: r => match read_message n g with None => None | Some (m, g) => match reads n g r with None => None | Some l => Some (m :: l) end end
  end.
(** Log entries are not read in the order they were added, even when one thread does everything: 103 is read before 102. *)
Theorem C20_log_order_refuted :
  reads 2 (logger_new 2) [Some 101; Some 102; None; Some 103; None; None; None] = Some [Some 101; Some 103; Some 102; None].
Proof. vm_compute. reflexivity. Qed.

(** Five resources, three threads: two interleaved takes give different resources, a take after a return gives it again. *)
Example C20_case :
  match exec (step 5 false 3) (init 5 false)
    (take 0%nat :: take 1%nat :: concat (repeat [AStep 0%nat; AStep 1%nat] 5) ++ steps 0%nat 11 ++ steps 1%nat 18 ++ give 2%nat 4 :: steps 2%nat 8 ++ take 1%nat :: steps 1%nat 16) with
  | Some s => log s = [(1%nat, ERetTake (Some 4)); (1%nat, ECallTake); (2%nat, ERetReturn); (2%nat, ECallReturn 4); (1%nat, ERetTake (Some 3)); (0%nat, ERetTake (Some 4)); (1%nat, ECallTake); (0%nat, ECallTake)] /\
              size s 0 = 3 /\ pcs s 0%nat = Idle /\ pcs s 1%nat = Idle /\ pcs s 2%nat = Idle
  | None => False
  end.
Proof. vm_compute. repeat split. Qed.

Print Assumptions C20_one_owner.
Print Assumptions C20_no_wild_access.
Print Assumptions C20_size_counts_free.
Print Assumptions C20_take_alone.
Print Assumptions C20_return_alone.
Print Assumptions C20_take_fails_only_when_empty_refuted.
Print Assumptions C20_created_taken_refuted.
Print Assumptions C20_log_order_refuted.
