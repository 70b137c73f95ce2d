From Verif Require Import Base Conc Ref_Model.
Open Scope nat_scope.

(** Counting slots. *)
Fixpoint num (P : nat -> bool) (n : nat) : nat := match n with 0 => 0 | S k => num P k + (if P k then 1 else 0) end.
Lemma num_ext P Q n : (forall x, x < n -> P x = Q x) -> num P n = num Q n.
Proof. induction n as [|n IH]; intro H; [reflexivity|]. cbn [num]. rewrite IH by auto. rewrite H by lia. reflexivity. Qed.
Lemma num_off P Q n x : x < n -> P x = true -> Q x = false -> (forall y, y <> x -> Q y = P y) -> num P n = num Q n + 1.
Proof.
  induction n as [|n IH]; intros L A B H; [lia|]. cbn [num]. destruct (Nat.eq_dec x n) as [->|Ne].
  - rewrite A, B, (num_ext Q P n) by (intros; apply H; lia). lia.
  - rewrite (H n) by lia. rewrite IH by (auto; lia). lia.
Qed.
Lemma num_pos P n x : x < n -> P x = true -> 0 < num P n.
Proof.
  induction n as [|n IH]; intros L A; [lia|]. cbn [num]. destruct (Nat.eq_dec x n) as [->|Ne]; [rewrite A; lia|]. specialize (IH ltac:(lia) A). lia.
Qed.
Lemma num_witness P n : 0 < num P n -> exists x, x < n /\ P x = true.
Proof.
  induction n as [|n IH]; intro H; [cbn in H; lia|]. cbn [num] in H. destruct (P n) eqn:E; [exists n; auto|].
  destruct IH as (x & A & B); [lia|]. exists x. auto.
Qed.
Lemma num_zero P n : num P n = 0 -> forall x, x < n -> P x = false.
Proof. intros H x L. destruct (P x) eqn:E; [|reflexivity]. pose proof (num_pos P n x L E). lia. Qed.
Lemma num_le P n : num P n <= n.
Proof. induction n; cbn [num]; [lia|]. destruct (P n); lia. Qed.
Lemma num_grow P n m : n <= m -> (forall x, n <= x -> x < m -> P x = false) -> num P m = num P n.
Proof. intros L H. induction m as [|m IH]; [replace n with 0 by lia; reflexivity|]. destruct (Nat.eq_dec n (S m)) as [->|]; [reflexivity|]. cbn [num]. rewrite H by lia. rewrite IH by (auto; lia). lia. Qed.

Lemma NoDup_app_intro {A} (a b : list A) : NoDup a -> NoDup b -> (forall x, In x a -> In x b -> False) -> NoDup (a ++ b).
Proof.
  induction a as [|x a IH]; intros H1 H2 H; [exact H2|]. inversion H1 as [|? ? N1 N2]; subst. cbn [app]. constructor.
  - intro K. apply in_app_or in K. destruct K as [K|K]; [contradiction|]. apply (H x); [left; reflexivity|exact K].
  - apply IH; auto. intros y A1 A2. apply (H y); [right; exact A1|exact A2].
Qed.

Definition ex (s : st) (x : nat) : bool := match slot s x with Some _ => true | None => false end.
Definition refs_to (s : st) (o x : nat) : bool := match slot s x with Some (Some p) => p =? o | _ => false end.
Lemma refs_to_true s o x : refs_to s o x = true <-> slot s x = Some (Some o).
Proof. unfold refs_to. destruct (slot s x) as [[p|]|]; try (split; discriminate). rewrite Nat.eqb_eq. split; congruence. Qed.
Lemma ex_true s x : ex s x = true <-> slot s x <> None.
Proof. unfold ex. destruct (slot s x); split; congruence. Qed.

Record I (s : st) (todo : list nat) : Prop :=
  { i_slot : forall x, slot s x <> None -> x < nslot s;
    i_obj : forall o, live s o = true -> o < nobj s;
    i_cnt : forall o, live s o = true -> cnt s o = num (refs_to s o) (nslot s) /\ 0 < cnt s o;
    i_live : forall x o, slot s x = Some (Some o) -> live s o = true;
    i_own : forall x o, o < nobj s -> (In x (fields s o) <-> owner s x = Some o);
    i_ownlt : forall x o, owner s x = Some o -> o < nobj s /\ x < nslot s;
    i_nd : forall o, o < nobj s -> NoDup (fields s o);
    i_ex : forall x o, owner s x = Some o -> (slot s x <> None <-> live s o = true \/ In x todo);
    i_todo : NoDup todo /\ forall x, In x todo -> slot s x <> None /\ forall o, owner s x = Some o -> live s o = false;
    i_dead : NoDup (dead s) /\ forall o, In o (dead s) <-> o < nobj s /\ live s o = false }.

(** Slots that stay: variables, and the members of objects referenced by such slots. *)
Definition keeps (s : st) (A : nat -> Prop) (todo : list nat) : Prop :=
  forall x, A x -> slot s x <> None /\ ~ In x todo /\ (owner s x = None \/ exists p y, owner s x = Some p /\ A y /\ slot s y = Some (Some p)).

Record same (s s' : st) (A : nat -> Prop) : Prop :=
  { e_n : nslot s' = nslot s; e_o : nobj s' = nobj s; e_own : owner s' = owner s; e_f : fields s' = fields s;
    e_slot : forall x, slot s' x = slot s x \/ slot s' x = None; e_keep : forall x, A x -> slot s' x = slot s x }.
Lemma same_refl s A : same s s A.
Proof. split; auto. Qed.

(** A slot x that refers to o is no longer there (v = None) or null. *)
Lemma dec_I s todo x o v : v = None \/ v = Some None -> slot s x = Some (Some o) ->
  (v = None -> exists r, todo = x :: r) -> I s todo ->
  let s2 := set_cnt (set_slot s x v) o (cnt s o - 1) in
  let todo' := match v with None => tl todo | _ => todo end in
  (cnt s o - 1 <> 0 -> I s2 todo') /\ (cnt s o - 1 = 0 -> I (kill s2 o) (fields s o ++ todo')).
Proof.
  intros Hv SX TD V. pose proof V as [A1 A2 A3 A4 A5 A6 A7 A8 [A9 A10] [A11 A12]].
  assert (LV : live s o = true) by (eapply A4; eauto). destruct (A3 o LV) as [C1 C2].
  assert (XL : x < nslot s) by (apply A1; congruence).
  assert (NUM : num (refs_to s o) (nslot s) = num (refs_to (set_slot s x v) o) (nslot s) + 1).
  { apply (num_off _ _ _ x); auto.
    - apply refs_to_true. exact SX.
    - unfold refs_to. cbn [slot set_slot]. rewrite upd_same. destruct Hv; subst; reflexivity.
    - intros y Ne. unfold refs_to. cbn [slot set_slot]. rewrite upd_other by auto. reflexivity. }
  assert (OTH : forall p, p <> o -> num (refs_to (set_slot s x v) p) (nslot s) = num (refs_to s p) (nslot s)).
  { intros p Ne. apply num_ext. intros y _. unfold refs_to. cbn [slot set_slot]. destruct (upd_cases (slot s) x v y) as [[-> ->]|[_ ->]]; [|reflexivity].
    rewrite SX. destruct Hv; subst; symmetry; apply Nat.eqb_neq; auto. }
  assert (SLT : forall y, upd (slot s) x v y <> None -> slot s y <> None).
  { intros y H. destruct (upd_cases (slot s) x v y) as [[-> E]|[_ E]]; rewrite E in H; congruence. }
  cbn zeta. set (todo' := match v with None => tl todo | _ => todo end).
  assert (T1 : NoDup todo' /\ (forall y, In y todo' -> In y todo) /\ forall y, In y todo' -> upd (slot s) x v y <> None).
  { unfold todo'. destruct Hv; subst v.
    - destruct (TD eq_refl) as [r ->]. cbn [tl]. inversion A9 as [|? ? N1 N2]; subst. split; [exact N2|]. split; [intros; right; assumption|].
      intros y Hy. rewrite upd_other by (intro; subst; contradiction). apply A10. right. exact Hy.
    - split; [exact A9|]. split; [auto|]. intros y Hy. destruct (upd_cases (slot s) x (Some None) y) as [[-> ->]|[_ ->]]; [discriminate|]. apply A10. exact Hy. }
  destruct T1 as (T1 & T2 & T3).
  assert (XT : forall y, (slot s y <> None -> In y todo' \/ upd (slot s) x v y <> None \/ v = None /\ y = x)).
  { intros y Hy. destruct (upd_cases (slot s) x v y) as [[-> ->]|[_ ->]]; [|auto]. destruct Hv; subst v; [auto|]. right; left; discriminate. }
  split; intro Z.
  - split; cbn [slot live cnt nobj nslot owner fields dead set_slot set_cnt]; auto.
    + intros p LP. destruct (upd_cases (cnt s) o (cnt s o - 1) p) as [[-> ->]|[Ne ->]].
      * split; [|lia]. change (refs_to _ o) with (refs_to (set_slot s x v) o). lia.
      * change (refs_to _ p) with (refs_to (set_slot s x v) p). rewrite OTH by auto. apply A3. exact LP.
    + intros y p H. destruct (upd_cases (slot s) x v y) as [[-> E]|[_ E]]; rewrite E in H; [destruct Hv; subst; discriminate|eapply A4; eauto].
    + intros y p OW. split.
      * intro H. destruct (proj1 (A8 y p OW) (SLT y H)) as [?|HT]; [auto|]. right. unfold todo'. destruct Hv; subst v; [|exact HT].
        destruct (TD eq_refl) as [r ->]. destruct HT as [->|HT]; [rewrite upd_same in H; congruence|exact HT].
      * intros [H|H]; [|apply T3; exact H]. assert (SY : slot s y <> None) by (apply (A8 y p OW); auto).
        destruct (upd_cases (slot s) x v y) as [[-> ->]|[_ ->]]; [|exact SY]. destruct Hv; subst v; [|discriminate].
        destruct (TD eq_refl) as [r ->]. destruct (A10 x (or_introl eq_refl)) as [_ B]. rewrite (B p OW) in H. discriminate.
    + split; [exact T1|]. intros y Hy. split; [apply T3; exact Hy|]. intros p OW. apply (A10 y (T2 y Hy)). exact OW.
  - assert (OL : o < nobj s) by auto.
    assert (NO : forall y, upd (slot s) x v y <> Some (Some o)).
    { intros y H. assert (YL : y < nslot s) by (apply A1; apply SLT; congruence).
      assert (N0 : num (refs_to (set_slot s x v) o) (nslot s) = 0) by lia.
      pose proof (num_zero _ _ N0 y YL) as F. unfold refs_to in F. cbn [slot set_slot] in F. rewrite H, Nat.eqb_refl in F. discriminate. }
    assert (LU : forall p, upd (live s) o false p = true -> p <> o /\ live s p = true).
    { intros p H. destruct (upd_cases (live s) o false p) as [[-> E]|[Ne E]]; rewrite E in H; [discriminate|auto]. }
    assert (FX : forall y, In y (fields s o) -> upd (slot s) x v y <> None).
    { intros y Hy. pose proof (proj1 (A5 y o OL) Hy) as OW. assert (SY : slot s y <> None) by (apply (A8 y o OW); auto).
      destruct (upd_cases (slot s) x v y) as [[-> ->]|[_ ->]]; [|exact SY]. destruct Hv; subst v; [|discriminate].
      destruct (TD eq_refl) as [r ->]. destruct (A10 x (or_introl eq_refl)) as [_ B]. rewrite (B o OW) in LV. discriminate. }
    split; cbn [slot live cnt nobj nslot owner fields dead set_slot set_cnt kill]; auto.
    + intros p H. apply LU in H. apply A2. tauto.
    + intros p H. apply LU in H. destruct H as [Ne LP]. rewrite upd_other by auto.
      change (refs_to _ p) with (refs_to (set_slot s x v) p). rewrite OTH by auto. apply A3. exact LP.
    + intros y p H. rewrite upd_other by (intro; subst; apply (NO y); exact H).
      destruct (upd_cases (slot s) x v y) as [[-> E]|[_ E]]; rewrite E in H; [destruct Hv; subst; discriminate|eapply A4; eauto].
    + intros y p OW. split.
      * intro H. destruct (Nat.eq_dec p o) as [->|Ne]; [right; apply in_or_app; left; apply (A5 y o OL); exact OW|]. rewrite upd_other by auto.
        destruct (proj1 (A8 y p OW) (SLT y H)) as [?|HT]; [auto|]. right. apply in_or_app. right. unfold todo'. destruct Hv; subst v; [|exact HT].
        destruct (TD eq_refl) as [r ->]. destruct HT as [->|HT]; [rewrite upd_same in H; congruence|exact HT].
      * intros [H|H].
        -- apply LU in H. destruct H as [Ne LP]. assert (SY : slot s y <> None) by (apply (A8 y p OW); auto).
           destruct (upd_cases (slot s) x v y) as [[-> ->]|[_ ->]]; [|exact SY]. destruct Hv; subst v; [|discriminate].
           destruct (TD eq_refl) as [r ->]. destruct (A10 x (or_introl eq_refl)) as [_ B]. rewrite (B p OW) in LP. discriminate.
        -- apply in_app_or in H. destruct H as [H|H]; [apply FX; exact H|apply T3; exact H].
    + split.
      * apply NoDup_app_intro; auto. intros y H1 H2. apply (A5 y o OL) in H1. apply T2 in H2. destruct (A10 y H2) as [_ B]. rewrite (B o H1) in LV. discriminate.
      * intros y H. apply in_app_or in H. destruct H as [H|H].
        -- split; [apply FX; exact H|]. intros p OW. apply (A5 y o OL) in H. rewrite H in OW. injection OW as <-. apply upd_same.
        -- split; [apply T3; exact H|]. intros p OW. destruct (upd_cases (live s) o false p) as [[_ ->]|[_ ->]]; [reflexivity|]. apply (A10 y (T2 y H)). exact OW.
    + split.
      * constructor; [|exact A11]. rewrite A12. intros [_ H]. congruence.
      * intro p. cbn [In]. rewrite A12. destruct (upd_cases (live s) o false p) as [[-> ->]|[Ne ->]]; [intuition|]. intuition congruence.
Qed.

(** A null slot is destroyed. *)
Lemma null_I s x r : slot s x = Some None -> I s (x :: r) -> I (set_slot s x None) r.
Proof.
  intros SX V. pose proof V as [A1 A2 A3 A4 A5 A6 A7 A8 [A9 A10] [A11 A12]]. inversion A9 as [|? ? N1 N2]; subst.
  assert (RT : forall p, num (refs_to (set_slot s x None) p) (nslot s) = num (refs_to s p) (nslot s)).
  { intro p. apply num_ext. intros y _. unfold refs_to. cbn [slot set_slot]. destruct (upd_cases (slot s) x None y) as [[-> ->]|[_ ->]]; [|reflexivity]. rewrite SX. reflexivity. }
  assert (SLT : forall y, upd (slot s) x None y <> None -> y <> x /\ slot s y <> None).
  { intros y H. destruct (upd_cases (slot s) x None y) as [[-> E]|[N E]]; rewrite E in H; [congruence|auto]. }
  split; cbn [slot live cnt nobj nslot owner fields dead set_slot]; auto.
  - intros y H. apply SLT in H. apply A1. tauto.
  - intros p LP. change (refs_to _ p) with (refs_to (set_slot s x None) p). rewrite RT. apply A3. exact LP.
  - intros y p H. assert (upd (slot s) x None y <> None) as K by congruence. apply SLT in K. rewrite upd_other in H by tauto. eapply A4; eauto.
  - intros y p OW. split.
    + intro H. apply SLT in H. destruct H as [N H]. apply (A8 y p OW) in H. destruct H as [H|[H|H]]; auto; congruence.
    + intro H. assert (y <> x).
      { intros ->. destruct H as [H|H]; [|contradiction]. destruct (A10 x (or_introl eq_refl)) as [_ B]. rewrite (B p OW) in H. discriminate. }
      rewrite upd_other by auto. apply (A8 y p OW). cbn [In]. tauto.
  - split; [exact N2|]. intros y Hy. rewrite upd_other by (intro; subst; contradiction). apply A10. right. exact Hy.
Qed.

Definition nex (s : st) : nat := num (ex s) (nslot s).
Lemma nex_off s x : I s [x] \/ (exists t, I s t) -> slot s x <> None -> nex s = nex (set_slot s x None) + 1.
Proof.
  intros H E. unfold nex. cbn [nslot set_slot]. apply (num_off _ _ _ x).
  - destruct H as [V|[t V]]; apply (i_slot _ _ V); exact E.
  - apply ex_true. exact E.
  - unfold ex. cbn [slot set_slot]. rewrite upd_same. reflexivity.
  - intros y N. unfold ex. cbn [slot set_slot]. rewrite upd_other by auto. reflexivity.
Qed.

Lemma release_ok A fuel : forall todo s, I s todo -> keeps s A todo -> nex s <= fuel ->
  exists s', release fuel todo s = Some s' /\ I s' [] /\ same s s' A.
Proof.
  induction fuel as [|k IH]; intros todo s V KP F.
  - destruct todo as [|x r]; [exists s; split; [reflexivity|]; split; [exact V|apply same_refl]|]. exfalso.
    destruct (i_todo _ _ V) as [_ T]. destruct (T x (or_introl eq_refl)) as [E _].
    pose proof (num_pos (ex s) (nslot s) x (i_slot _ _ V x E) (proj2 (ex_true s x) E)) as P. unfold nex in F. lia.
  - destruct todo as [|x r]; [exists s; split; [reflexivity|]; split; [exact V|apply same_refl]|].
    destruct (i_todo _ _ V) as [ND T]. destruct (T x (or_introl eq_refl)) as [E _].
    pose proof (nex_off s x (or_intror (ex_intro _ _ V)) E) as NX.
    assert (NA : ~ A x). { intro H. destruct (KP x H) as (_ & H2 & _). apply H2. left. reflexivity. }
    cbn [release]. destruct (slot s x) as [p|] eqn:SX; [|congruence]. destruct p as [o|].
    + rewrite (i_live _ _ V x o SX).
      destruct (dec_I s (x :: r) x o None (or_introl eq_refl) SX ltac:(eauto) V) as [D1 D2]. cbn [tl] in D1, D2.
      set (s2 := set_cnt (set_slot s x None) o (cnt s o - 1)) in *.
      assert (SA : forall y, A y -> slot s2 y = slot s y). { intros y H. cbn. apply upd_other. intro; subst; contradiction. }
      destruct (Nat.eqb_spec (cnt s o - 1) 0) as [Z|Z].
      * specialize (D2 Z). destruct (IH _ _ D2) as (s' & R & V' & SM).
        { intros y H. destruct (KP y H) as (K1 & K2 & K3). split; [change (slot s2 y <> None); rewrite SA by exact H; exact K1|].
          assert (K3' : owner s y = None \/ exists p z, owner s y = Some p /\ A z /\ slot s2 z = Some (Some p)).
          { destruct K3 as [K3|(p & z & B1 & B2 & B3)]; [auto|]. right. exists p, z. rewrite SA by exact B2. auto. }
          split; [|exact K3']. intro H2. apply in_app_or in H2. destruct H2 as [H2|H2]; [|apply K2; right; exact H2].
          pose proof (i_obj _ _ V o (i_live _ _ V x o SX)) as OL. apply (i_own _ _ V y o OL) in H2.
          destruct K3' as [K3'|(p & z & B1 & B2 & B3)]; [congruence|]. rewrite H2 in B1. injection B1 as <-.
          pose proof (i_live _ _ D2 z o B3) as L. cbn in L. rewrite upd_same in L. discriminate. }
        { change (nex (kill s2 o)) with (nex (set_slot s x None)). lia. }
        exists s'. split; [exact R|]. split; [exact V'|]. destruct SM as [M1 M2 M3 M4 M5 M6].
        split; auto.
        -- intro y. destruct (M5 y) as [M|M]; [|auto]. rewrite M. cbn. destruct (upd_cases (slot s) x None y) as [[_ ->]|[_ ->]]; auto.
        -- intros y H. rewrite (M6 y H). change (slot s2 y = slot s y). auto.
      * specialize (D1 Z). destruct (IH _ _ D1) as (s' & R & V' & SM).
        { intros y H. destruct (KP y H) as (K1 & K2 & K3). split; [rewrite SA by exact H; exact K1|]. split; [intro; apply K2; right; assumption|].
          destruct K3 as [K3|(p & z & B1 & B2 & B3)]; [auto|]. right. exists p, z. rewrite SA by exact B2. auto. }
        { change (nex s2) with (nex (set_slot s x None)). lia. }
        exists s'. split; [exact R|]. split; [exact V'|]. destruct SM as [M1 M2 M3 M4 M5 M6].
        split; auto.
        -- intro y. destruct (M5 y) as [M|M]; [|auto]. rewrite M. cbn. destruct (upd_cases (slot s) x None y) as [[_ ->]|[_ ->]]; auto.
        -- intros y H. rewrite (M6 y H). auto.
    + pose proof (null_I s x r SX V) as V1.
      assert (SA : forall y, A y -> slot (set_slot s x None) y = slot s y). { intros y H. cbn. apply upd_other. intro; subst; contradiction. }
      destruct (IH _ _ V1) as (s' & R & V' & SM).
      { intros y H. destruct (KP y H) as (K1 & K2 & K3). split; [rewrite SA by exact H; exact K1|]. split; [intro; apply K2; right; assumption|].
        destruct K3 as [K3|(p & z & B1 & B2 & B3)]; [auto|]. right. exists p, z. rewrite SA by exact B2. auto. }
      { lia. }
      exists s'. split; [exact R|]. split; [exact V'|]. destruct SM as [M1 M2 M3 M4 M5 M6].
      split; auto.
      * intro y. destruct (M5 y) as [M|M]; [|auto]. rewrite M. cbn. destruct (upd_cases (slot s) x None y) as [[_ ->]|[_ ->]]; auto.
      * intros y H. rewrite (M6 y H). auto.
Qed.

(** Slots that stay when slot d is set to null. *)
Definition keeps_but (s : st) (A : nat -> Prop) (d : nat) : Prop :=
  forall x, A x -> slot s x <> None /\ (owner s x = None \/ exists p y, owner s x = Some p /\ A y /\ y <> d /\ slot s y = Some (Some p)).

(** What RemoveReference does: everything before the last check of [drop]. *)
Lemma drop_core A s d o : I s [] -> keeps_but s A d -> slot s d = Some (Some o) ->
  let s2 := set_cnt (set_slot s d (Some None)) o (cnt s o - 1) in
  exists s', (if cnt s o - 1 =? 0 then release (nslot s) (fields s o) (kill s2 o) else Some s2) = Some s' /\ I s' [] /\
    owner s' = owner s /\ nslot s' = nslot s /\ nobj s' = nobj s /\ (slot s' d = Some None \/ slot s' d = None) /\
    (forall x, x <> d -> slot s' x = slot s x \/ slot s' x = None) /\ (forall x, A x -> x <> d -> slot s' x = slot s x) /\ (A d -> slot s' d = Some None).
Proof.
  intros V KP SD s2. destruct (dec_I s [] d o (Some None) (or_intror eq_refl) SD ltac:(discriminate) V) as [D1 D2]. cbn zeta in D1, D2. fold s2 in D1, D2.
  assert (S2 : forall x, x <> d -> slot s2 x = slot s x). { intros x N. cbn. apply upd_other. exact N. }
  assert (S2D : slot s2 d = Some None). { cbn. apply upd_same. }
  destruct (Nat.eqb_spec (cnt s o - 1) 0) as [Z|Z].
  - specialize (D2 Z). rewrite app_nil_r in D2. destruct (release_ok A (nslot s) _ _ D2) as (s' & R & V' & [M1 M2 M3 M4 M5 M6]).
    { intros x H. destruct (KP x H) as (K1 & K3). split; [|split].
      - change (slot s2 x <> None). destruct (Nat.eq_dec x d) as [->|N]; [congruence|rewrite S2 by exact N; exact K1].
      - intro H2. pose proof (i_obj _ _ V o (i_live _ _ V d o SD)) as OL. apply (i_own _ _ V x o OL) in H2.
        destruct K3 as [K3|(p & y & B1 & B2 & B3 & B4)]; [congruence|]. rewrite H2 in B1. injection B1 as <-.
        rewrite <- S2 in B4 by exact B3. pose proof (i_live _ _ D2 y o B4) as L. cbn in L. rewrite upd_same in L. discriminate.
      - destruct K3 as [K3|(p & y & B1 & B2 & B3 & B4)]; [auto|]. right. exists p, y. split; [exact B1|]. split; [exact B2|]. rewrite <- S2 in B4 by exact B3. exact B4. }
    { unfold nex. apply num_le. }
    exists s'. split; [exact R|]. split; [exact V'|]. split; [exact M3|]. split; [exact M1|]. split; [exact M2|].
    assert (G : forall x, slot s' x = slot s2 x \/ slot s' x = None) by exact M5.
    split; [destruct (G d) as [-> | ->]; auto|]. split; [|split].
    + intros x N. destruct (G x) as [-> | ->]; auto.
    + intros x H N. rewrite (M6 x H). change (slot s2 x = slot s x). auto.
    + intro H. rewrite (M6 d H). exact S2D.
  - exists s2. split; [reflexivity|]. split; [apply D1; exact Z|]. repeat (split; [auto|]). auto.
Qed.

Lemma drop_inv s d s' : I s [] -> drop s d = Some s' -> I s' [] /\ owner s' = owner s /\ nslot s' = nslot s /\ nobj s' = nobj s /\ slot s' d = Some None.
Proof.
  intros V E. unfold drop in E. destruct (slot s d) as [[o|]|] eqn:SD; try discriminate.
  - rewrite (i_live _ _ V d o SD) in E. destruct (drop_core (fun _ => False) s d o V ltac:(intros x []) SD) as (s1 & E1 & V1 & O1 & N1 & N2 & B & _).
    cbn zeta in E1. rewrite E1 in E. destruct (slot s1 d) as [q|] eqn:Q; [|discriminate]. injection E as <-. destruct B as [B|B]; [|congruence]. split; [exact V1|]. split; [exact O1|]. split; [exact N1|]. split; [exact N2|congruence].
  - injection E as <-. auto.
Qed.
Lemma drop_ok A s d : I s [] -> keeps_but s A d -> A d ->
  exists s', drop s d = Some s' /\ slot s' d = Some None /\ (forall x, A x -> x <> d -> slot s' x = slot s x).
Proof.
  intros V KP HD. unfold drop. destruct (slot s d) as [[o|]|] eqn:SD.
  - rewrite (i_live _ _ V d o SD). destruct (drop_core A s d o V KP SD) as (s1 & E1 & V1 & O1 & N1 & N2 & B & _ & K & KD).
    cbn zeta in E1. rewrite E1, (KD HD). exists s1. auto.
  - exists s. auto.
  - destruct (KP d HD) as [H _]. congruence.
Qed.

Lemma point_inv s d p s' : I s [] -> slot s d = Some None -> point s d p = Some s' -> I s' [].
Proof.
  intros V SD E. unfold point, inc in E. destruct p as [o|]; [|injection E as <-; exact V]. destruct (live s o) eqn:LV; [|discriminate]. injection E as <-.
  pose proof V as [A1 A2 A3 A4 A5 A6 A7 A8 [A9 A10] [A11 A12]].
  assert (DL : d < nslot s) by (apply A1; congruence).
  set (s1 := set_slot s d (Some (Some o))).
  assert (NUM : num (refs_to s1 o) (nslot s) = num (refs_to s o) (nslot s) + 1).
  { apply (num_off _ _ _ d); auto.
    - apply refs_to_true. cbn. apply upd_same.
    - unfold refs_to. rewrite SD. reflexivity.
    - intros y N. unfold refs_to. cbn. rewrite upd_other by auto. reflexivity. }
  assert (OTH : forall q, q <> o -> num (refs_to s1 q) (nslot s) = num (refs_to s q) (nslot s)).
  { intros q N. apply num_ext. intros y _. unfold refs_to. cbn. destruct (upd_cases (slot s) d (Some (Some o)) y) as [[-> ->]|[_ ->]]; [|reflexivity]. rewrite SD. apply Nat.eqb_neq. auto. }
  assert (SL : forall y, upd (slot s) d (Some (Some o)) y <> None <-> slot s y <> None).
  { intro y. destruct (upd_cases (slot s) d (Some (Some o)) y) as [[-> ->]|[_ ->]]; [split; congruence|tauto]. }
  split; cbn [slot live cnt nobj nslot owner fields dead set_slot set_cnt]; auto.
  - intros y H. apply A1. apply SL. exact H.
  - intros q LQ. change (refs_to _ q) with (refs_to s1 q). destruct (upd_cases (cnt s) o (cnt s o + 1) q) as [[-> ->]|[N ->]].
    + destruct (A3 o LV). lia.
    + rewrite OTH by auto. apply A3. exact LQ.
  - intros y q H. destruct (upd_cases (slot s) d (Some (Some o)) y) as [[_ E]|[_ E]]; rewrite E in H; [congruence|eapply A4; eauto].
  - intros y q OW. rewrite SL. apply A8. exact OW.
  - split; [exact A9|]. intros y [].
Qed.
Lemma point_ok s d p : I s [] -> (exists x, slot s x = Some p) -> exists s', point s d p = Some s' /\ forall x, slot s' x = match p with None => slot s x | _ => upd (slot s) d (Some p) x end.
Proof.
  intros V [x H]. destruct p as [o|]; cbn [point].
  - unfold inc. rewrite (i_live _ _ V x o H). eexists. split; [reflexivity|]. reflexivity.
  - eexists. split; reflexivity.
Qed.

Lemma var_I s : I s [] -> I (add_var s) [].
Proof.
  intro V. pose proof V as [A1 A2 A3 A4 A5 A6 A7 A8 [A9 A10] [A11 A12]].
  assert (NS : slot s (nslot s) = None). { destruct (slot s (nslot s)) eqn:E; [|reflexivity]. pose proof (A1 (nslot s) ltac:(congruence)). lia. }
  assert (NW : forall o, owner s (nslot s) <> Some o). { intros o H. destruct (A6 _ _ H). lia. }
  assert (NUM : forall o, num (refs_to (add_var s) o) (nslot s + 1) = num (refs_to s o) (nslot s)).
  { intro o. rewrite (num_grow _ (nslot s)) by (try lia; intros x G1 G2; replace x with (nslot s) by lia; unfold refs_to; cbn; rewrite upd_same; reflexivity).
    apply num_ext. intros x L. unfold refs_to. cbn. rewrite upd_other by lia. reflexivity. }
  split; cbn [slot live cnt nobj nslot owner fields dead add_var]; auto.
  - intros x H. destruct (upd_cases (slot s) (nslot s) (Some None) x) as [[-> _]|[_ E]]; [lia|]. rewrite E in H. specialize (A1 x H). lia.
  - intros o L. rewrite NUM. apply A3. exact L.
  - intros x o H. destruct (upd_cases (slot s) (nslot s) (Some None) x) as [[_ E]|[_ E]]; rewrite E in H; [discriminate|eapply A4; eauto].
  - intros x o L. rewrite (A5 x o L). destruct (upd_cases (owner s) (nslot s) None x) as [[-> ->]|[_ ->]]; [|tauto]. split; intro H; [destruct (NW o H)|discriminate].
  - intros x o H. destruct (upd_cases (owner s) (nslot s) None x) as [[_ E]|[_ E]]; rewrite E in H; [discriminate|]. destruct (A6 _ _ H). lia.
  - intros x o H. destruct (upd_cases (owner s) (nslot s) None x) as [[_ E]|[N E]]; rewrite E in H; [discriminate|]. rewrite upd_other by auto. auto.
  - split; [constructor|]. intros x [].
Qed.

Lemma new_I s k s' : I s [] -> step s (ONew k) = Some s' -> I s' [].
Proof.
  intros V E. cbn [step] in E. injection E as <-. pose proof V as [A1 A2 A3 A4 A5 A6 A7 A8 [A9 A10] [A11 A12]].
  set (v := nslot s) in *. set (o := nobj s) in *.
  assert (NS : forall x, v <= x -> slot s x = None). { intros x L. destruct (slot s x) eqn:E; [|reflexivity]. pose proof (A1 x ltac:(congruence)). lia. }
  assert (NW : forall x p, v <= x -> owner s x <> Some p). { intros x p L H. destruct (A6 _ _ H). lia. }
  assert (NL : live s o = false). { destruct (live s o) eqn:E; [|reflexivity]. pose proof (A2 o E). lia. }
  assert (NR : forall x, slot s x <> Some (Some o)). { intros x H. rewrite (A4 x o H) in NL. discriminate. }
  set (sl := fun x => if x =? v then Some (Some o) else if (v <? x) && (x <? v + 1 + k) then Some None else slot s x).
  set (ow := fun x => if x =? v then None else if (v <? x) && (x <? v + 1 + k) then Some o else owner s x).
  assert (SL : forall x, (x = v /\ sl x = Some (Some o) /\ ow x = None) \/ (v < x < v + 1 + k /\ sl x = Some None /\ ow x = Some o) \/ ((x < v \/ v + 1 + k <= x) /\ sl x = slot s x /\ ow x = owner s x)).
  { intro x. unfold sl, ow. destruct (Nat.eqb_spec x v) as [->|N]; [auto|]. destruct (Nat.ltb_spec v x), (Nat.ltb_spec x (v + 1 + k)); cbn [andb]; [right; left; auto|right; right; split; [lia|auto]..]. }
  split; cbn [slot live cnt nobj nslot owner fields dead].
  - intros x H. destruct (SL x) as [(-> & _)|[(L & _)|(L & E & _)]]; [lia|lia|]. rewrite E in H. specialize (A1 x H). lia.
  - intros p H. destruct (upd_cases (live s) o true p) as [[-> _]|[_ E]]; [lia|]. rewrite E in H. specialize (A2 p H). lia.
  - intros p H. match goal with |- _ = num (refs_to ?t p) _ /\ _ => set (t' := t) end.
    assert (RV : forall x, refs_to t' p x = match sl x with Some (Some q) => q =? p | _ => false end) by reflexivity.
    destruct (upd_cases (live s) o true p) as [[-> E]|[N E]]; rewrite E in H; unfold t' at 1; cbn [cnt].
    + rewrite upd_same. split; [|lia].
      rewrite (num_off (refs_to t' o) (fun _ => false) _ v); [|lia| | |].
      * rewrite (num_grow _ 0) by (auto; lia). reflexivity.
      * rewrite RV. destruct (SL v) as [(_ & -> & _)|[(L & _)|(L & _)]]; [apply Nat.eqb_refl|lia|lia].
      * reflexivity.
      * intros y N. rewrite RV. destruct (SL y) as [(-> & _)|[(_ & -> & _)|(_ & -> & _)]]; [congruence|reflexivity|].
        destruct (slot s y) as [[q|]|] eqn:Q; try reflexivity. symmetry. apply Nat.eqb_neq. intros ->. exact (NR y Q).
    + rewrite upd_other by auto. destruct (A3 p H) as [B1 B2]. split; [|exact B2]. rewrite B1. symmetry.
      rewrite (num_grow (refs_to t' p) v); [|lia|intros x L1 L2; rewrite RV; destruct (SL x) as [(_ & -> & _)|[(_ & -> & _)|(L & _)]]; [apply Nat.eqb_neq; auto|reflexivity|lia]].
      apply num_ext. intros x L. rewrite RV. destruct (SL x) as [(-> & _)|[(L' & _)|(_ & -> & _)]]; [lia|lia|]. reflexivity.
  - intros x p H. destruct (SL x) as [(_ & E & _)|[(_ & E & _)|(_ & E & _)]]; rewrite E in H; [|discriminate|].
    + injection H as <-. apply upd_same.
    + rewrite upd_other by (intros ->; exact (NR x H)). eapply A4; eauto.
  - intros x p L. destruct (upd_cases (fields s) o (seq (v + 1) k) p) as [[-> ->]|[N ->]].
    + rewrite in_seq. destruct (SL x) as [(-> & _ & ->)|[(L' & _ & ->)|(L' & _ & ->)]]; split; intro H; try lia; try discriminate; try reflexivity. destruct (A6 _ _ H). lia.
    + rewrite (A5 x p) by lia. destruct (SL x) as [(-> & _ & ->)|[(L' & _ & ->)|(L' & _ & ->)]]; [| |tauto]; split; intro H; try discriminate; [destruct (NW v p (le_n v) H)|destruct (NW x p) with (2 := H); lia|congruence].
  - intros x p H. destruct (SL x) as [(-> & _ & E)|[(L' & _ & E)|(L' & _ & E)]]; rewrite E in H; [discriminate|injection H as <-; lia|]. destruct (A6 _ _ H). lia.
  - intros p L. destruct (upd_cases (fields s) o (seq (v + 1) k) p) as [[-> ->]|[N ->]]; [apply seq_NoDup|apply A7; lia].
  - intros x p H. destruct (SL x) as [(-> & _ & E)|[(L' & E1 & E)|(L' & E1 & E)]]; rewrite E in H; [discriminate| |].
    + injection H as <-. rewrite upd_same. split; [auto|]. intros _. rewrite E1. discriminate.
    + rewrite E1. destruct (A6 _ _ H). rewrite upd_other by lia. apply A8. exact H.
  - split; [constructor|]. intros x [].
  - split; [exact A11|]. intro p. rewrite A12. destruct (upd_cases (live s) o true p) as [[-> ->]|[N ->]]; [split; [lia|intros [_ H]; discriminate]|]. split; intros [H1 H2]; (split; [lia|exact H2]).
Qed.

Lemma step_I s a s' : I s [] -> step s a = Some s' -> I s' [].
Proof.
  intros V E. destruct a; [eapply new_I; eauto|..]; cbn [step] in E.
  - injection E as <-. apply var_I. exact V.
  - destruct (slot s x) as [p|]; [|discriminate]. eapply point_inv; [apply var_I; exact V| |exact E]. cbn. apply upd_same.
  - destruct (slot s d), (slot s x); try discriminate. destruct (d =? x); [injection E as <-; exact V|].
    destruct (drop s d) as [s1|] eqn:ED; [|discriminate]. destruct (drop_inv s d s1 V ED) as (V1 & _ & _ & _ & SD).
    destruct (slot s1 x) as [p|]; [|discriminate]. eapply point_inv; eauto.
  - destruct (slot s d), (slot s x); try discriminate.
    destruct (drop s d) as [s1|] eqn:ED; [|discriminate]. destruct (drop_inv s d s1 V ED) as (V1 & _ & _ & _ & SD).
    destruct (slot s1 x) as [[p|]|]; [|injection E as <-; exact V1|discriminate].
    destruct (point s1 d (Some p)) as [s2|] eqn:EP; [|discriminate]. pose proof (point_inv s1 d (Some p) s2 V1 SD EP) as V2.
    destruct cast; [injection E as <-; exact V2|]. apply (drop_inv s2 d s' V2 E).
  - destruct (live s o); [|discriminate]. destruct (drop s d) as [s1|] eqn:ED; [|discriminate]. destruct (drop_inv s d s1 V ED) as (V1 & _ & _ & _ & SD).
    eapply point_inv; eauto.
  - apply (drop_inv s d s' V E).
  - destruct (slot s x) eqn:SX; [|discriminate]. destruct (owner s x) eqn:OX; [discriminate|].
    assert (V1 : I s [x]).
    { destruct V as [A1 A2 A3 A4 A5 A6 A7 A8 [A9 A10] A11]. split; auto.
      - intros y p OW. rewrite (A8 y p OW). cbn [In]. split; [tauto|]. intros [H|[H|[]]]; [auto|]. congruence.
      - split; [constructor; [intros []|constructor]|]. intros y [<-|[]]. split; congruence. }
    destruct (release_ok (fun _ => False) (nslot s) [x] s V1 ltac:(intros y []) (num_le _ _)) as (s1 & R & V2 & _). congruence.
Qed.
Lemma init_I : I init [].
Proof. split; cbn; try discriminate; try congruence; try (intros; lia). - split; [constructor|]. intros x []. - split; [constructor|]. intro o. split; [intros []|lia]. Qed.
Lemma exec_I ops s : exec step init ops = Some s -> I s [].
Proof. apply (exec_inv step (fun s => I s [])); [intros; eapply step_I; eauto|exact init_I]. Qed.
