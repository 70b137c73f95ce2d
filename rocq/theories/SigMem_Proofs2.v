(** Sizes and offsets of the signals. *)
From Coq Require Import ZArith List Bool String Lia.
From Verif Require Import Base Broker_Model SigMem_Model SigMem_Spec SigMem_Proofs.
Import ListNotations.
Open Scope string_scope. Open Scope Z_scope. Open Scope list_scope.

Lemma w32_id z : 0 <= z < 2 ^ 32 -> w32 z = z.
Proof. apply uwrap_id. Qed.

Lemma type_bits_size t b : type_bits t = Some b -> b = 8 * elem_size t /\ 0 <= elem_size t <= 8.
Proof.
  intro E. unfold type_bits, type_table, assoc in E.
  repeat match type of E with (if String.eqb ?n t then _ else _) = _ => destruct (String.eqb_spec n t) as [<-|]; [injection E as <-; cbn; lia|] end. discriminate.
Qed.
Lemma elem_size_pos t : 0 <= elem_size t.
Proof. unfold elem_size. repeat match goal with |- context [if ?c then _ else _] => destruct c end; lia. Qed.

(** * Numbers *)

Lemma numbers_merge f d ok f' d' :
  merge f d = (ok, f', d') -> numbers f -> numbers d -> numbers f' /\ numbers d'.
Proof.
  unfold merge, numbers. destruct f as [ft fn fe fv], d as [dt dn de dv]. cbn [p_type p_dims p_elems p_default].
  destruct (merge1 String.eqb ft dt); [|intro E; injection E as <- <- <-; auto].
  destruct (merge1 Z.eqb fn dn); [|intro E; injection E as <- <- <-; auto].
  destruct (merge1 Z.eqb fe de) as [e|] eqn:M; [|intro E; injection E as <- <- <-; auto].
  intros E F D.
  assert (H : forall x, e = Some x -> uint32 x).
  { intros x ->. unfold merge1 in M. destruct fe as [y|], de as [z|]; try discriminate.
    - destruct (y =? z); [|discriminate]. injection M as ->. auto.
    - injection M as ->. auto.
    - injection M as ->. auto. }
  destruct (merge1 String.eqb fv dv); injection E as <- <- <-; cbn; auto.
Qed.

Definition nds (D : dsource) : Prop := Forall (fun x => numbers (snd x)) (d_signals D).

Lemma assoc_numbers k l p : Forall (fun x : string * props => numbers (snd x)) l -> assoc k l = Some p -> numbers p.
Proof.
  induction 1 as [|[n q] l H F IH]; cbn; [discriminate|]. destruct (String.eqb n k); [|exact IH].
  intro E. injection E as <-. exact H.
Qed.
Lemma set_assoc_numbers k l p :
  Forall (fun x : string * props => numbers (snd x)) l -> numbers p ->
  Forall (fun x : string * props => numbers (snd x)) (set_assoc k p l).
Proof.
  intros F H. induction F as [|[n q] l Q F IH]; cbn; [constructor|].
  destruct (String.eqb n k); constructor; auto.
Qed.
Lemma no_numbers : numbers no_props.
Proof. intros e. discriminate. Qed.

Lemma add_signal_numbers D k f ok D' f' :
  add_signal D k f = (ok, D', f') -> numbers f -> nds D -> nds D' /\ numbers f'.
Proof.
  unfold add_signal, nds. intros E F N. destruct (assoc k (d_signals D)) as [d|] eqn:A.
  - destruct (merge f d) as [[o f0] d0] eqn:M. injection E as <- <- <-.
    destruct (numbers_merge _ _ _ _ _ M F (assoc_numbers _ _ _ N A)). cbn. split; [|assumption].
    apply set_assoc_numbers; assumption.
  - destruct (d_locked D).
    + injection E as <- <- <-. auto.
    + destruct (merge f no_props) as [[o f0] d0] eqn:M. injection E as <- <- <-.
      destruct (numbers_merge _ _ _ _ _ M F no_numbers). cbn. split; [|assumption].
      apply Forall_app. split; [assumption|]. constructor; [assumption|constructor].
Qed.

Lemma find_nds n l D : Forall nds l -> find_ds n l = Some D -> nds D.
Proof.
  induction 1 as [|X l H F IH]; cbn; [discriminate|]. destruct (String.eqb (d_name X) n); [|exact IH].
  intro E. injection E as <-. exact H.
Qed.
Lemma put_nds D l : Forall nds l -> nds D -> Forall nds (put_ds D l).
Proof.
  intros F H. induction F as [|X l Q F IH]; cbn; [constructor|].
  destruct (String.eqb (d_name X) (d_name D)); constructor; auto.
Qed.

Lemma resolve_signal_numbers def dss total f dss' total' r :
  resolve_signal def dss total f = Some (dss', total', r) ->
  sane_signal f -> Forall nds dss -> Forall nds dss'.
Proof.
  unfold resolve_signal. destruct (find_ds _ dss) as [D|] eqn:F; [|discriminate].
  destruct (add_signal D (q_key f) (q_props f)) as [[ok D'] p] eqn:A.
  destruct (match p_elems p with Some _ => _ | None => _ end) as [ok1 p1].
  destruct ok1; cbn [negb]; [|discriminate].
  destruct (memory_size _ _) as [[bytes offsets]|]; [|discriminate].
  destruct (_ =? 0); [discriminate|]. intros E (N & _) FD. injection E as <- <- <-.
  apply put_nds; [exact FD|].
  apply (add_signal_numbers _ _ _ _ _ _ A N (find_nds _ _ _ FD F)).
Qed.

Lemma resolve_signals_numbers def : forall fs dss total dss' total' rs,
  resolve_signals def dss total fs = Some (dss', total', rs) ->
  Forall sane_signal fs -> Forall nds dss -> Forall nds dss'.
Proof.
  induction fs as [|f fs IH]; intros dss total dss' total' rs; cbn [resolve_signals].
  - intros E _ H. injection E as <- <- <-. exact H.
  - destruct (resolve_signal def dss total f) as [[[d1 t1] r]|] eqn:R; [|discriminate].
    destruct (resolve_signals def d1 t1 fs) as [[[d2 t2] rs0]|] eqn:RR; [|discriminate].
    intros E SF H. injection E as <- <- <-. inversion SF as [|? ? S1 S2]; subst.
    eapply IH; [exact RR|exact S2|]. eapply resolve_signal_numbers; eassumption.
Qed.

Lemma resolve_numbers def : forall gs dss dss' rgs,
  resolve def dss gs = Some (dss', rgs) ->
  Forall (fun g => Forall sane_signal (g_in g) /\ Forall sane_signal (g_out g)) gs ->
  Forall nds dss -> Forall nds dss'.
Proof.
  induction gs as [|g gs IH]; intros dss dss' rgs; cbn [resolve].
  - intros E _ H. injection E as <- <-. exact H.
  - destruct (resolve_signals def dss 0 (g_in g)) as [[[d1 ti] ri]|] eqn:RI; [|discriminate].
    destruct (resolve_signals def d1 0 (g_out g)) as [[[d2 to] ro]|] eqn:RO; [|discriminate].
    destruct (resolve def d2 gs) as [[d3 rgs0]|] eqn:RG; [|discriminate].
    intros E ST H. injection E as <- <-. inversion ST as [|? ? (S1 & S2) S3]; subst.
    eapply IH; [exact RG|exact S3|]. eapply resolve_signals_numbers; [exact RO|exact S2|].
    eapply resolve_signals_numbers; eassumption.
Qed.

(** Every signal of the verified data sources. *)
Definition good (s : vsignal) : Prop :=
  (0 < v_elems s /\ uint32 (v_elems s)) /\ exists bits, type_bits (v_type s) = Some bits /\ v_bytes s = w32 (v_elems s * bits) / 8.

Lemma verify_good x s : verify_signal x = Some s -> numbers (snd x) -> good s.
Proof.
  destruct x as [n p]. cbn [verify_signal snd]. destruct (String.eqb n ""); [discriminate|].
  destruct (p_type p) as [t|] eqn:T; [|discriminate]. destruct (type_bits t) as [b|] eqn:B; [|discriminate].
  destruct (p_elems p) as [e|] eqn:PE.
  - destruct (e =? 0) eqn:Z0; [discriminate|]. intros E N. injection E as <-.
    pose proof (N e PE) as U. apply Z.eqb_neq in Z0. split; cbn; [split; [unfold uint32 in U; lia|exact U]|eauto].
  - cbn [Z.eqb]. intros E N. injection E as <-. split; cbn; [split; [lia|unfold uint32; lia]|eauto].
Qed.

Lemma map_opt_Forall {A B} (f : A -> option B) (P : A -> Prop) (Q : B -> Prop) :
  (forall x y, f x = Some y -> P x -> Q y) ->
  forall l r, map_opt f l = Some r -> Forall P l -> Forall Q r.
Proof.
  intro H. induction l as [|x l IH]; cbn; intros r E F.
  - injection E as <-. constructor.
  - inversion F; subst. destruct (f x) as [y|] eqn:X; [|discriminate].
    destruct (map_opt f l) as [r'|]; [|discriminate]. injection E as <-. constructor; eauto.
Qed.

Lemma verified_good dss v :
  map_opt verify_ds dss = Some v -> Forall nds dss -> Forall (fun x => Forall good (snd x)) v.
Proof.
  apply map_opt_Forall. intros D y E N. unfold verify_ds in E.
  destruct (map_opt verify_signal (d_signals D)) as [l|] eqn:M; [|discriminate]. injection E as <-. cbn.
  eapply map_opt_Forall; [|exact M|exact N]. intros x s V. exact (verify_good x s V).
Qed.

Lemma assoc_Forall {A} (P : A -> Prop) k (l : list (string * A)) x :
  Forall (fun y => P (snd y)) l -> assoc k l = Some x -> P x.
Proof.
  induction 1 as [|[n y] l H F IH]; cbn; [discriminate|]. destruct (String.eqb n k); [|exact IH].
  intro E. injection E as <-. exact H.
Qed.
Lemma signal_of_Forall (P : vsignal -> Prop) v n k s :
  Forall (fun x => Forall P (snd x)) v -> signal_of v n k = Some s -> P s.
Proof.
  intros F. unfold signal_of. destruct (assoc n v) as [vs|] eqn:A; [|discriminate].
  pose proof (assoc_Forall (Forall P) _ _ _ F A) as FP. intro E. apply find_some in E.
  rewrite Forall_forall in FP. apply FP, E.
Qed.

Lemma good_bytes s : good s -> 8 * size_in_ds s < 2 ^ 32 -> v_bytes s = size_in_ds s.
Proof.
  intros ((P & _) & bits & B & E). apply type_bits_size in B. destruct B as (-> & R1 & R2). unfold size_in_ds in *. intro L.
  rewrite E, w32_id.
  - replace (v_elems s * (8 * elem_size (v_type s))) with (v_elems s * elem_size (v_type s) * 8) by lia.
    apply Z.div_mul. lia.
  - nia.
Qed.

(** * Ranges *)

Definition cnt (rs : list (Z * Z)) : Z := fold_right (fun r n => snd r - fst r + 1 + n) 0 rs.
Definition legal (e : Z) (rs : list (Z * Z)) : Prop := Forall (fun r => 0 <= fst r <= snd r /\ snd r < e) rs.

Lemma range_legal bits e : forall rs acc total t,
  range_bytes bits e rs acc = Some (total, t) -> Forall (fun r => uint32 (fst r) /\ uint32 (snd r)) rs -> legal e rs.
Proof.
  induction rs as [|[lo hi] rs IH]; intros acc total t; cbn [range_bytes]; [constructor|].
  destruct (hi <? lo) eqn:A; [discriminate|]. destruct (e <=? hi) eqn:B; [discriminate|].
  destruct (range_bytes bits e rs _) as [[t0 l0]|] eqn:R; [|discriminate].
  intros E F. inversion F as [|? ? (U1 & U2) F']; subst. cbn in U1, U2. unfold uint32 in *.
  constructor; [cbn; lia|]. eapply IH; eassumption.
Qed.

Lemma cnt_nonneg e rs : legal e rs -> 0 <= cnt rs.
Proof. induction 1 as [|r rs H _ IH]; cbn [cnt fold_right]; [lia|]. fold (cnt rs). lia. Qed.

Lemma range_exact sz e : 0 <= sz -> e * (8 * sz) < 2 ^ 32 -> forall rs acc total t,
  range_bytes (8 * sz) e rs acc = Some (total, t) -> legal e rs -> 0 <= acc -> acc + cnt rs * sz < 2 ^ 32 ->
  e < 2 ^ 32 ->
  total = acc + cnt rs * sz /\ t = map (fun r => (fst r * sz, (snd r - fst r + 1) * sz)) rs.
Proof.
  intros S0 SE. induction rs as [|[lo hi] rs IH]; intros acc total t E L A B U.
  - cbn in *. injection E as <- <-. split; [lia|reflexivity].
  - inversion L as [|? ? (L1 & L2) L']; subst. cbn in L1, L2.
    cbn [range_bytes] in E. destruct (hi <? lo); [discriminate|]. destruct (e <=? hi); [discriminate|].
    pose proof (cnt_nonneg e rs L') as CN. cbn [cnt fold_right] in B |- *. fold (cnt rs) in B |- *. cbn [fst snd] in B |- *.
    assert (W1 : w32 (hi - lo + 1) = hi - lo + 1) by (apply w32_id; lia).
    assert (W2 : w32 ((hi - lo + 1) * (8 * sz)) = (hi - lo + 1) * (8 * sz)) by (apply w32_id; nia).
    assert (W3 : w32 (lo * (8 * sz)) = lo * (8 * sz)) by (apply w32_id; nia).
    rewrite W1, W2, W3 in E.
    replace ((hi - lo + 1) * (8 * sz) / 8) with ((hi - lo + 1) * sz) in E
      by (replace ((hi - lo + 1) * (8 * sz)) with ((hi - lo + 1) * sz * 8) by lia; rewrite Z.div_mul; lia).
    replace (lo * (8 * sz) / 8) with (lo * sz) in E
      by (replace (lo * (8 * sz)) with (lo * sz * 8) by lia; rewrite Z.div_mul; lia).
    assert (W4 : w32 (acc + (hi - lo + 1) * sz) = acc + (hi - lo + 1) * sz) by (apply w32_id; nia).
    rewrite W4 in E. destruct (range_bytes (8 * sz) e rs _) as [[t0 l0]|] eqn:R; [|discriminate].
    injection E as <- <-. destruct (IH _ _ _ R L') as (T & LL); [nia|nia|lia|].
    subst. split; [lia|reflexivity].
Qed.

(** * One signal *)

(** What the function has of the signal [s]. *)
Definition exact (f : fsignal) (s : vsignal) (r : rsignal) : Prop :=
  r_bytes r = wanted_elems f s * elem_size (v_type s) /\
  r_offsets r = byte_ranges f s /\
  0 <= wanted_elems f s /\
  Forall (fun x => 0 <= fst x /\ 0 <= snd x /\ fst x + snd x <= size_in_ds s) (r_offsets r) /\
  fold_right (fun x n => snd x + n) 0 (r_offsets r) = r_bytes r /\
  r_offsets r <> [] /\
  (0 < elem_size (v_type s) -> Forall (fun x => 0 < snd x) (r_offsets r)).

Lemma made_exact f s r :
  sane_signal f -> good s -> 8 * size_in_ds s < 2 ^ 32 ->
  p_type (r_props r) = Some (v_type s) -> p_elems (r_props r) = Some (v_elems s) ->
  memory_size (r_props r) (q_ranges f) = Some (r_bytes r, r_offsets r) ->
  wanted_elems f s * elem_size (v_type s) < 2 ^ 32 ->
  exact f s r.
Proof.
  intros (_ & _ & SR) G L T E M W. destruct G as ((P & U) & bits & B & _).
  unfold memory_size in M. rewrite T, E, B in M.
  apply type_bits_size in B. destruct B as (-> & R1 & R2).
  unfold exact, wanted_elems, byte_ranges, size_in_ds in *.
  set (z := elem_size (v_type s)) in *. set (e := v_elems s) in *. clearbody z e.
  destruct (q_ranges f) as [rs|].
  - destruct SR as (NE & FU).
    destruct rs as [|r0 rs0]; [congruence|]. set (rs := r0 :: rs0) in *.
    assert (M' : range_bytes (8 * z) e rs 0 = Some (r_bytes r, r_offsets r)) by exact M. clear M.
    pose proof (range_legal _ _ _ _ _ _ M' FU) as LG.
    pose proof (cnt_nonneg _ _ LG) as CN. fold (cnt rs) in W |- *.
    destruct (range_exact z e ltac:(lia) ltac:(nia) rs 0 _ _ M' LG ltac:(lia) ltac:(lia) ltac:(unfold uint32 in U; lia)) as (TB & TO).
    split; [lia|]. split; [exact TO|]. split; [exact CN|].
    rewrite TO. split.
    + apply Forall_map. eapply Forall_impl; [|exact LG]. intros x ((X1 & X2) & X3). cbn. split; [nia|]. split; nia.
    + split.
      * rewrite TB. clear - CN. clearbody rs. clear CN. rewrite Z.add_0_l. induction rs as [|x l IH]; [reflexivity|].
        cbn [map fold_right cnt snd]. fold (cnt l). rewrite IH. lia.
      * split; [rewrite <- TO; unfold rs in TO; rewrite TO; discriminate|].
        intro ZP. apply Forall_map. eapply Forall_impl; [|exact LG]. intros x ((X1 & X2) & X3). cbn. nia.
  - assert (W2 : w32 (e * (8 * z)) / 8 = e * z).
    { rewrite w32_id by nia. replace (e * (8 * z)) with (e * z * 8) by lia. apply Z.div_mul. lia. }
    rewrite W2 in M. injection M as <- <-.
    split; [reflexivity|]. split; [reflexivity|]. split; [lia|]. split; [constructor; [cbn; nia|constructor]|].
    split; [cbn; lia|]. split; [discriminate|]. intro ZP. constructor; [cbn; nia|constructor].
Qed.

(** * Blocks *)

Lemma sum_nonneg l : Forall (fun z => 0 <= z) l -> 0 <= sum l.
Proof. induction 1; cbn [sum fold_right]; [lia|]. fold (sum l). lia. Qed.

Lemma blocks_length sizes : forall st, List.length (blocks st sizes) = List.length sizes.
Proof. induction sizes as [|s l IH]; intro st; cbn; [reflexivity|]. f_equal. apply IH. Qed.

(** A block lies in the memory; two blocks do not overlap. *)
Lemma blocks_in : forall sizes st i o z,
  Forall (fun z => 0 <= z) sizes -> nth_error (blocks st sizes) i = Some o -> nth_error sizes i = Some z ->
  st <= o /\ o + z <= st + sum sizes.
Proof.
  induction sizes as [|s l IH]; intros st i o z F; [destruct i; discriminate|].
  inversion F as [|? ? P F']; subst. pose proof (sum_nonneg l F').
  destruct i as [|i]; cbn [blocks nth_error sum fold_right]; fold (sum l).
  - intros A B. injection A as <-. injection B as <-. lia.
  - intros A B. destruct (IH _ _ _ _ F' A B). lia.
Qed.
Lemma blocks_apart : forall sizes st i j o z o',
  Forall (fun z => 0 <= z) sizes -> (i < j)%nat ->
  nth_error (blocks st sizes) i = Some o -> nth_error sizes i = Some z ->
  nth_error (blocks st sizes) j = Some o' -> o + z <= o'.
Proof.
  induction sizes as [|s l IH]; intros st i j o z o' F LT; [destruct i; discriminate|].
  inversion F as [|? ? P F']; subst.
  destruct j as [|j]; [lia|]. destruct i as [|i]; cbn [blocks nth_error].
  - intros A B C. injection A as <-. injection B as <-.
    assert (exists z', nth_error l j = Some z') as (z' & Z').
    { destruct (nth_error l j) as [q|] eqn:Q; [eauto|]. apply nth_error_None in Q.
      assert (nth_error (blocks (st + s) l) j <> None) as NN by congruence.
      apply nth_error_Some in NN. rewrite blocks_length in NN. lia. }
    destruct (blocks_in l _ _ _ _ F' C Z'). lia.
  - intros A B C. eapply (IH _ i j); try eassumption; lia.
Qed.
