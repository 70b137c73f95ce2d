(** Proofs about the memory of the signals. *)
From Coq Require Import ZArith List Bool String Lia.
From Verif Require Import Base Broker_Model SigMem_Model SigMem_Spec.
Import ListNotations.
Open Scope string_scope. Open Scope Z_scope. Open Scope list_scope.

(** * Merging *)

Definition ext (p p' : props) : Prop :=
  (forall t, p_type p = Some t -> p_type p' = Some t) /\
  (forall n, p_dims p = Some n -> p_dims p' = Some n) /\
  (forall e, p_elems p = Some e -> p_elems p' = Some e).

Lemma ext_refl p : ext p p.
Proof. repeat split; auto. Qed.
Lemma ext_trans p q r : ext p q -> ext q r -> ext p r.
Proof. intros (A & B & C) (A' & B' & C'). repeat split; auto. Qed.
Lemma ext_none p : ext no_props p.
Proof. repeat split; discriminate. Qed.

Lemma merge1_some {A} (eqb : A -> A -> bool) (H : forall x y, eqb x y = true -> x = y) f d r :
  merge1 eqb f d = Some r ->
  (forall x, f = Some x -> r = Some x) /\ (forall x, d = Some x -> r = Some x).
Proof.
  unfold merge1. destruct f as [x|], d as [y|]; intro E.
  - destruct (eqb x y) eqn:Q; [|discriminate]. injection E as <-. rewrite (H _ _ Q). auto.
  - injection E as <-. split; [auto|discriminate].
  - injection E as <-. split; [discriminate|auto].
  - injection E as <-. split; discriminate.
Qed.
Lemma seqb x y : String.eqb x y = true -> x = y.
Proof. apply String.eqb_eq. Qed.
Lemma zeqb x y : Z.eqb x y = true -> x = y.
Proof. apply Z.eqb_eq. Qed.

Lemma merge_spec f d ok f' d' :
  merge f d = (ok, f', d') ->
  ext f f' /\ ext d d' /\ (ok = true -> p_type f' = p_type d' /\ p_elems f' = p_elems d') /\
  (p_type f = None -> p_dims f = None -> p_elems d <> None -> p_elems f' <> None \/ p_elems f <> None).
Proof.
  unfold merge. destruct f as [ft fn fe fv], d as [dt dn de dv]. cbn [p_type p_dims p_elems p_default].
  destruct (merge1 String.eqb ft dt) as [t|] eqn:T.
  2:{ intro E. injection E as <- <- <-. split; [apply ext_refl|]. split; [apply ext_refl|].
      split; [discriminate|]. cbn. intros -> _. unfold merge1 in T. discriminate. }
  apply (merge1_some _ seqb) in T. destruct T as (T1 & T2).
  destruct (merge1 Z.eqb fn dn) as [n|] eqn:N.
  2:{ intro E. injection E as <- <- <-. unfold ext; cbn. split; [auto|]. split; [auto|].
      split; [discriminate|]. intros _ ->. unfold merge1 in N. discriminate. }
  apply (merge1_some _ zeqb) in N. destruct N as (N1 & N2).
  destruct (merge1 Z.eqb fe de) as [e|] eqn:M.
  2:{ intro E. injection E as <- <- <-. unfold ext; cbn. split; [auto|]. split; [auto|].
      split; [discriminate|]. intros _ _ _. unfold merge1 in M. destruct fe; [left; discriminate|discriminate]. }
  apply (merge1_some _ zeqb) in M. destruct M as (M1 & M2).
  assert (X : de <> None -> e <> None) by (intro Q; destruct de as [z|]; [rewrite (M2 z eq_refl); discriminate|congruence]).
  destruct (merge1 String.eqb fv dv) as [v|] eqn:V; intro E; injection E as <- <- <-; unfold ext; cbn;
    (split; [auto|]; split; [auto|]; split; [auto|auto]).
Qed.

(** * Association lists *)

Lemma assoc_set {A} k (v : A) m l :
  assoc m (set_assoc k v l) =
  if String.eqb k m then match assoc k l with Some _ => Some v | None => None end else assoc m l.
Proof.
  induction l as [|[n x] l IH]; cbn.
  - destruct (String.eqb k m); reflexivity.
  - destruct (String.eqb n k) eqn:E; cbn.
    + apply String.eqb_eq in E. subst n. destruct (String.eqb k m); reflexivity.
    + rewrite IH. destruct (String.eqb n m) eqn:F; [|reflexivity].
      apply String.eqb_eq in F. subst n. rewrite String.eqb_sym, E. reflexivity.
Qed.

Lemma assoc_app {A} k (l l' : list (string * A)) :
  assoc k (l ++ l') = match assoc k l with Some v => Some v | None => assoc k l' end.
Proof.
  induction l as [|[n x] l IH]; cbn; [reflexivity|]. destruct (String.eqb n k); auto.
Qed.

Definition gr (D D' : dsource) : Prop :=
  d_name D' = d_name D /\
  forall k p, assoc k (d_signals D) = Some p -> exists p', assoc k (d_signals D') = Some p' /\ ext p p'.

Lemma gr_refl D : gr D D.
Proof. split; [reflexivity|]. intros k p H. exists p. split; [exact H|apply ext_refl]. Qed.
Lemma gr_trans D E F : gr D E -> gr E F -> gr D F.
Proof.
  intros (N & H) (N' & H'). split; [congruence|]. intros k p A.
  destruct (H _ _ A) as (p' & A' & X). destruct (H' _ _ A') as (q & A'' & X'). exists q. split; [exact A''|].
  eapply ext_trans; eauto.
Qed.

Lemma add_signal_spec D key f ok D' f' :
  add_signal D key f = (ok, D', f') ->
  gr D D' /\ ext f f' /\
  (ok = true -> exists d', assoc key (d_signals D') = Some d' /\ p_type f' = p_type d' /\ p_elems f' = p_elems d') /\
  (forall d, p_type f = None -> p_dims f = None -> assoc key (d_signals D) = Some d -> p_elems d <> None ->
     p_elems f' <> None).
Proof.
  unfold add_signal. destruct (assoc key (d_signals D)) as [d|] eqn:A.
  - destruct (merge f d) as [[ok0 f0] d0] eqn:M. intro E. injection E as <- <- <-.
    apply merge_spec in M. destruct M as (X & Y & O & P).
    split; [split; [reflexivity|]|split; [exact X|split]].
    + intros k p H. cbn. rewrite assoc_set. destruct (String.eqb key k) eqn:K.
      * apply String.eqb_eq in K. subst k. rewrite A. rewrite A in H. injection H as <-. eauto.
      * exists p. split; [exact H|apply ext_refl].
    + intro T. exists d0. cbn. rewrite assoc_set, String.eqb_refl, A. destruct (O T). auto.
    + intros d1 T N Q NE. injection Q as <-. destruct (P T N NE) as [?|NF]; [assumption|].
      destruct (p_elems f) as [e|] eqn:FE; [|congruence]. destruct X as (_ & _ & X). rewrite (X e FE). discriminate.
  - destruct (d_locked D) eqn:L.
    + intro E. injection E as <- <- <-. split; [apply gr_refl|]. split; [apply ext_refl|].
      split; [discriminate|]. intros d _ _ Q. discriminate.
    + destruct (merge f no_props) as [[ok0 f0] d0] eqn:M. intro E. injection E as <- <- <-.
      apply merge_spec in M. destruct M as (X & Y & O & P).
      split; [split; [reflexivity|]|split; [exact X|split]].
      * intros k p H. cbn. rewrite assoc_app, H. exists p. split; [reflexivity|apply ext_refl].
      * intro T. exists d0. cbn. rewrite assoc_app, A. cbn. rewrite String.eqb_refl. destruct (O T). auto.
      * intros d _ _ Q. discriminate.
Qed.

(** * The data sources *)

Definition grw (l l' : list dsource) : Prop :=
  forall n D, find_ds n l = Some D -> exists D', find_ds n l' = Some D' /\ gr D D'.
Lemma grw_refl l : grw l l.
Proof. intros n D H. exists D. split; [exact H|apply gr_refl]. Qed.
Lemma grw_trans l l' l'' : grw l l' -> grw l' l'' -> grw l l''.
Proof.
  intros A B n D H. destruct (A _ _ H) as (D' & H' & G). destruct (B _ _ H') as (D'' & H'' & G').
  exists D''. split; [exact H''|]. eapply gr_trans; eauto.
Qed.

Lemma find_ds_name n l D : find_ds n l = Some D -> d_name D = n.
Proof.
  induction l as [|X l IH]; cbn; [discriminate|].
  destruct (String.eqb (d_name X) n) eqn:E; [|exact IH]. intro H. injection H as <-. apply String.eqb_eq, E.
Qed.

Lemma find_put D' n l :
  find_ds n (put_ds D' l) =
  if String.eqb (d_name D') n then match find_ds n l with Some _ => Some D' | None => None end else find_ds n l.
Proof.
  induction l as [|X l IH]; cbn.
  - destruct (String.eqb (d_name D') n); reflexivity.
  - destruct (String.eqb (d_name X) (d_name D')) eqn:E; cbn.
    + apply String.eqb_eq in E. rewrite E. destruct (String.eqb (d_name D') n); reflexivity.
    + rewrite IH. destruct (String.eqb (d_name X) n) eqn:F; [|reflexivity].
      apply String.eqb_eq in F. subst n. rewrite String.eqb_sym, E. reflexivity.
Qed.

Lemma grw_put l D D' : find_ds (d_name D) l = Some D -> gr D D' -> grw l (put_ds D' l).
Proof.
  intros H G n X F. rewrite find_put. destruct G as (N & G). rewrite N.
  destruct (String.eqb (d_name D) n) eqn:E.
  - apply String.eqb_eq in E. subst n. rewrite F. rewrite H in F. injection F as <-.
    exists D'. split; [reflexivity|]. split; assumption.
  - exists X. split; [exact F|apply gr_refl].
Qed.

(** The function's and the data source's idea of the signal of [r]. *)
Definition agree1 (dss : list dsource) (r : rsignal) : Prop :=
  exists D d, find_ds (r_ds r) dss = Some D /\ assoc (r_key r) (d_signals D) = Some d /\
    p_type (r_props r) <> None /\ p_type d = p_type (r_props r) /\
    p_elems (r_props r) <> None /\ p_elems d = p_elems (r_props r).

Lemma agree1_grw l l' r : grw l l' -> agree1 l r -> agree1 l' r.
Proof.
  intros G (D & d & F & A & T & TE & N & NE).
  destruct (G _ _ F) as (D' & F' & _ & G'). destruct (G' _ _ A) as (d' & A' & X1 & _ & X3).
  exists D', d'. repeat (split; [assumption|]). split; [|split; [exact N|]].
  - destruct (p_type (r_props r)) as [t|]; [apply X1; exact TE|congruence].
  - destruct (p_elems (r_props r)) as [t|]; [apply X3; exact NE|congruence].
Qed.

Definition stated1 (def : string) (dss : list dsource) (f : fsignal) : Prop :=
  p_elems (q_props f) <> None \/
  (p_type (q_props f) = None /\ p_dims (q_props f) = None /\
   exists D p, find_ds (match q_ds f with Some n => n | None => def end) dss = Some D /\
               assoc (q_key f) (d_signals D) = Some p /\ p_elems p <> None).

Lemma stated1_grw def l l' f : grw l l' -> stated1 def l f -> stated1 def l' f.
Proof.
  intros G [H|(T & N & D & p & F & A & E)]; [left; exact H|right].
  destruct (G _ _ F) as (D' & F' & _ & G'). destruct (G' _ _ A) as (d' & A' & X1 & _ & X3).
  split; [exact T|]. split; [exact N|]. exists D', d'. split; [exact F'|]. split; [exact A'|].
  destruct (p_elems p) as [e|]; [|congruence]. rewrite (X3 e eq_refl). discriminate.
Qed.

(** What [r] is for [f]. *)
Definition made (def : string) (f : fsignal) (total : Z) (r : rsignal) : Prop :=
  r_ds r = match q_ds f with Some n => n | None => def end /\ r_key r = q_key f /\
  r_samples r = match q_samples f with Some n => n | None => 1 end /\ r_samples r <> 0 /\
  r_gam r = total /\
  memory_size (r_props r) (q_ranges f) = Some (r_bytes r, r_offsets r) /\
  ext (q_props f) (r_props r).

Lemma resolve_signal_spec def dss total f dss' total' r :
  resolve_signal def dss total f = Some (dss', total', r) ->
  grw dss dss' /\ made def f total r /\ total' = w32 (total + w32 (r_bytes r * r_samples r)) /\
  (stated1 def dss f -> agree1 dss' r).
Proof.
  unfold resolve_signal. set (name := match q_ds f with Some n => n | None => def end).
  destruct (find_ds name dss) as [D|] eqn:F; [|discriminate].
  destruct (add_signal D (q_key f) (q_props f)) as [[ok D'] p] eqn:A.
  apply add_signal_spec in A. destruct A as (G & X & O & P).
  pose proof (find_ds_name _ _ _ F) as DN.
  assert (GW : grw dss (put_ds D' dss)) by (apply (grw_put dss D D'); [rewrite DN; exact F|exact G]).
  set (q := match p_elems p with
            | None => (true, Props (p_type p) (p_dims p) (Some 1) (p_default p))
            | Some _ => (ok, p)
            end).
  destruct q as [ok1 p1] eqn:Q. destruct ok1; cbn [negb]; [|discriminate].
  set (p2 := match p_dims p1 with
             | None => Props (p_type p1) (Some 0) (p_elems p1) (p_default p1)
             | Some _ => p1
             end).
  destruct (memory_size p2 (q_ranges f)) as [[bytes offsets]|] eqn:MS; [|discriminate].
  set (samples := match q_samples f with Some n => n | None => 1 end).
  destruct (samples =? 0) eqn:SZ; [discriminate|].
  intro E. injection E as <- <- <-. cbn [r_bytes r_samples].
  split; [exact GW|].
  assert (X1 : ext p p1).
  { unfold q in Q. destruct (p_elems p) as [e|] eqn:PE; [injection Q as _ <-; apply ext_refl|injection Q as <-].
    unfold ext; cbn. rewrite PE. repeat split; auto; discriminate. }
  assert (X2 : ext p1 p2).
  { unfold p2. destruct (p_dims p1) as [e|] eqn:PE; [apply ext_refl|].
    unfold ext; cbn. rewrite PE. repeat split; auto; discriminate. }
  split.
  { unfold made; cbn. repeat (split; [reflexivity|]). split; [apply Z.eqb_neq; exact SZ|].
    split; [reflexivity|]. split; [exact MS|].
    eapply ext_trans; [exact X|]. eapply ext_trans; eassumption. }
  split; [reflexivity|]. intro ST.
  assert (NE : p_elems p <> None).
  { destruct ST as [ST|(T & N & D0 & d & F0 & A0 & E0)].
    - destruct X as (_ & _ & X). destruct (p_elems (q_props f)) as [e|] eqn:PE; [|congruence].
      rewrite (X e eq_refl). discriminate.
    - fold name in F0. rewrite F in F0. injection F0 as <-. exact (P d T N A0 E0). }
  unfold q in Q. destruct (p_elems p) as [e|] eqn:PE; [|congruence]. injection Q as -> <-.
  destruct (O eq_refl) as (d' & A' & TE & EE).
  assert (T2 : p_type p2 = p_type p /\ p_elems p2 = p_elems p) by (unfold p2; destruct (p_dims p); auto).
  destruct T2 as (T2 & E2).
  exists D', d'. cbn [r_ds r_key r_props]. split.
  { rewrite find_put. destruct G as (GN & _). rewrite GN, DN, String.eqb_refl, F. reflexivity. }
  split; [exact A'|].
  rewrite T2, E2. unfold memory_size in MS. rewrite T2, E2, PE in MS.
  destruct (p_type p) as [t|]; [|discriminate]. split; [discriminate|]. split; [congruence|].
  rewrite PE. split; [discriminate|]. congruence.
Qed.

(** * The signals of one direction *)

Fixpoint made_all (def : string) (fs : list fsignal) (total : Z) (rs : list rsignal) (total' : Z) : Prop :=
  match fs, rs with
  | [], [] => total' = total
  | f :: fs', r :: rs' =>
      made def f total r /\ made_all def fs' (w32 (total + w32 (r_bytes r * r_samples r))) rs' total'
  | _, _ => False
  end.

Lemma resolve_signals_spec def : forall fs dss total dss' total' rs,
  resolve_signals def dss total fs = Some (dss', total', rs) ->
  grw dss dss' /\ made_all def fs total rs total' /\
  (Forall (stated1 def dss) fs -> Forall (agree1 dss') rs).
Proof.
  induction fs as [|f fs IH]; intros dss total dss' total' rs; cbn [resolve_signals].
  - intro E. injection E as <- <- <-. split; [apply grw_refl|]. split; [reflexivity|]. constructor.
  - destruct (resolve_signal def dss total f) as [[[d1 t1] r]|] eqn:R; [|discriminate].
    destruct (resolve_signals def d1 t1 fs) as [[[d2 t2] rs0]|] eqn:RR; [|discriminate].
    intro E. injection E as <- <- <-.
    apply resolve_signal_spec in R. destruct R as (G & M & T & A).
    destruct (IH _ _ _ _ _ RR) as (G' & MA & AA).
    split; [eapply grw_trans; eassumption|]. split; [cbn; rewrite <- T; auto|].
    intro ST. inversion ST as [|? ? S1 S2]; subst. constructor.
    + eapply agree1_grw; [exact G'|]. auto.
    + apply AA. eapply Forall_impl; [|exact S2]. intros x. apply stated1_grw. exact G.
Qed.

(** * All functions *)

Definition dir_ok (def : string) (dss : list dsource) (fs : list fsignal) (rs : list rsignal) (total : Z) : Prop :=
  made_all def fs 0 rs total /\ Forall (agree1 dss) rs.

Lemma resolve_spec def : forall gs dss dss' rgs,
  resolve def dss gs = Some (dss', rgs) ->
  Forall (fun g => Forall (stated1 def dss) (g_in g) /\ Forall (stated1 def dss) (g_out g)) gs ->
  grw dss dss' /\
  Forall2 (fun g rg => dir_ok def dss' (g_in g) (rg_in rg) (rg_in_bytes rg) /\
                       dir_ok def dss' (g_out g) (rg_out rg) (rg_out_bytes rg)) gs rgs.
Proof.
  induction gs as [|g gs IH]; intros dss dss' rgs; cbn [resolve].
  - intros E _. injection E as <- <-. split; [apply grw_refl|constructor].
  - destruct (resolve_signals def dss 0 (g_in g)) as [[[d1 ti] ri]|] eqn:RI; [|discriminate].
    destruct (resolve_signals def d1 0 (g_out g)) as [[[d2 to] ro]|] eqn:RO; [|discriminate].
    destruct (resolve def d2 gs) as [[d3 rgs0]|] eqn:RG; [|discriminate].
    intros E ST. injection E as <- <-.
    inversion ST as [|? ? (S1 & S2) S3]; subst.
    apply resolve_signals_spec in RI. destruct RI as (G1 & M1 & A1).
    apply resolve_signals_spec in RO. destruct RO as (G2 & M2 & A2).
    assert (G12 : grw dss d2) by (eapply grw_trans; eassumption).
    destruct (IH _ _ _ RG) as (G3 & F).
    { eapply Forall_impl; [|exact S3]. intros x (P & Q). split; (eapply Forall_impl; [|eassumption]);
        intros y; apply stated1_grw; exact G12. }
    split; [eapply grw_trans; eassumption|]. constructor; [|exact F]. unfold dir_ok. cbn. split; split.
    + exact M1.
    + eapply Forall_impl; [|exact (A1 S1)]. intros x. apply agree1_grw. eapply grw_trans; eassumption.
    + exact M2.
    + eapply Forall_impl; [|apply A2; eapply Forall_impl; [|exact S2]; intros x; apply stated1_grw; exact G1].
      intros x. apply agree1_grw. exact G3.
Qed.

(** * Verification of the data sources *)

Lemma verify_ds_find n : forall dss v D,
  map_opt verify_ds dss = Some v -> find_ds n dss = Some D ->
  exists vs, assoc n v = Some vs /\ map_opt verify_signal (d_signals D) = Some vs.
Proof.
  induction dss as [|X dss IH]; cbn; [discriminate|]. intros v D.
  destruct (verify_ds X) as [[m vs]|] eqn:V; [|discriminate].
  destruct (map_opt verify_ds dss) as [r|]; [|discriminate]. intro E. injection E as <-.
  unfold verify_ds in V. destruct (map_opt verify_signal (d_signals X)) as [l|] eqn:L; [|discriminate].
  injection V as <- <-. cbn. destruct (String.eqb (d_name X) n).
  - intro E. injection E as <-. eauto.
  - apply IH. reflexivity.
Qed.

Lemma verify_signal_name x s : verify_signal x = Some s -> v_name s = fst x.
Proof.
  destruct x as [n p]. cbn [verify_signal fst]. destruct (String.eqb n ""); [discriminate|].
  destruct (p_type p) as [t|]; [|discriminate]. destruct (type_bits t) as [b|]; [|discriminate].
  destruct (_ =? 0); [discriminate|]. intro E. injection E as <-. reflexivity.
Qed.

Lemma verify_find k : forall l vs p,
  map_opt verify_signal l = Some vs -> assoc k l = Some p ->
  exists s, List.find (fun s => String.eqb (v_name s) k) vs = Some s /\ verify_signal (k, p) = Some s.
Proof.
  induction l as [|[n q] l IH]; cbn [map_opt assoc]; [discriminate|]. intros vs p.
  destruct (verify_signal (n, q)) as [s|] eqn:V; [|discriminate].
  destruct (map_opt verify_signal l) as [r|]; [|discriminate]. intro E. injection E as <-.
  pose proof (verify_signal_name _ _ V) as N. cbn [fst] in N. cbn [List.find]. rewrite N.
  destruct (String.eqb n k) eqn:K; [|intro E; exact (IH _ _ eq_refl E)].
  apply String.eqb_eq in K. subst n. intro E. injection E as <-. exists s. split; [reflexivity|rewrite K in V; exact V].
Qed.

Definition verified_as (p : props) (s : vsignal) : Prop :=
  p_type p = Some (v_type s) /\ (forall e, p_elems p = Some e -> v_elems s = e) /\ v_elems s <> 0 /\
  exists bits, type_bits (v_type s) = Some bits /\ v_bytes s = w32 (v_elems s * bits) / 8.

Lemma verify_signal_spec x s : verify_signal x = Some s -> verified_as (snd x) s.
Proof.
  destruct x as [n p]. cbn [verify_signal snd]. destruct (String.eqb n ""); [discriminate|].
  destruct (p_type p) as [t|] eqn:T; [|discriminate]. destruct (type_bits t) as [b|] eqn:B; [|discriminate].
  destruct (_ =? 0) eqn:Z0; [discriminate|]. intro E. injection E as <-. unfold verified_as; cbn.
  split; [exact T|]. split; [|split; [apply Z.eqb_neq; exact Z0|eauto]].
  intros e H. rewrite H. reflexivity.
Qed.

Lemma signal_of_final v dss D n k p :
  map_opt verify_ds dss = Some v -> find_ds n dss = Some D -> assoc k (d_signals D) = Some p ->
  exists s, signal_of v n k = Some s /\ verified_as p s.
Proof.
  intros V F A. destruct (verify_ds_find _ _ _ _ V F) as (vs & AV & MV).
  destruct (verify_find _ _ _ _ MV A) as (s & FS & VS).
  exists s. unfold signal_of. rewrite AV. split; [exact FS|]. apply (verify_signal_spec _ _ VS).
Qed.
