(** Proofs about the pool of the fast scheduler: the records of the pool threads. *)
From Coq Require Import Lia.
From Verif Require Import Base Fmap_Model Fmap_Spec Fmap_Proofs Fmap_Proofs2.
Open Scope nat_scope.

(** * The pool threads of a state are distinct *)
Lemma create_free : forall prev cur ms cpu cur' ms' h, create_map prev cur ms cpu = Some (cur', ms', h) ->
  cur' = set_nth cur h cpu /\ h < length cur /\ cell cur h = all_cpus /\ length ms' = length ms.
Proof.
  intros prev cur ms cpu cur' ms' h H. unfold create_map in H.
  pose proof (scan_spec prev cur cpu cur 0 None ltac:(reflexivity) ltac:(reflexivity)) as SC.
  destruct (scan prev cur 0 cpu None) as [[f|] o].
  - injection H as <- <- <-. destruct SC as [[_ A] [B _]]. auto.
  - destruct o as [f|]; [|discriminate]. injection H as <- <- <-. destruct SC as (_ & [_ A] & [B _] & _).
    rewrite set_nth_length. auto.
Qed.
Lemma row_distinct : forall prev todo cur ms cur' ms' l, (forall c, In c todo -> c <> all_cpus) ->
  map_row prev cur ms todo = Some (cur', ms', l) ->
  NoDup l /\ length l = length todo /\ length ms' = length ms /\ (forall h, In h l -> h < length cur /\ cell cur h = all_cpus).
Proof.
  intros prev todo; induction todo as [|cpu todo IH]; intros cur ms cur' ms' l Ha H.
  - injection H as <- <- <-. split; [constructor|]. split; [reflexivity|]. split; [reflexivity|]. intros h [].
  - cbn [map_row] in H. destruct (create_map prev cur ms cpu) as [[[c1 m1] h]|] eqn:EC; [|discriminate].
    destruct (create_free _ _ _ _ _ _ _ EC) as (-> & Hh & Hf & Lm).
    destruct (map_row prev (set_nth cur h cpu) m1 todo) as [[[c2 m2] l2]|] eqn:ER; [|discriminate]. injection H as <- <- <-.
    destruct (IH _ _ _ _ _ (fun c Hc => Ha c (or_intror Hc)) ER) as (A & B & C & D). rewrite set_nth_length in D.
    split; [|split; [cbn; congruence|split; [congruence|]]].
    + constructor; [|exact A]. intros X. destruct (D h X) as [_ Y]. rewrite cell_set_eq in Y by exact Hh. exact (Ha cpu (or_introl eq_refl) Y).
    + intros k [<-|Hk]; [auto|]. destruct (D k Hk) as [D1 D2]. split; [exact D1|].
      destruct (Nat.eq_dec h k) as [<-|N]; [exact Hf|]. rewrite cell_set_neq in D2 by exact N. exact D2.
Qed.
Lemma rows_distinct : forall n rows prev ms ms' ls, (forall r c, In r rows -> In c r -> c <> all_cpus) ->
  map_rows n prev rows ms = Some (ms', ls) ->
  Forall2 (fun row l => NoDup l /\ length l = length row /\ (forall h, In h l -> h < n)) rows ls /\ length ms' = length ms.
Proof.
  intros n rows; induction rows as [|row rows IH]; intros prev ms ms' ls Ha H.
  - injection H as <- <-. split; [constructor|reflexivity].
  - cbn [map_rows] in H. destruct (map_row prev (repeat all_cpus n) ms row) as [[[c1 m1] l]|] eqn:ER; [|discriminate].
    destruct (map_rows n (prev ++ [c1]) rows m1) as [[m2 ls2]|] eqn:EM; [|discriminate]. injection H as <- <-.
    destruct (row_distinct _ _ _ _ _ _ _ (fun c Hc => Ha row c (or_introl eq_refl) Hc) ER) as (A & B & C & D).
    destruct (IH _ _ _ _ (fun r c Hr Hc => Ha r c (or_intror Hr) Hc) EM) as [F L].
    split; [|congruence]. constructor; [|exact F]. split; [exact A|]. split; [exact B|].
    intros h Hh. destruct (D h Hh) as [X _]. rewrite repeat_length in X. exact X.
Qed.

(** * The records *)
Lemma assign_ok : forall ths l tab, NoDup l -> length l = length ths -> (forall h, In h l -> h < length tab) ->
  exists tab', assign tab l ths = Some tab' /\ length tab' = length tab
    /\ (forall j t p, nth_error ths j = Some t -> nth_error l j = Some p -> nth_error tab' p = Some (Some (work t)))
    /\ (forall p, ~ In p l -> nth_error tab' p = nth_error tab p).
Proof.
  induction ths as [|t ths IH]; intros l tab ND L B.
  - destruct l; [|discriminate]. exists tab. split; [reflexivity|]. split; [reflexivity|]. split; [|auto].
    intros [|j] t p H; discriminate.
  - destruct l as [|h l]; [discriminate|]. cbn [assign]. inversion ND as [|h' l' Nh ND']; subst.
    destruct (Nat.ltb_spec h (length tab)) as [Hh|Hh]; [|specialize (B h (or_introl eq_refl)); lia].
    destruct (IH l (set_nth tab h (Some (work t))) ND' ltac:(cbn in L; lia)) as (tab' & E & L' & P & Q).
    { intros k Hk. rewrite set_nth_length. apply B. right; exact Hk. }
    exists tab'. split; [exact E|]. rewrite set_nth_length in L'. split; [exact L'|]. split.
    + intros [|j] u p H1 H2.
      * cbn in H1, H2. injection H1 as <-. injection H2 as <-. rewrite Q by exact Nh. apply set_nth_error_eq. exact Hh.
      * apply (P j); assumption.
    + intros p Np. rewrite Q by (intros X; apply Np; right; exact X). apply set_nth_error_neq. intros <-. apply Np. left; reflexivity.
Qed.
Lemma nth_error_repeat_none : forall n p w, nth_error (repeat (@None (list nat)) n) p = Some (Some w) -> False.
Proof. intros n p w H. apply nth_error_In in H. apply repeat_spec in H. discriminate. Qed.
Lemma assign_works : forall n ths l, NoDup l -> length l = length ths -> (forall h, In h l -> h < n) ->
  exists tab, assign (repeat None n) l ths = Some tab /\ length tab = n /\ works tab ths l.
Proof.
  intros n ths l ND L B. destruct (assign_ok ths l (repeat None n) ND L) as (tab & E & Lt & P & Q).
  { intros h Hh. rewrite repeat_length. apply B. exact Hh. }
  exists tab. rewrite repeat_length in Lt. split; [exact E|]. split; [exact Lt|]. split; [exact ND|]. split; [exact L|]. split; [exact P|].
  intros p w H. destruct (in_dec Nat.eq_dec p l) as [I|N]; [exact I|]. exfalso. rewrite Q in H by exact N. exact (nth_error_repeat_none _ _ _ H).
Qed.

Lemma Forall2_nth : forall A B (P : A -> B -> Prop) l m, Forall2 P l m -> forall i a, nth_error l i = Some a -> exists b, nth_error m i = Some b /\ P a b.
Proof.
  intros A B P l m F; induction F as [|x y l m H F IH]; intros [|i] a E; try discriminate.
  - injection E as <-. exists y. auto.
  - apply IH. exact E.
Qed.
Lemma no_all_rows : forall app, no_all app -> forall r c, In r (map masks_of app) -> In c r -> c <> all_cpus.
Proof.
  intros app H r c Hr Hc. apply in_map_iff in Hr. destruct Hr as (s & <- & Hs). unfold masks_of in Hc. apply in_map_iff in Hc.
  destruct Hc as (t & <- & Ht). exact (H s t Hs Ht).
Qed.
Lemma growing_rows : forall app, growing app -> forall b u a r c, map masks_of app = b ++ u :: a -> a <> [] -> In r b -> cnt r c <= cnt u c.
Proof.
  intros app G b u a r c E N H. apply In_nth_error in H. destruct H as [i Hi].
  assert (i < length b) as Li by (apply nth_error_Some; congruence).
  assert (nth_error (map masks_of app) i = Some r) as Ri by (rewrite E, nth_error_app1; assumption).
  assert (nth_error (map masks_of app) (length b) = Some u) as Ru by (rewrite E, nth_error_app2, Nat.sub_diag; [reflexivity|lia]).
  rewrite nth_error_map in Ri, Ru. destruct (nth_error app i) as [s|] eqn:Ei; [|discriminate]. destruct (nth_error app (length b)) as [v|] eqn:Ev; [|discriminate].
  cbn in Ri, Ru. injection Ri as <-. injection Ru as <-. unfold masks_of. apply (G i (length b) s v c); try assumption; [lia|].
  assert (length (map masks_of app) = length b + S (length a)) as L by (rewrite E, app_length; reflexivity).
  rewrite map_length in L. destruct a; [congruence|cbn in L; lia].
Qed.

Lemma setup_distinct : forall app p, no_all app -> setup app = Some p ->
  length (pmask p) = max_threads [] (map masks_of app) /\
  forall i ths, nth_error app i = Some ths -> exists tab own, prepare app p i = Some tab /\ length tab = length (pmask p)
     /\ nth_error (pmap p) i = Some own /\ works tab ths own.
Proof.
  intros app p NA H. unfold setup in H. set (n := max_threads [] (map masks_of app)) in *.
  destruct (map_rows n [] (map masks_of app) (repeat None n)) as [[ms l]|] eqn:E; [|discriminate]. injection H as <-.
  destruct (rows_distinct _ _ _ _ _ _ (no_all_rows app NA) E) as [F L]. rewrite repeat_length in L. cbn [pmask pmap]. split; [exact L|].
  intros i ths Hi. destruct (Forall2_nth _ _ _ _ _ F i (masks_of ths)) as (own & Ho & A & B & C).
  { rewrite nth_error_map, Hi. reflexivity. }
  unfold masks_of in B. rewrite map_length in B.
  destruct (assign_works n ths own A B C) as (tab & T & Lt & W).
  exists tab, own. unfold prepare. cbn [pmap pmask]. rewrite Hi, Ho, L. split; [exact T|]. split; [exact Lt|]. split; [reflexivity|exact W].
Qed.

Lemma setup_growing : forall app, no_all app -> growing app -> exists p, setup app = Some p /\
  forall i ths own, nth_error app i = Some ths -> nth_error (pmap p) i = Some own -> pinned (pmask p) ths own.
Proof.
  intros app NA G. set (n := max_threads [] (map masks_of app)).
  destruct (rows_ok n (map masks_of app) (map masks_of app) [] [] []) as (ext & ls & E & F & L).
  - reflexivity.
  - reflexivity.
  - apply no_all_rows. exact NA.
  - apply growing_rows. exact G.
  - cbn; lia.
  - constructor.
  - intros r [].
  - intros _ h Hh. cbn in Hh. lia.
  - intros h Hh. cbn in Hh. lia.
  - intros c. cbn. lia.
  - change ([] ++ ext)%list with ext in E, F, L. exists (Pool (masks_list n ext) ls). split.
    + unfold setup. fold n. change (repeat None n) with (map (@Some Z) [] ++ repeat None n). unfold masks_list in E. cbn [length] in E.
      rewrite Nat.sub_0_r in E. rewrite E. reflexivity.
    + intros i ths own Hi Ho. cbn [pmap pmask] in *. destruct (Forall2_nth _ _ _ _ _ F i (masks_of ths)) as (own' & Ho' & ND & P).
      { rewrite nth_error_map, Hi. reflexivity. }
      assert (own' = own) as -> by congruence.
      intros j t q Hj Hq. destruct (Forall2_nth _ _ _ _ _ P j (mask t)) as (q' & Hq' & A & B).
      { unfold masks_of. rewrite nth_error_map, Hj. reflexivity. }
      assert (q' = q) as -> by congruence. rewrite masks_list_nth by exact A. congruence.
Qed.
