(** C31: proofs. *)
From Coq Require Import String Ascii.
From Verif Require Import Base Paths ConfigDB_Model ConfigDB_Spec.
Open Scope string_scope. Open Scope nat_scope. Open Scope list_scope.

(** ** Lists and paths *)
Lemma strip_spec p : forall q r, strip p q = Some r <-> q = p ++ r.
Proof.
  induction p as [|x p IH]; intros q r; cbn [strip app]; [split; congruence|]. destruct q as [|y q]; [split; discriminate|]. destruct (String.eqb_spec x y) as [-> |N].
  - rewrite IH. split; congruence.
  - split; [discriminate|]. intro E. injection E as E1 E2. congruence.
Qed.
Lemma strip_none p q : strip p q = None <-> forall r, q <> p ++ r.
Proof.
  split; [intros E r Q; apply strip_spec in Q; congruence|]. intro N. destruct (strip p q) as [r|] eqn:E; [|reflexivity]. apply strip_spec in E. exfalso. exact (N r E).
Qed.
Lemma path_eqb_spec p q : path_eqb p q = true <-> p = q.
Proof.
  unfold path_eqb. destruct (strip p q) as [[|x r]|] eqn:E.
  - apply strip_spec in E. rewrite app_nil_r in E. split; [congruence|reflexivity].
  - apply strip_spec in E. split; [discriminate|]. intro Q. exfalso. rewrite <- Q in E. clear Q. rewrite <- (app_nil_r p) in E at 1. apply app_inv_head in E. discriminate.
  - split; [discriminate|]. intro Q. pose proof (proj1 (strip_none _ _) E []) as E0. rewrite app_nil_r in E0. congruence.
Qed.
Lemma path_eqb_refl p : path_eqb p p = true. Proof. apply path_eqb_spec. reflexivity. Qed.
Lemma path_eqb_neq p q : p <> q -> path_eqb p q = false.
Proof. intro N. destruct (path_eqb p q) eqn:E; [|reflexivity]. apply path_eqb_spec in E. contradiction. Qed.
Lemma snoc_app {A} (p : list A) n r : (p ++ [n]) ++ r = p ++ n :: r. Proof. rewrite <- app_assoc. reflexivity. Qed.
Lemma snoc_nil {A} (p : list A) n : p ++ [n] <> []. Proof. destruct p; discriminate. Qed.
Lemma app_self {A} (p : list A) n r : p <> p ++ n :: r.
Proof. intro E. rewrite <- (app_nil_r p) in E at 1. apply app_inv_head in E. discriminate. Qed.

Section DB.
Context {V : Type} (H : string -> Z) (U : list string).
Hypothesis inj : distinct_hashes H U.
Notation heap := (heap V). Notation ref := (ref V).
Fixpoint ixs (k : nat) (l : list Z) : list (Z * nat) := match l with [] => [] | x :: r => (x, k) :: ixs (S k) r end.
Lemma ixs_snoc l : forall k x, ixs k (l ++ [x]) = ixs k l ++ [(x, k + List.length l)].
Proof. induction l as [|y l IH]; intros k x; cbn [app ixs List.length]; [rewrite Nat.add_0_r; reflexivity|]. rewrite IH. rewrite Nat.add_succ_r. reflexivity. Qed.
Lemma put_same (h : heap) i n : put h i n i = n. Proof. unfold put. rewrite Nat.eqb_refl. reflexivity. Qed.
Lemma put_other (h : heap) i n j : j <> i -> put h i n j = h j. Proof. intro N. unfold put. rewrite (proj2 (Nat.eqb_neq j i) N). reflexivity. Qed.

Record wf (h : heap) (nx : nat) : Prop := {
  w_pos : 0 < nx;
  w_root : par (h 0) = None;
  w_bt : forall i, i < nx -> bt (h i) = ixs 0 (map (fun r => H (rname h r)) (cont (h i)));
  w_nodup : forall i, i < nx -> NoDup (map (rname h) (cont (h i)));
  w_ok : forall i r, i < nx -> In r (cont (h i)) -> In (rname h r) U;
  w_kid : forall i c, i < nx -> In (RNode c) (cont (h i)) -> i < c < nx /\ par (h c) = Some i;
  w_mx : forall i, i < nx -> List.length (cont (h i)) <= mx (h i) }.

Definition is (h : heap) (t : string) (r : ref) : bool := String.eqb (rname h r) t.
Definition child (h : heap) (i : nat) (t : string) : option ref := List.find (is h t) (cont (h i)).
Lemma bt_find (h : heap) t l : In t U -> (forall r, In r l -> In (rname h r) U) -> forall k,
  match bt_search (ixs k (map (fun r => H (rname h r)) l)) (H t) with
  | None => List.find (is h t) l = None
  | Some j => k <= j < k + List.length l /\ nth_error l (j - k) = List.find (is h t) l /\ List.find (is h t) l <> None
  end.
Proof.
  intros T. induction l as [|r l IH]; intros A k; [reflexivity|]. cbn [map ixs bt_search List.find List.length]. destruct (Z.eqb_spec (H (rname h r)) (H t)) as [E|N].
  - assert (Q : rname h r = t) by (apply inj; [apply A; left; reflexivity|exact T|exact E]). unfold is at 1 3. rewrite Q, String.eqb_refl. split; [lia|]. rewrite Nat.sub_diag. split; [reflexivity|discriminate].
  - assert (Q : is h t r = false) by (unfold is; apply String.eqb_neq; congruence). rewrite Q. specialize (IH (fun r0 R => A r0 (or_intror R)) (S k)). destruct (bt_search _ _) as [j|]; [|exact IH].
    destruct IH as (L & E & F). split; [lia|]. replace (j - k) with (S (j - S k)) by lia. auto.
Qed.
Lemma search_child h nx i t : wf h nx -> i < nx -> In t U -> search H h i t = child h i t.
Proof.
  intros W L T. unfold search, child. rewrite (w_bt h nx W i L). pose proof (bt_find h t (cont (h i)) T (fun r R => w_ok h nx W i r L R) 0) as B. destruct (bt_search _ _) as [j|]; [|congruence].
  destruct B as (_ & E & _). rewrite <- E, Nat.sub_0_r. reflexivity.
Qed.
Lemma child_in h i t r : child h i t = Some r -> In r (cont (h i)) /\ rname h r = t.
Proof. intro E. apply find_some in E. destruct E as [E F]. apply String.eqb_eq in F. auto. Qed.
Lemma child_of h nx i r : wf h nx -> i < nx -> In r (cont (h i)) -> child h i (rname h r) = Some r.
Proof.
  intros W L I. unfold child. pose proof (w_nodup h nx W i L) as N. revert N I. generalize (cont (h i)). induction l as [|x l IH]; intros N I; [destruct I|]. cbn [map] in N. inversion N as [|? ? N1 N2]; subst. cbn [List.find]. unfold is at 1.
  destruct I as [-> |I]; [rewrite String.eqb_refl; reflexivity|]. rewrite (proj2 (String.eqb_neq _ _)); [apply IH; assumption|]. intro C. apply N1. rewrite C. apply in_map. exact I.
Qed.

(** ** What is at a path *)
Fixpoint lk (h : heap) (i : nat) (p : path) : option ref :=
  match p with
  | [] => Some (RNode i)
  | t :: r => match child h i t with
              | None => None
              | Some (RNode c) => lk h c r
              | Some (RLeaf n v) => match r with [] => Some (RLeaf n v) | _ => None end
              end
  end.
Lemma lk_app h p : forall i q, lk h i (p ++ q) = match lk h i p with None => None | Some (RNode c) => lk h c q | Some (RLeaf n v) => match q with [] => Some (RLeaf n v) | _ => None end end.
Proof.
  induction p as [|t p IH]; intros i q; [reflexivity|]. cbn [app lk]. destruct (child h i t) as [[c|n v]|]; [apply IH| |reflexivity]. destruct p; [reflexivity|]. reflexivity.
Qed.
Lemma lk_range h nx p : wf h nx -> forall i c, i < nx -> lk h i p = Some (RNode c) -> i <= c < nx /\ (p <> [] -> i < c).
Proof.
  intro W. induction p as [|t p IH]; intros i c L E; [injection E as <-; split; [lia|congruence]|]. cbn [lk] in E. destruct (child h i t) as [[d|n v]|] eqn:C; [|destruct p; discriminate|discriminate].
  apply child_in in C. destruct C as [C _]. destruct (w_kid h nx W i d L C) as [R _]. destruct (IH d c ltac:(lia) E) as [Q _]. split; [lia|intros _; lia].
Qed.
Lemma lk_up h nx p n c : wf h nx -> lk h 0 (p ++ [n]) = Some (RNode c) -> exists i, lk h 0 p = Some (RNode i) /\ i < nx /\ In (RNode c) (cont (h i)) /\ par (h c) = Some i /\ nname (h c) = n /\ i < c < nx.
Proof.
  intros W E. rewrite lk_app in E. destruct (lk h 0 p) as [[i|m v]|] eqn:L; [|discriminate|discriminate]. cbn [lk] in E. destruct (lk_range h nx p W 0 i (w_pos h nx W) L) as [[_ R] _].
  destruct (child h i n) as [[d|m v]|] eqn:C; [|discriminate|discriminate]. injection E as ->. apply child_in in C. destruct C as [C1 C2]. destruct (w_kid h nx W i c R C1) as [K1 K2]. exists i. split; [reflexivity|]. split; [exact R|]. split; [exact C1|]. split; [exact K2|]. split; [exact C2|exact K1].
Qed.
Lemma lk_unique h nx : wf h nx -> forall c p q, lk h 0 p = Some (RNode c) -> lk h 0 q = Some (RNode c) -> p = q.
Proof.
  intro W. induction c as [c IH] using (well_founded_induction lt_wf). intros p q P Q.
  destruct (list_eq_dec string_dec p []) as [-> |Np].
  - injection P as <-. destruct (list_eq_dec string_dec q []) as [-> |Nq]; [reflexivity|]. destruct (lk_range h nx q W 0 0 (w_pos h nx W) Q) as [_ R]. specialize (R Nq). lia.
  - destruct (exists_last Np) as (p' & n & ->). destruct (lk_up h nx p' n c W P) as (i & P1 & P2 & P3 & P4 & P5 & P6).
    destruct (list_eq_dec string_dec q []) as [-> |Nq]; [injection Q as <-; lia|]. destruct (exists_last Nq) as (q' & m & ->). destruct (lk_up h nx q' m c W Q) as (j & Q1 & Q2 & Q3 & Q4 & Q5 & Q6).
    assert (i = j) by congruence. subst j. rewrite (IH i ltac:(lia) p' q' P1 Q1). congruence.
Qed.

(** ** Changing one node *)
Lemma rname_kid h nx i (h' : heap) r : wf h nx -> i < nx -> In r (cont (h i)) -> (forall j, j < nx -> nname (h' j) = nname (h j)) -> rname h' r = rname h r.
Proof. intros W L I N. destruct r as [c|n v]; [|reflexivity]. cbn. apply N. apply (w_kid h nx W i c L I). Qed.
Lemma map_rname h nx i (h' : heap) : wf h nx -> i < nx -> (forall j, j < nx -> nname (h' j) = nname (h j)) -> map (rname h') (cont (h i)) = map (rname h) (cont (h i)).
Proof. intros W L N. apply map_ext_in. intros r R. apply (rname_kid h nx i h' r W L R N). Qed.
Lemma find_ext {A} (f g : A -> bool) l : (forall x, In x l -> f x = g x) -> List.find f l = List.find g l.
Proof. induction l as [|x l IH]; intro E; [reflexivity|]. cbn. rewrite (E x (or_introl eq_refl)), IH; [reflexivity|]. intros y Y. apply E. right. exact Y. Qed.
Lemma child_same h nx i (h' : heap) t : wf h nx -> i < nx -> cont (h' i) = cont (h i) -> (forall j, j < nx -> nname (h' j) = nname (h j)) -> child h' i t = child h i t.
Proof. intros W L E N. unfold child. rewrite E. apply find_ext. intros r R. unfold is. rewrite (rname_kid h nx i h' r W L R N). reflexivity. Qed.
Lemma lk_same h nx (h' : heap) p : wf h nx -> (forall j, j < nx -> nname (h' j) = nname (h j)) -> forall i, i < nx ->
  (forall q r c, p = q ++ r -> r <> [] -> lk h i q = Some (RNode c) -> cont (h' c) = cont (h c)) -> lk h' i p = lk h i p.
Proof.
  intros W N. induction p as [|t p IH]; intros i L A; [reflexivity|]. cbn [lk]. rewrite (child_same h nx i h' t W L); [|apply (A [] (t :: p) i); [reflexivity|discriminate|reflexivity]|exact N].
  destruct (child h i t) as [[c|n v]|] eqn:C; [|reflexivity|reflexivity]. apply IH.
  - apply child_in in C. destruct (w_kid h nx W i c L (proj1 C)). lia.
  - intros q r d E Nr Q. apply (A (t :: q) r d); [cbn; congruence|exact Nr|]. cbn [lk]. rewrite C. exact Q.
Qed.
Section Change.
Variables (h h' : heap) (nx i : nat) (P : path).
Hypothesis W : wf h nx.
Hypothesis LP : lk h 0 P = Some (RNode i).
Hypothesis same : forall j, j < nx -> j <> i -> cont (h' j) = cont (h j).
Hypothesis same_name : forall j, j < nx -> nname (h' j) = nname (h j).
Lemma Li : i < nx. Proof. apply (lk_range h nx P W 0 i (w_pos h nx W) LP). Qed.
Lemma change_away q : (forall n r, q <> P ++ n :: r) -> lk h' 0 q = lk h 0 q.
Proof.
  intro A. apply (lk_same h nx h' q W same_name); [exact (w_pos h nx W)|]. intros a b c E Nb L. apply same; [apply (lk_range h nx a W 0 c (w_pos h nx W) L)|]. intros ->.
  rewrite (lk_unique h nx W i a P L LP) in E. destruct b as [|n r]; [congruence|]. exact (A n r E).
Qed.
Lemma change_P : lk h' 0 P = Some (RNode i).
Proof. rewrite change_away; [exact LP|]. intros n r E. exact (app_self P n r E). Qed.
Lemma change_under n r : lk h' 0 (P ++ n :: r) = lk h' i (n :: r).
Proof. rewrite lk_app, change_P. reflexivity. Qed.
Lemma change_below c r : i < c < nx -> lk h' c r = lk h c r.
Proof.
  intro R. apply (lk_same h nx h' r W same_name); [lia|]. intros a b d E Nb L. destruct (lk_range h nx a W c d ltac:(lia) L) as [Q _]. apply same; lia.
Qed.
(** a child that is still there *)
Lemma change_kept n r : child h' i n = child h i n -> lk h' 0 (P ++ n :: r) = lk h 0 (P ++ n :: r).
Proof.
  intro C. rewrite change_under, lk_app, LP. cbn [lk]. rewrite C. destruct (child h i n) as [[c|m v]|] eqn:E; [|reflexivity|reflexivity]. apply change_below. apply child_in in E. apply (w_kid h nx W i c Li (proj1 E)).
Qed.
End Change.

(** ** The tree of a heap *)
Definition ent_of (r : option ref) : option (entry V) := match r with Some (RNode _) => Some Dir | Some (RLeaf _ v) => Some (Val v) | None => None end.
Record rel (h : heap) (nx : nat) (t : tree V) : Prop := {
  r_wf : wf h nx;
  r_ent : forall p, ent t p = ent_of (lk h 0 p);
  r_names : forall p c, lk h 0 p = Some (RNode c) -> names t p = map (rname h) (cont (h c)) }.

Lemma existsb_names h l n : existsb (String.eqb n) (map (rname h) l) = match List.find (is h n) l with Some _ => true | None => false end.
Proof. induction l as [|r l IH]; [reflexivity|]. cbn. unfold is at 1. rewrite String.eqb_sym. destruct (String.eqb (rname h r) n); [reflexivity|exact IH]. Qed.
Lemma find_app {A} (f : A -> bool) l m : List.find f (l ++ m) = match List.find f l with Some x => Some x | None => List.find f m end.
Proof. induction l as [|x l IH]; [reflexivity|]. cbn. destruct (f x); [reflexivity|exact IH]. Qed.
Lemma replace_length (r : ref) : forall l j, List.length (replace j r l) = List.length l.
Proof. induction l as [|x l IH]; intros [|j]; cbn; auto. Qed.
Lemma replace_in (r : ref) : forall l j x, In x (replace j r l) -> x = r \/ In x l.
Proof. induction l as [|y l IH]; intros [|j] x X; cbn in *; auto; destruct X as [X|X]; auto. destruct (IH j x X); auto. Qed.
Lemma replace_map {B} (f : ref -> B) (r : ref) : forall l j y, nth_error l j = Some y -> f y = f r -> map f (replace j r l) = map f l.
Proof. induction l as [|x l IH]; intros [|j] y N E; cbn in *; try discriminate; [injection N as ->; congruence|]. f_equal. eapply IH; eauto. Qed.
Lemma replace_find h n (r : ref) : forall l j y, nth_error l j = Some y -> rname h y = rname h r -> NoDup (map (rname h) l) ->
  List.find (is h n) (replace j r l) = if String.eqb (rname h r) n then Some r else List.find (is h n) l.
Proof.
  induction l as [|x l IH]; intros [|j] y N E D; cbn in N; try discriminate.
  - injection N as ->. cbn [replace List.find]. unfold is at 1 3. rewrite E. destruct (String.eqb (rname h r) n); reflexivity.
  - cbn [map] in D. inversion D as [|? ? D1 D2]; subst. cbn [replace List.find]. rewrite (IH j y N E D2). unfold is at 1 3. destruct (String.eqb_spec (rname h x) n) as [X|X]; [|reflexivity].
    rewrite (proj2 (String.eqb_neq (rname h r) n)); [reflexivity|]. intro C. apply D1. rewrite X, <- C, <- E. apply in_map. apply nth_error_In with j. exact N.
Qed.

Lemma ent_set_cases (t : tree V) P n v q : (exists r, q = P ++ n :: r /\ ent (set t P n v) q = match r with [] => Some (Val v) | _ => None end) \/
  ((forall r, q <> P ++ n :: r) /\ ent (set t P n v) q = ent t q).
Proof.
  cbn [ent set]. destruct (strip (P ++ [n]) q) as [r|] eqn:E.
  - left. exists r. apply strip_spec in E. rewrite snoc_app in E. split; [exact E|]. destruct r; reflexivity.
  - right. split; [|reflexivity]. intros r Q. pose proof (proj1 (strip_none _ _) E r) as E0. rewrite snoc_app in E0. contradiction.
Qed.
Lemma under_dec (P q : path) : (exists n r, q = P ++ n :: r) \/ forall n r, q <> P ++ n :: r.
Proof.
  destruct (strip P q) as [[|n r]|] eqn:E.
  - right. apply strip_spec in E. rewrite app_nil_r in E. intros n r Q. subst q. exact (app_self P n r Q).
  - left. apply strip_spec in E. eauto.
  - right. intros n r Q. pose proof (proj1 (strip_none _ _) E (n :: r)) as E0. contradiction.
Qed.
Lemma app_cons_inj (P : path) a b n m : P ++ a :: n = P ++ b :: m -> a = b /\ n = m.
Proof. intro E. apply app_inv_head in E. injection E as -> ->. auto. Qed.

(** ** Write *)
Lemma write_ok h nx t P i n v : rel h nx t -> lk h 0 P = Some (RNode i) -> In n U ->
  exists h', insert H h i (RLeaf n v) false = Some (true, h') /\ rel h' nx (set t P n v) /\ lk h' 0 P = Some (RNode i).
Proof.
  intros [W RE RN] LP IU. assert (L : i < nx) by (apply (lk_range h nx P W 0 i (w_pos h nx W) LP)). unfold insert. cbn [rname]. rewrite (w_bt h nx W i L).
  pose proof (bt_find h n (cont (h i)) IU (fun r R => w_ok h nx W i r L R) 0) as B. destruct (bt_search _ _) as [j|].
  - destruct B as (B1 & B2 & B3). rewrite (proj2 (Nat.ltb_lt j _)) by lia. eexists. split; [reflexivity|]. rewrite Nat.sub_0_r in B2. destruct (List.find (is h n) (cont (h i))) as [y|] eqn:F; [|congruence]. pose proof (find_some _ _ F) as [Fi Fn]. apply String.eqb_eq in Fn.
    set (h' := put h i _). assert (SN : forall j, nname (h' j) = nname (h j)) by (intro k; unfold h', put; destruct (Nat.eqb_spec k i); [subst; reflexivity|reflexivity]).
    assert (SP : forall j, par (h' j) = par (h j)) by (intro k; unfold h', put; destruct (Nat.eqb_spec k i); [subst; reflexivity|reflexivity]).
    assert (SR : forall r, rname h' r = rname h r) by (intros [c|m w]; [apply SN|reflexivity]).
    assert (Sa : forall k, k < nx -> k <> i -> cont (h' k) = cont (h k)) by (intros k _ K; unfold h'; rewrite put_other by exact K; reflexivity).
    assert (Ci : cont (h' i) = replace j (RLeaf n v) (cont (h i))) by (unfold h'; rewrite put_same; reflexivity).
    assert (Mp : forall k, map (rname h') (cont (h' k)) = map (rname h) (cont (h k))).
    { intro k. destruct (Nat.eq_dec k i) as [-> |Nk]; [|unfold h'; rewrite put_other by exact Nk; apply map_ext; intro; apply SR]. rewrite Ci. rewrite (replace_map (rname h') (RLeaf n v) _ j y); [apply map_ext; intro; apply SR|congruence|]. rewrite SR. exact Fn. }
    assert (Cc : forall m, child h' i m = if String.eqb n m then Some (RLeaf n v) else child h i m).
    { intro m. unfold child. rewrite Ci. rewrite (find_ext (is h' m) (is h m)) by (intros x _; unfold is; rewrite SR; reflexivity). rewrite (replace_find h m (RLeaf n v) (cont (h i)) j y); [reflexivity|congruence|exact Fn|apply (w_nodup h nx W i L)]. }
    assert (W' : wf h' nx).
    { constructor.
      - exact (w_pos h nx W).
      - rewrite SP. exact (w_root h nx W).
      - intros k K. replace (map (fun r => H (rname h' r)) (cont (h' k))) with (map (fun r => H (rname h r)) (cont (h k))).
        + rewrite <- (w_bt h nx W k K). unfold h', put. destruct (Nat.eqb_spec k i); [subst; cbn; symmetry; apply (w_bt h nx W i L)|reflexivity].
        + rewrite <- !(map_map (rname _) H), Mp. reflexivity.
      - intros k K. rewrite Mp. exact (w_nodup h nx W k K).
      - intros k r K R. assert (In (rname h' r) (map (rname h') (cont (h' k)))) by (apply in_map; exact R). rewrite Mp in H0. apply in_map_iff in H0. destruct H0 as (r' & <- & R'). exact (w_ok h nx W k r' K R').
      - intros k c K R. rewrite SP. apply (w_kid h nx W k c K). destruct (Nat.eq_dec k i) as [-> |Nk]; [|rewrite Sa in R by assumption; exact R]. rewrite Ci in R. apply replace_in in R. destruct R as [R|R]; [discriminate|exact R].
      - intros k K. pose proof (w_mx h nx W k K). unfold h', put. destruct (Nat.eqb_spec k i); [subst; cbn; rewrite replace_length; assumption|assumption]. }
    assert (SN' : forall k, k < nx -> nname (h' k) = nname (h k)) by (intros; apply SN).
    pose proof (change_away h h' nx i P W LP Sa SN') as CA. pose proof (change_under h h' nx i P W LP Sa SN') as CU. pose proof (change_kept h h' nx i P W LP Sa SN') as CK. pose proof (change_P h h' nx i P W LP Sa SN') as CP.
    split; [|exact CP]. constructor; [exact W'| |].
    + intro q. destruct (ent_set_cases t P n v q) as [(r & -> & E)|[E1 E2]].
      * rewrite E, CU. cbn [lk]. rewrite Cc, String.eqb_refl. destruct r; reflexivity.
      * rewrite E2, RE. destruct (under_dec P q) as [(m & r & ->)|D]; [|rewrite CA by exact D; reflexivity]. rewrite CK; [reflexivity|]. rewrite Cc. destruct (String.eqb_spec n m) as [-> |Nm]; [exfalso; apply (E1 r); reflexivity|reflexivity].
    + intros q c Q. cbn [names set]. destruct (path_eqb P q) eqn:E.
      * apply path_eqb_spec in E. subst q. assert (c = i) by congruence. subst c. rewrite Mp. rewrite (RN P i LP), existsb_names, F. reflexivity.
      * rewrite Mp. apply RN. destruct (under_dec P q) as [(m & r & ->)|D]; [|rewrite CA in Q by exact D; exact Q]. destruct (String.eqb_spec n m) as [-> |Nm]; [rewrite CU in Q; cbn [lk] in Q; rewrite Cc, String.eqb_refl in Q; destruct r; discriminate|].
        rewrite CK in Q; [exact Q|]. rewrite Cc. rewrite (proj2 (String.eqb_neq n m) Nm). reflexivity.
  - set (m := if mx (h i) <=? List.length (cont (h i)) then if mx (h i) =? 0 then 1 else mx (h i) * 2 else mx (h i)). assert (Lm : List.length (cont (h i)) < m).
    { unfold m. pose proof (w_mx h nx W i L) as M. destruct (Nat.leb_spec (mx (h i)) (List.length (cont (h i)))); [|assumption]. destruct (Nat.eqb_spec (mx (h i)) 0); lia. }
    rewrite (proj2 (Nat.ltb_lt _ _) Lm). eexists. split; [reflexivity|]. set (h' := put h i _).
    assert (SN : forall j, nname (h' j) = nname (h j)) by (intro k; unfold h', put; destruct (Nat.eqb_spec k i); [subst; reflexivity|reflexivity]).
    assert (SP : forall j, par (h' j) = par (h j)) by (intro k; unfold h', put; destruct (Nat.eqb_spec k i); [subst; reflexivity|reflexivity]).
    assert (SR : forall r, rname h' r = rname h r) by (intros [c|w u]; [apply SN|reflexivity]).
    assert (Sa : forall k, k < nx -> k <> i -> cont (h' k) = cont (h k)) by (intros k _ K; unfold h'; rewrite put_other by exact K; reflexivity).
    assert (Ci : cont (h' i) = cont (h i) ++ [RLeaf n v]) by (unfold h'; rewrite put_same; reflexivity).
    assert (Ni : map (rname h') (cont (h' i)) = map (rname h) (cont (h i)) ++ [n]) by (rewrite Ci, map_app; cbn; f_equal; apply map_ext; intro; apply SR).
    assert (Mp : forall k, k <> i -> map (rname h') (cont (h' k)) = map (rname h) (cont (h k))) by (intros k Nk; unfold h' at 2; rewrite put_other by exact Nk; apply map_ext; intro; apply SR).
    assert (Nn : ~ In n (map (rname h) (cont (h i)))).
    { intro C. apply in_map_iff in C. destruct C as (r & C1 & C2). pose proof (find_none _ _ B r C2) as F. unfold is in F. rewrite C1, String.eqb_refl in F. discriminate. }
    assert (Cc : forall m, child h' i m = match child h i m with Some r => Some r | None => if String.eqb n m then Some (RLeaf n v) else None end).
    { intro w. unfold child. rewrite Ci, find_app. rewrite (find_ext (is h' w) (is h w)) by (intros x _; unfold is; rewrite SR; reflexivity). reflexivity. }
    assert (W' : wf h' nx).
    { constructor.
      - exact (w_pos h nx W).
      - rewrite SP. exact (w_root h nx W).
      - intros k K. rewrite <- (map_map (rname _) H). destruct (Nat.eq_dec k i) as [-> |Nk].
        + rewrite Ni, map_app. cbn [map]. rewrite ixs_snoc, map_map, map_length. unfold h'. rewrite put_same. cbn [bt]. reflexivity.
        + rewrite Mp by exact Nk. rewrite map_map, <- (w_bt h nx W k K). unfold h'. rewrite put_other by exact Nk. reflexivity.
      - intros k K. destruct (Nat.eq_dec k i) as [-> |Nk]; [|rewrite Mp by exact Nk; exact (w_nodup h nx W k K)]. rewrite Ni. apply NoDup_rev in Nn || idtac.
        assert (S0 : forall (l : list string) x, NoDup l -> ~ In x l -> NoDup (l ++ [x])).
        { clear. induction l as [|y l IH]; intros x N I; [constructor; auto; constructor|]. inversion N; subst. cbn [app]. constructor; [|apply IH; auto; intro; apply I; right; assumption]. intro C. apply in_app_or in C. destruct C as [C|[C|[]]]; [contradiction|]. apply I. left. auto. }
        apply S0; [exact (w_nodup h nx W i K)|exact Nn].
      - intros k r K R. rewrite SR. destruct (Nat.eq_dec k i) as [-> |Nk]; [|rewrite Sa in R by assumption; exact (w_ok h nx W k r K R)]. rewrite Ci in R. apply in_app_or in R. destruct R as [R|[<- |[]]]; [exact (w_ok h nx W i r K R)|exact IU].
      - intros k c K R. rewrite SP. apply (w_kid h nx W k c K). destruct (Nat.eq_dec k i) as [-> |Nk]; [|rewrite Sa in R by assumption; exact R]. rewrite Ci in R. apply in_app_or in R. destruct R as [R|[R|[]]]; [exact R|discriminate].
      - intros k K. pose proof (w_mx h nx W k K). unfold h', put. destruct (Nat.eqb_spec k i); [subst; cbn; rewrite app_length; cbn; lia|assumption]. }
    assert (SN' : forall k, k < nx -> nname (h' k) = nname (h k)) by (intros; apply SN).
    pose proof (change_away h h' nx i P W LP Sa SN') as CA. pose proof (change_under h h' nx i P W LP Sa SN') as CU. pose proof (change_kept h h' nx i P W LP Sa SN') as CK. pose proof (change_P h h' nx i P W LP Sa SN') as CP.
    assert (Cn : child h i n = None) by exact B.
    assert (Cm : forall w, n <> w -> child h' i w = child h i w) by (intros w Nw; rewrite Cc, (proj2 (String.eqb_neq n w) Nw); destruct (child h i w); reflexivity).
    split; [|exact CP]. constructor; [exact W'| |].
    + intro q. destruct (ent_set_cases t P n v q) as [(r & -> & E)|[E1 E2]].
      * rewrite E, CU. cbn [lk]. rewrite Cc, Cn, String.eqb_refl. destruct r; reflexivity.
      * rewrite E2, RE. destruct (under_dec P q) as [(w & r & ->)|D]; [|rewrite CA by exact D; reflexivity]. rewrite CK; [reflexivity|]. apply Cm. intros ->. apply (E1 r). reflexivity.
    + intros q c Q. cbn [names set]. destruct (path_eqb P q) eqn:E.
      * apply path_eqb_spec in E. subst q. assert (c = i) by congruence. subst c. rewrite Ni. rewrite (RN P i LP), existsb_names, B. reflexivity.
      * assert (Nc : c <> i). { intros ->. rewrite (lk_unique h' nx W' i P q CP Q), path_eqb_refl in E. discriminate. } rewrite Mp by exact Nc. apply RN.
        destruct (under_dec P q) as [(w & r & ->)|D]; [|rewrite CA in Q by exact D; exact Q]. destruct (String.eqb_spec n w) as [-> |Nw]; [rewrite CU in Q; cbn [lk] in Q; rewrite Cc, Cn, String.eqb_refl in Q; destruct r; discriminate|].
        rewrite CK in Q; [exact Q|]. apply Cm. exact Nw.
Qed.

(** ** Create *)
Lemma rel_ext h nx t (h' : heap) : rel h nx t -> (forall j, j < nx -> h' j = h j) -> rel h' nx t /\ forall p, lk h' 0 p = lk h 0 p.
Proof.
  intros [W RE RN] E. assert (SN : forall j, j < nx -> nname (h' j) = nname (h j)) by (intros j J; rewrite E by exact J; reflexivity).
  assert (R : forall k r, k < nx -> In r (cont (h k)) -> rname h' r = rname h r) by (intros k r K I; exact (rname_kid h nx k h' r W K I SN)).
  assert (M : forall k, k < nx -> map (rname h') (cont (h k)) = map (rname h) (cont (h k))) by (intros k K; exact (map_rname h nx k h' W K SN)).
  assert (LK : forall p, lk h' 0 p = lk h 0 p).
  { intro p. apply (lk_same h nx h' p W SN 0 (w_pos h nx W)). intros a b c _ _ L. rewrite E; [reflexivity|]. apply (lk_range h nx a W 0 c (w_pos h nx W) L). }
  split; [|exact LK]. constructor.
  - constructor.
    + exact (w_pos h nx W).
    + rewrite E by exact (w_pos h nx W). exact (w_root h nx W).
    + intros k K. rewrite <- (map_map (rname _) H), E, M, map_map by exact K. exact (w_bt h nx W k K).
    + intros k K. rewrite E, M by exact K. exact (w_nodup h nx W k K).
    + intros k r K I. rewrite E in I by exact K. rewrite (R k r K I). exact (w_ok h nx W k r K I).
    + intros k c K I. rewrite E in I by exact K. destruct (w_kid h nx W k c K I) as [Q1 Q2]. split; [exact Q1|]. rewrite E by lia. exact Q2.
    + intros k K. rewrite E by exact K. exact (w_mx h nx W k K).
  - intro p. rewrite LK. apply RE.
  - intros p c L. rewrite LK in L. assert (c < nx) by (apply (lk_range h nx p W 0 c (w_pos h nx W) L)). rewrite E, M by assumption. apply RN. exact L.
Qed.
Lemma NoDup_snoc {A} (l : list A) x : NoDup l -> ~ In x l -> NoDup (l ++ [x]).
Proof.
  induction l as [|y l IH]; intros N I; [constructor; auto; constructor|]. inversion N; subst. cbn [app]. constructor; [|apply IH; auto; intro; apply I; right; assumption].
  intro C. apply in_app_or in C. destruct C as [C|[C|[]]]; [contradiction|]. apply I. left. auto.
Qed.
Lemma mkdir_ok h nx t P i n : rel h nx t -> lk h 0 P = Some (RNode i) -> In n U -> let h1 := put h nx (new_node n) in
  match ent t (P ++ [n]) with
  | Some _ => insert H h1 i (RNode nx) true = Some (false, h1) /\ rel h1 nx t
  | None => exists h2, insert H h1 i (RNode nx) true = Some (true, h2) /\
      let h3 := put h2 nx (Nd (nname (h2 nx)) (Some i) (cont (h2 nx)) (mx (h2 nx)) (bt (h2 nx))) in
      rel h3 (S nx) (mkdir t P n) /\ lk h3 0 (P ++ [n]) = Some (RNode nx)
  end.
Proof.
  intros R LP IU h1. pose proof R as [W RE RN]. assert (L : i < nx) by (apply (lk_range h nx P W 0 i (w_pos h nx W) LP)).
  assert (E1 : h1 i = h i) by (unfold h1; rewrite put_other by lia; reflexivity). assert (N1 : rname h1 (RNode nx) = n) by (cbn; unfold h1; rewrite put_same; reflexivity).
  unfold insert. rewrite N1, E1, (w_bt h nx W i L). pose proof (bt_find h n (cont (h i)) IU (fun r R => w_ok h nx W i r L R) 0) as B.
  assert (EN : ent t (P ++ [n]) = ent_of (child h i n)). { rewrite RE, lk_app, LP. cbn [lk]. destruct (child h i n) as [[c|m v]|]; reflexivity. }
  destruct (bt_search _ _) as [j|].
  - destruct B as (_ & _ & B). assert (Q : ent t (P ++ [n]) <> None) by (rewrite EN; unfold child; destruct (List.find (is h n) (cont (h i))) as [[c|m v]|]; [discriminate|discriminate|congruence]).
    destruct (ent t (P ++ [n])); [|congruence]. split; [reflexivity|]. apply (rel_ext h nx t h1 R). intros k K. unfold h1. rewrite put_other by lia. reflexivity.
  - assert (Cn : child h i n = None) by exact B. rewrite EN, Cn. cbn [ent_of].
    set (m := if mx (h i) <=? List.length (cont (h i)) then if mx (h i) =? 0 then 1 else mx (h i) * 2 else mx (h i)). assert (Lm : List.length (cont (h i)) < m).
    { unfold m. pose proof (w_mx h nx W i L) as M. destruct (Nat.leb_spec (mx (h i)) (List.length (cont (h i)))); [|assumption]. destruct (Nat.eqb_spec (mx (h i)) 0); lia. }
    rewrite (proj2 (Nat.ltb_lt _ _) Lm). eexists. split; [reflexivity|]. cbv zeta. set (h' := put _ nx _).
    assert (Hnx : h' nx = Nd n (Some i) [] 0 []). { unfold h'. rewrite put_same. rewrite put_other by lia. unfold h1. rewrite put_same. reflexivity. }
    assert (Hi : h' i = Nd (nname (h i)) (par (h i)) (cont (h i) ++ [RNode nx]) m (ixs 0 (map (fun r => H (rname h r)) (cont (h i))) ++ [(H n, List.length (cont (h i)))])). { unfold h'. rewrite put_other by lia. rewrite put_same. reflexivity. }
    assert (Hk : forall k, k < nx -> k <> i -> h' k = h k) by (intros k K Nk; unfold h'; rewrite put_other by lia; rewrite put_other by exact Nk; unfold h1; rewrite put_other by lia; reflexivity).
    clearbody h'. clear h1 E1 N1.
    assert (SN' : forall k, k < nx -> nname (h' k) = nname (h k)) by (intros k K; destruct (Nat.eq_dec k i) as [-> |Nk]; [rewrite Hi; reflexivity|rewrite Hk by assumption; reflexivity]).
    assert (SP : forall k, k < nx -> par (h' k) = par (h k)) by (intros k K; destruct (Nat.eq_dec k i) as [-> |Nk]; [rewrite Hi; reflexivity|rewrite Hk by assumption; reflexivity]).
    assert (Sa : forall k, k < nx -> k <> i -> cont (h' k) = cont (h k)) by (intros k K Nk; rewrite Hk by assumption; reflexivity).
    assert (SR : forall k r, k < nx -> In r (cont (h k)) -> rname h' r = rname h r) by (intros k r K I; exact (rname_kid h nx k h' r W K I SN')).
    assert (Mp0 : forall k, k < nx -> map (rname h') (cont (h k)) = map (rname h) (cont (h k))) by (intros k K; exact (map_rname h nx k h' W K SN')).
    assert (Mp : forall k, k < nx -> k <> i -> map (rname h') (cont (h' k)) = map (rname h) (cont (h k))) by (intros k K Nk; rewrite Sa by assumption; apply Mp0; exact K).
    assert (Rn : rname h' (RNode nx) = n) by (cbn; rewrite Hnx; reflexivity).
    assert (Ni : map (rname h') (cont (h' i)) = map (rname h) (cont (h i)) ++ [n]) by (rewrite Hi; cbn [cont]; rewrite map_app, Mp0 by exact L; cbn [map]; rewrite Rn; reflexivity).
    assert (Nn : ~ In n (map (rname h) (cont (h i)))).
    { intro C. apply in_map_iff in C. destruct C as (r & C1 & C2). pose proof (find_none _ _ B r C2) as F. unfold is in F. rewrite C1, String.eqb_refl in F. discriminate. }
    assert (Cc : forall w, child h' i w = match child h i w with Some r => Some r | None => if String.eqb n w then Some (RNode nx) else None end).
    { intro w. unfold child. rewrite Hi. cbn [cont]. rewrite find_app. rewrite (find_ext (is h' w) (is h w)) by (intros x X; unfold is; rewrite (SR i x L X); reflexivity). destruct (List.find (is h w) (cont (h i))); [reflexivity|]. cbn [List.find]. unfold is. rewrite Rn. reflexivity. }
    assert (W' : wf h' (S nx)).
    { constructor.
      - lia.
      - rewrite SP by exact (w_pos h nx W). exact (w_root h nx W).
      - intros k K. rewrite <- (map_map (rname _) H). destruct (Nat.eq_dec k nx) as [-> |Kn]; [rewrite Hnx; reflexivity|]. destruct (Nat.eq_dec k i) as [-> |Nk].
        + rewrite Ni, map_app. cbn [map]. rewrite ixs_snoc, map_map, map_length, Hi. reflexivity.
        + rewrite Mp by lia. rewrite map_map, <- (w_bt h nx W k ltac:(lia)), Hk by lia. reflexivity.
      - intros k K. destruct (Nat.eq_dec k nx) as [-> |Kn]; [rewrite Hnx; constructor|]. destruct (Nat.eq_dec k i) as [-> |Nk]; [|rewrite Mp by lia; apply (w_nodup h nx W k); lia]. rewrite Ni.
        apply NoDup_snoc; [exact (w_nodup h nx W i L)|exact Nn].
      - intros k r K I. destruct (Nat.eq_dec k nx) as [-> |Kn]; [rewrite Hnx in I; destruct I|]. destruct (Nat.eq_dec k i) as [-> |Nk].
        + rewrite Hi in I. cbn [cont] in I. apply in_app_or in I. destruct I as [I|[<- |[]]]; [rewrite (SR i r L I); exact (w_ok h nx W i r L I)|rewrite Rn; exact IU].
        + rewrite Hk in I by lia. rewrite (SR k r ltac:(lia) I). apply (w_ok h nx W k r); [lia|exact I].
      - intros k c K I. destruct (Nat.eq_dec k nx) as [-> |Kn]; [rewrite Hnx in I; destruct I|].
        assert (Old : In (RNode c) (cont (h k)) -> k < c < S nx /\ par (h' c) = Some k). { intro J. destruct (w_kid h nx W k c ltac:(lia) J) as [Q1 Q2]. split; [lia|]. rewrite SP by lia. exact Q2. }
        destruct (Nat.eq_dec k i) as [-> |Nk]; [|rewrite Hk in I by lia; auto]. rewrite Hi in I. cbn [cont] in I. apply in_app_or in I. destruct I as [I|[I|[]]]; [auto|]. injection I as <-. split; [lia|]. rewrite Hnx. reflexivity.
      - intros k K. destruct (Nat.eq_dec k nx) as [-> |Kn]; [rewrite Hnx; cbn; lia|]. destruct (Nat.eq_dec k i) as [-> |Nk]; [rewrite Hi; cbn; rewrite app_length; cbn; lia|]. rewrite Hk by lia. apply (w_mx h nx W k). lia. }
    pose proof (change_away h h' nx i P W LP Sa SN') as CA. pose proof (change_under h h' nx i P W LP Sa SN') as CU. pose proof (change_kept h h' nx i P W LP Sa SN') as CK. pose proof (change_P h h' nx i P W LP Sa SN') as CP.
    assert (Cm : forall w, n <> w -> child h' i w = child h i w) by (intros w Nw; rewrite Cc, (proj2 (String.eqb_neq n w) Nw); destruct (child h i w); reflexivity).
    assert (Un : forall r, lk h' 0 (P ++ n :: r) = match r with [] => Some (RNode nx) | _ => None end).
    { intro r. rewrite CU. cbn [lk]. rewrite Cc, Cn, String.eqb_refl. destruct r as [|a r]; [reflexivity|]. cbn [lk]. unfold child. rewrite Hnx. reflexivity. }
    assert (Uo : forall r, lk h 0 (P ++ n :: r) = None) by (intro r; rewrite lk_app, LP; cbn [lk]; rewrite Cn; reflexivity).
    assert (Ot : forall q, (forall r, q <> P ++ n :: r) -> lk h' 0 q = lk h 0 q).
    { intros q D. destruct (under_dec P q) as [(w & r & ->)|D']; [|apply CA; exact D']. apply CK. apply Cm. intros ->. apply (D r). reflexivity. }
    split; [|exact (Un [])]. unfold mkdir. rewrite EN, Cn. cbn [ent_of]. constructor; [exact W'| |].
    + intro q. cbn [ent]. destruct (path_eqb (P ++ [n]) q) eqn:E; [apply path_eqb_spec in E; subst q; rewrite (Un []); reflexivity|]. rewrite RE.
      destruct (strip (P ++ [n]) q) as [r|] eqn:Sq.
      * apply strip_spec in Sq. rewrite snoc_app in Sq. subst q. rewrite Un, Uo. destruct r; [|reflexivity]. rewrite path_eqb_refl in E. discriminate.
      * rewrite Ot; [reflexivity|]. intros r Q. pose proof (proj1 (strip_none _ _) Sq r) as C. rewrite snoc_app in C. contradiction.
    + intros q c Q. cbn [names]. destruct (path_eqb (P ++ [n]) q) eqn:E.
      * apply path_eqb_spec in E. subst q. rewrite (Un []) in Q. injection Q as <-. rewrite Hnx. reflexivity.
      * destruct (path_eqb P q) eqn:E2.
        -- apply path_eqb_spec in E2. subst q. assert (c = i) by congruence. subst c. rewrite Ni, (RN P i LP). reflexivity.
        -- assert (Nc : c <> i). { intros ->. rewrite (lk_unique h' (S nx) W' i P q CP Q), path_eqb_refl in E2. discriminate. }
           assert (D : forall r, q <> P ++ n :: r). { intros r ->. rewrite Un in Q. destruct r; [|discriminate]. rewrite path_eqb_refl in E. discriminate. }
           rewrite Ot in Q by exact D. assert (c < nx) by (apply (lk_range h nx q W 0 c (w_pos h nx W) Q)). rewrite Mp by assumption. apply RN. exact Q.
Qed.

Lemma run_dot t s : no_dot t -> run (t ++ "." ++ s) = (t, true, s).
Proof.
  induction t as [|c t IH]; intro N; [reflexivity|]. apply no_dot_cons in N. destruct N as [N1 N2]. change ((String c t ++ "." ++ s)%string) with (String c (t ++ "." ++ s)). cbn [run]. rewrite (neq_dot c N1), (IH N2). reflexivity.
Qed.
Lemma run_end t : no_dot t -> run t = (t, false, "").
Proof. induction t as [|c t IH]; intro N; [reflexivity|]. apply no_dot_cons in N. destruct N as [N1 N2]. cbn [run]. rewrite (neq_dot c N1), (IH N2). reflexivity. Qed.
Lemma get_tok_join t p : good_name t -> get_tok (join (t :: p)) = Some (t, match p with [] => false | _ => true end, join p).
Proof.
  intros [G1 G2]. unfold get_tok. assert (Sk : skip_dots (join (t :: p)) = join (t :: p)).
  { destruct t as [|c t]; [congruence|]. apply no_dot_cons in G2. destruct p; cbn [join append skip_dots]; rewrite (neq_dot c (proj1 G2)); reflexivity. }
  rewrite Sk. assert (Ne : join (t :: p) <> "") by (destruct t; [congruence|]; destruct p; discriminate). destruct (join (t :: p)) eqn:E; [congruence|]. rewrite <- E. f_equal. destruct p as [|u p].
  - cbn [join]. rewrite run_end by exact G2. reflexivity.
  - rewrite join_cons by discriminate. apply run_dot. exact G2.
Qed.
Lemma create_ok : forall p h nx t P i created fuel, rel h nx t -> lk h 0 P = Some (RNode i) -> Forall good_name p -> (forall n, In n p -> In n U) -> no_value_on t P p -> List.length p < fuel ->
  exists h' nx' c' ok created', create_loop H fuel h nx (Some i) (join p) created = Some (h', nx', c', ok, created') /\
    (p = [] -> h' = h /\ nx' = nx /\ c' = Some i /\ ok = true /\ created' = created) /\
    (p <> [] -> match ent t (P ++ p) with
     | Some _ => ok = false /\ rel h' nx' t /\ (forall q c, lk h 0 q = Some (RNode c) -> lk h' 0 q = Some (RNode c))
     | None => ok = true /\ created' = true /\ rel h' nx' (mkdirs t P p) /\ exists c, c' = Some c /\ lk h' 0 (P ++ p) = Some (RNode c)
     end).
Proof.
  induction p as [|n p IH]; intros h nx t P i created fuel R LP G IU NV F.
  - destruct fuel; [cbn in F; lia|]. cbn. exists h, nx, (Some i), true, created. split; [reflexivity|]. split; [auto|congruence].
  - destruct fuel as [|k]; [lia|]. inversion G as [|? ? G1 G2]; subst. cbn [create_loop]. rewrite get_tok_join by exact G1. pose proof (r_wf h nx t R) as W. assert (L : i < nx) by (apply (lk_range h nx P W 0 i (w_pos h nx W) LP)).
    rewrite (search_child h nx i n W L (IU n (or_introl eq_refl))). pose proof (mkdir_ok h nx t P i n R LP (IU n (or_introl eq_refl))) as MK. cbv zeta in MK.
    assert (EN : ent t (P ++ [n]) = ent_of (child h i n)). { rewrite (r_ent h nx t R), lk_app, LP. cbn [lk]. destruct (child h i n) as [[c|m v]|]; reflexivity. }
    assert (NV' : forall t', (forall q v, ent t' q = Some (Val v) -> ent t q = Some (Val v)) -> no_value_on t' (P ++ [n]) p).
    { intros t' Q a b v E Na Nb C. apply Q in C. rewrite snoc_app in C. apply (NV (n :: a) b v); [cbn; congruence|discriminate|exact Nb|exact C]. }
    destruct (match p with [] => false | _ => true end) eqn:Last.
    + destruct p as [|u p]; [discriminate|]. destruct (child h i n) as [[d|m v]|] eqn:Ch.
      * assert (LP' : lk h 0 (P ++ [n]) = Some (RNode d)) by (rewrite lk_app, LP; cbn [lk]; rewrite Ch; reflexivity).
        destruct (IH h nx t (P ++ [n]) d created k R LP' G2 (fun m M => IU m (or_intror M)) (NV' t (fun q v E => E))) as (h' & nx' & c' & ok & cr & E & _ & Post); [cbn in *; lia|].
        exists h', nx', c', ok, cr. split; [exact E|]. split; [discriminate|]. intros _. specialize (Post ltac:(discriminate)). rewrite !snoc_app in Post. change (P ++ n :: u :: p) with (P ++ n :: (u :: p)). destruct (ent t (P ++ n :: u :: p)) eqn:Ee; [exact Post|].
        cbn [mkdirs]. assert (Mk : mkdir t P n = t) by (unfold mkdir; rewrite EN; reflexivity). rewrite Mk. exact Post.
      * exfalso. apply (NV [n] (u :: p) v); [reflexivity|discriminate|discriminate|]. exact EN.
      * rewrite EN in MK. cbn [ent_of] in MK. destruct MK as (h2 & -> & R3 & L3). set (h3 := put h2 nx _) in *.
        assert (EM : forall q v, ent (mkdir t P n) q = Some (Val v) -> ent t q = Some (Val v)) by (intros q v; unfold mkdir; rewrite EN; cbn [ent_of ent]; destruct (path_eqb _ q); [discriminate|auto]).
        destruct (IH h3 (S nx) (mkdir t P n) (P ++ [n]) nx true k R3 L3 G2 (fun m M => IU m (or_intror M)) (NV' _ EM)) as (h' & nx' & c' & ok & cr & E & _ & Post); [cbn in *; lia|].
        exists h', nx', c', ok, cr. split; [exact E|]. split; [discriminate|]. intros _. specialize (Post ltac:(discriminate)). rewrite !snoc_app in Post.
        assert (Q : forall r, ent t (P ++ n :: r) = None) by (intro r; rewrite (r_ent h nx t R), lk_app, LP; cbn [lk]; rewrite Ch; reflexivity).
        assert (Q' : ent (mkdir t P n) (P ++ n :: u :: p) = None).
        { unfold mkdir. rewrite EN. cbn [ent_of ent]. rewrite path_eqb_neq; [apply Q|]. intro C. apply app_cons_inj in C. destruct C; discriminate. }
        change (P ++ n :: u :: p) with (P ++ n :: (u :: p)) in *. rewrite Q. rewrite Q' in Post. cbn [mkdirs] in *. exact Post.
    + destruct p as [|u p]; [|discriminate]. cbn [join]. destruct (ent t (P ++ [n])) as [e|] eqn:Ee.
      * destruct MK as [-> R1]. exists (put h nx (new_node n)), nx, (Some i), false, created. split; [reflexivity|]. split; [discriminate|]. intros _. split; [reflexivity|]. split; [exact R1|].
        intros q c Q. assert (Eh : forall j, j < nx -> put h nx (new_node n) j = h j) by (intros j J; rewrite put_other by lia; reflexivity). rewrite (proj2 (rel_ext h nx t _ R Eh) q). exact Q.
      * destruct MK as (h2 & -> & R3 & L3). set (h3 := put h2 nx _) in *. destruct k as [|k]; [cbn in F; lia|]. cbn [create_loop get_tok skip_dots]. eexists. eexists. eexists. eexists. eexists. split; [reflexivity|]. split; [discriminate|]. intros _.
        split; [reflexivity|]. split; [reflexivity|]. split; [exact R3|]. exists nx. split; [reflexivity|exact L3].
Qed.

(** ** Moves *)
Lemma length_join p : Forall good_name p -> List.length p <= String.length (join p).
Proof.
  induction p as [|t p IH]; intro G; [cbn; lia|]. inversion G as [|? ? [G1 G2] G3]; subst. specialize (IH G3). assert (1 <= String.length t) by (destruct t; [congruence|cbn; lia]). destruct p as [|u p]; [cbn in *; lia|].
  rewrite join_cons, !length_app by discriminate. change (String.length (String dot (join (u :: p)))) with (S (String.length (join (u :: p)))). change (List.length (t :: u :: p)) with (S (List.length (u :: p))). lia.
Qed.
Lemma drop_app t s : drop (String.length t) (t ++ s) = s. Proof. induction t as [|c t IH]; [destruct s; reflexivity|exact IH]. Qed.
Lemma drop_plus n : forall m s, drop (n + m) s = drop m (drop n s). Proof. induction n as [|n IH]; intros m s; [destruct s; reflexivity|]. cbn [plus drop]. destruct s; [destruct m; reflexivity|apply IH]. Qed.
Lemma find_ok h nx : wf h nx -> forall p i fuel, i < nx -> p <> [] -> Forall good_name p -> (forall n, In n p -> In n U) -> List.length p < fuel -> find_node H fuel h i (join p) = Some (lk h i p).
Proof.
  intro W. induction p as [|t p IH]; intros i fuel L N G IU F; [congruence|]. destruct fuel as [|k]; [lia|]. inversion G as [|? ? G1 G2]; subst. cbn [find_node lk]. rewrite get_tok_join by exact G1.
  rewrite (search_child h nx i t W L (IU t (or_introl eq_refl))). destruct (child h i t) as [r|] eqn:C; [|reflexivity]. destruct p as [|u p]; [destruct r; reflexivity|].
  destruct r as [c|n v]; [|reflexivity]. assert (D : drop (String.length t + 1) (join (t :: u :: p)) = join (u :: p)).
  { rewrite join_cons by discriminate. rewrite drop_plus, drop_app. destruct (join (u :: p)); reflexivity. }
  rewrite D. assert (Ne : join (u :: p) <> "") by (apply join_nonempty; [exact G2|discriminate]). destruct (join (u :: p)) eqn:E; [congruence|]. apply IH; [|discriminate|exact G2|intros n I; apply IU; right; exact I|cbn in *; lia].
  apply child_in in C. destruct (w_kid h nx W i c L (proj1 C)). lia.
Qed.
Lemma ancestor_ok h nx : wf h nx -> forall n P c, lk h 0 P = Some (RNode c) ->
  if n <=? List.length P then exists a, ancestor h c n = Some a /\ lk h 0 (firstn (List.length P - n) P) = Some (RNode a) else ancestor h c n = None.
Proof.
  intro W. induction n as [|k IH]; intros P c L.
  - cbn. exists c. split; [reflexivity|]. rewrite Nat.sub_0_r, firstn_all. exact L.
  - destruct (list_eq_dec string_dec P []) as [-> |N].
    + injection L as <-. cbn. rewrite (w_root h nx W). reflexivity.
    + destruct (exists_last N) as (P' & m & ->). destruct (lk_up h nx P' m c W L) as (i & L1 & L2 & _ & L4 & _ & L6). cbn [ancestor]. rewrite L4. rewrite app_length, Nat.add_1_r. cbn [List.length Nat.leb Nat.sub].
      destruct (Nat.eqb_spec i 0) as [-> |Ni].
      * rewrite (lk_unique h nx W 0 P' [] L1 eq_refl). destruct k; [|reflexivity]. exists 0. split; reflexivity.
      * specialize (IH P' i L1). destruct (k <=? List.length P') eqn:E; [|exact IH]. destruct IH as (a & A1 & A2). exists a. split; [exact A1|]. rewrite firstn_app. apply Nat.leb_le in E.
        replace (List.length P' - k - List.length P') with 0 by lia. rewrite app_nil_r. exact A2.
Qed.

(** ** Purge *)
Inductive desc (h : heap) (c : nat) : nat -> Prop := d_self : desc h c c | d_kid j d : desc h c j -> In (RNode d) (cont (h j)) -> desc h c d.
Definition kids_up (nx : nat) (h : heap) : Prop := forall j c, j < nx -> In (RNode c) (cont (h j)) -> j < c < nx.
Definition cleared (n : node V) : node V := Nd (nname n) None [] 0 [].
Fixpoint each_of (f : heap -> nat -> option heap) (l : list ref) (h : heap) : option heap :=
  match l with
  | [] => Some h
  | RNode c :: r => match f h c with None => None | Some h => each_of f r h end
  | RLeaf _ _ :: r => each_of f r h
  end.
Lemma purge_S k (h : heap) i : purge (S k) h i =
  let h := put h i (Nd (nname (h i)) None (cont (h i)) (mx (h i)) (bt (h i))) in
  match each_of (purge k) (cont (h i)) h with None => None | Some h => Some (put h i (Nd (nname (h i)) (par (h i)) [] 0 [])) end.
Proof.
  cbn [purge]. cbv zeta. set (h0 := put h i _). set (e := fix each (l : list ref) (h : heap) : option heap := match l with [] => _ | _ => _ end).
  assert (E : forall l h1, e l h1 = each_of (purge k) l h1). { induction l as [|[c|n v] l IH]; intro h1; [reflexivity| |apply IH]. change (e (RNode c :: l) h1) with (match purge k h1 c with None => None | Some h2 => e l h2 end). cbn [each_of]. destruct (purge k h1 c); [apply IH|reflexivity]. }
  rewrite E. reflexivity.
Qed.
Lemma desc_cont h h' c j : (forall k, cont (h' k) = cont (h k) \/ cont (h' k) = []) -> desc h' c j -> desc h c j.
Proof.
  intros E D. induction D as [|j d D IH I]; [constructor|]. apply (d_kid h c j d IH). destruct (E j) as [Q|Q]; rewrite Q in I; [exact I|destruct I].
Qed.
Lemma desc_lt nx h c j : kids_up nx h -> c < nx -> desc h c j -> c <= j < nx.
Proof. intros K L D. induction D as [|j d D IH I]; [lia|]. destruct (K j d ltac:(lia) I). lia. Qed.
Lemma desc_trans h a b c : desc h a b -> desc h b c -> desc h a c.
Proof. intros A B. induction B as [|j d B IH I]; [exact A|]. apply (d_kid h a j d IH I). Qed.
Lemma purge_ok nx : forall fuel h i, i < nx -> nx - i <= fuel -> kids_up nx h -> exists h', purge fuel h i = Some h' /\ (forall j, desc h i j -> h' j = cleared (h j)) /\ (forall j, h' j = h j \/ (desc h i j /\ h' j = cleared (h j))).
Proof.
  induction fuel as [|k IH]; intros h i L F K; [lia|]. rewrite purge_S. cbv zeta. set (h0 := put h i _). assert (C0 : forall j, cont (h0 j) = cont (h j)) by (intro j; unfold h0, put; destruct (Nat.eqb_spec j i); [subst; reflexivity|reflexivity]).
  assert (K0 : kids_up nx h0) by (intros j c J I; rewrite C0 in I; exact (K j c J I)).
  assert (Each : forall l h1, kids_up nx h1 -> (forall c, In (RNode c) l -> i < c < nx) -> exists h2, each_of (purge k) l h1 = Some h2 /\ (forall j c, In (RNode c) l -> desc h1 c j -> h2 j = cleared (h1 j)) /\
     (forall j, h2 j = h1 j \/ ((exists c, In (RNode c) l /\ desc h1 c j) /\ h2 j = cleared (h1 j)))).
  { induction l as [|r l IHl]; intros h1 K1 A; [exists h1; split; [reflexivity|]; split; [intros j c []|auto]|]. destruct r as [c|n v].
    - cbn [each_of]. destruct (A c (or_introl eq_refl)) as [A1 A2]. destruct (IH h1 c A2 ltac:(lia) K1) as (h2 & -> & P1 & P2).
      assert (Cc : forall j, cont (h2 j) = cont (h1 j) \/ cont (h2 j) = []) by (intro j; destruct (P2 j) as [-> |[_ ->]]; auto).
      assert (K2 : kids_up nx h2) by (intros j d J I; destruct (Cc j) as [E|E]; rewrite E in I; [exact (K1 j d J I)|destruct I]).
      destruct (IHl h2 K2 (fun d D => A d (or_intror D))) as (h3 & -> & Q1 & Q2). exists h3. split; [reflexivity|].
      assert (Cl : forall j, cleared (h2 j) = cleared (h1 j)) by (intro j; destruct (P2 j) as [-> |[_ ->]]; reflexivity).
      assert (Dd : forall d j, desc h1 d j -> desc h2 d j \/ desc h1 c j).
      { intros d j D. induction D as [|j e D IHD I]; [left; constructor|]. destruct IHD as [D2|D2]; [|right; apply (d_kid h1 c j e D2 I)]. destruct (P2 j) as [E|[E _]]; [left; apply (d_kid h2 d j e D2); rewrite E; exact I|right; apply (d_kid h1 c j e E I)]. }
      assert (Keep : forall j, h2 j = cleared (h1 j) -> h3 j = cleared (h1 j)) by (intros j E; destruct (Q2 j) as [-> |[_ ->]]; [exact E|apply Cl]).
      split.
      + intros j d [Ed|I] D; [injection Ed as <-; apply Keep; apply P1; exact D|]. destruct (Dd d j D) as [D2|D2]; [rewrite (Q1 j d I D2); apply Cl|apply Keep; apply P1; exact D2].
      + intro j. destruct (Q2 j) as [E|[(d & D1 & D2) E]].
        * destruct (P2 j) as [E2|[D E2]]; [left; congruence|]. right. split; [exists c; split; [left; reflexivity|exact D]|congruence].
        * right. split; [|rewrite E; apply Cl]. exists d. split; [right; exact D1|]. apply (desc_cont h1 h2 d j Cc D2).
    - cbn [each_of]. destruct (IHl h1 K1 (fun d D => A d (or_intror D))) as (h3 & -> & Q1 & Q2). exists h3. split; [reflexivity|]. split.
      + intros j d [Ed|I] D; [discriminate|]. apply (Q1 j d I D).
      + intro j. destruct (Q2 j) as [E|[(d & D1 & D2) E]]; [left; exact E|]. right. split; [|exact E]. exists d. split; [right; exact D1|exact D2]. }
  destruct (Each (cont (h0 i)) h0 K0 (fun c I => K0 i c L I)) as (h2 & -> & Q1 & Q2). eexists. split; [reflexivity|].
  assert (N0 : forall j, cleared (h0 j) = cleared (h j)) by (intro j; unfold h0, put; destruct (Nat.eqb_spec j i); [subst; reflexivity|reflexivity]).
  assert (H2i : nname (h2 i) = nname (h i) /\ par (h2 i) = None).
  { assert (B : nname (h0 i) = nname (h i) /\ par (h0 i) = None) by (unfold h0; rewrite put_same; split; reflexivity). destruct (Q2 i) as [-> |[_ ->]]; [exact B|]. cbn. split; [apply B|reflexivity]. }
  assert (Fi : put h2 i (Nd (nname (h2 i)) (par (h2 i)) [] 0 []) i = cleared (h i)) by (rewrite put_same; destruct H2i as [-> ->]; reflexivity).
  assert (Dk : forall j, desc h i j -> j = i \/ exists c, In (RNode c) (cont (h0 i)) /\ desc h0 c j).
  { intros j D. induction D as [|j d D IHD I]; [left; reflexivity|]. right. destruct IHD as [-> |(c & C1 & C2)]; [exists d; rewrite C0; split; [exact I|constructor]|]. exists c. split; [exact C1|]. apply (d_kid h0 c j d C2). rewrite C0. exact I. }
  split.
  - intros j D. destruct (Nat.eq_dec j i) as [-> |Nj]; [exact Fi|]. rewrite put_other by exact Nj. destruct (Dk j D) as [-> |(c & C1 & C2)]; [congruence|]. rewrite (Q1 j c C1 C2). apply N0.
  - intro j. destruct (Nat.eq_dec j i) as [-> |Nj]; [right; split; [constructor|exact Fi]|]. rewrite put_other by exact Nj. destruct (Q2 j) as [E|[(c & C1 & C2) E]].
    + left. rewrite E. unfold h0. rewrite put_other by exact Nj. reflexivity.
    + right. split; [|rewrite E; apply N0]. rewrite C0 in C1. apply (desc_trans h i c j).
      * apply (d_kid h i i c); [constructor|exact C1].
      * apply (desc_cont h h0 c j); [intro m; left; apply C0|exact C2].
Qed.
Lemma wf_kids h nx : wf h nx -> kids_up nx h. Proof. intros W j c J I. apply (w_kid h nx W j c J I). Qed.
Lemma purge_rel h nx t c : rel h nx t -> c <> 0 -> c < nx -> (forall k, k < nx -> ~ In (RNode c) (cont (h k))) -> exists h', purge (S nx) h c = Some h' /\ rel h' nx t /\ forall p, lk h' 0 p = lk h 0 p.
Proof.
  intros [W RE RN] C0 L Free. destruct (purge_ok nx (S nx) h c L ltac:(lia) (wf_kids h nx W)) as (h' & E & P1 & P2). exists h'. split; [exact E|].
  assert (SN : forall j, nname (h' j) = nname (h j)) by (intro j; destruct (P2 j) as [-> |[_ ->]]; reflexivity).
  assert (SR : forall r, rname h' r = rname h r) by (intros [d|n v]; [apply SN|reflexivity]).
  assert (NR : forall x, desc h c x -> forall p, lk h 0 p <> Some (RNode x)).
  { intros x D. induction D as [|j d D IH I]; intros p Q.
    - destruct (list_eq_dec string_dec p []) as [-> |N]; [injection Q as Q; congruence|]. destruct (exists_last N) as (p' & m & ->). destruct (lk_up h nx p' m c W Q) as (i & _ & L2 & L3 & _). exact (Free i L2 L3).
    - destruct (desc_lt nx h c j (wf_kids h nx W) L D) as [_ Lj]. destruct (w_kid h nx W j d Lj I) as [Kd Pd].
      destruct (list_eq_dec string_dec p []) as [-> |N]; [injection Q as Q; lia|]. destruct (exists_last N) as (p' & m & ->). destruct (lk_up h nx p' m d W Q) as (i & L1 & _ & _ & L4 & _). assert (i = j) by congruence. subst i. exact (IH p' L1). }
  assert (LK : forall p, lk h' 0 p = lk h 0 p).
  { intro p. apply (lk_same h nx h' p W (fun j _ => SN j) 0 (w_pos h nx W)). intros a b x _ _ Q. destruct (P2 x) as [-> |[D _]]; [reflexivity|]. exact (False_ind _ (NR x D a Q)). }
  assert (H0 : h' 0 = h 0). { destruct (P2 0) as [E0|[D _]]; [exact E0|]. exact (False_ind _ (NR 0 D [] eq_refl)). }
  split; [|exact LK]. constructor.
  - constructor.
    + exact (w_pos h nx W).
    + rewrite H0. exact (w_root h nx W).
    + intros k K. destruct (P2 k) as [-> |[_ ->]]; [|reflexivity]. rewrite (w_bt h nx W k K). f_equal. apply map_ext. intro r. rewrite SR. reflexivity.
    + intros k K. destruct (P2 k) as [-> |[_ ->]]; [|constructor]. rewrite (map_ext _ _ SR). exact (w_nodup h nx W k K).
    + intros k r K I. rewrite SR. destruct (P2 k) as [Q|[_ Q]]; rewrite Q in I; [exact (w_ok h nx W k r K I)|destruct I].
    + intros k d K I. destruct (P2 k) as [Q|[_ Q]]; rewrite Q in I; [|destruct I]. destruct (w_kid h nx W k d K I) as [K1 K2]. split; [exact K1|]. destruct (P2 d) as [-> |[D _]]; [exact K2|]. exfalso.
      inversion D as [|j d' D' I']; subst; [exact (Free k K I)|]. destruct (desc_lt nx h c j (wf_kids h nx W) L D') as [_ Lj]. destruct (w_kid h nx W j d Lj I') as [_ Pd]. assert (j = k) by congruence. subst j.
      pose proof (P1 k D') as Cl. rewrite Q in Cl. rewrite Cl in I. destruct I.
    + intros k K. destruct (P2 k) as [-> |[_ ->]]; [exact (w_mx h nx W k K)|cbn; lia].
  - intro p. rewrite LK. apply RE.
  - intros p x Q. rewrite LK in Q. rewrite (RN p x Q). destruct (P2 x) as [-> |[D _]]; [|exact (False_ind _ (NR x D p Q))]. apply map_ext. intro r. symmetry. apply SR.
Qed.

(** ** Delete *)
Lemma remove_filter {A} (f : A -> string) (l : list A) : NoDup (map f l) -> forall j y, nth_error l j = Some y -> firstn j l ++ skipn (S j) l = filter (fun x => negb (String.eqb (f y) (f x))) l.
Proof.
  induction l as [|x l IH]; intros D j y N; [destruct j; discriminate|]. cbn [map] in D. inversion D as [|? ? D1 D2]; subst. destruct j as [|j].
  - cbn in N. injection N as ->. cbn [firstn skipn app filter]. rewrite String.eqb_refl. cbn [negb]. symmetry. clear D IH. induction l as [|z l IHl]; [reflexivity|]. cbn [map] in *. inversion D2; subst. cbn [filter].
    rewrite (proj2 (String.eqb_neq (f y) (f z))) by (intro C; apply D1; left; congruence). cbn [negb]. f_equal. apply IHl; auto. intro C. apply D1. right. exact C.
  - cbn [nth_error] in N. change (firstn (S j) (x :: l) ++ skipn (S (S j)) (x :: l)) with (x :: (firstn j l ++ skipn (S j) l)). cbn [filter]. rewrite (proj2 (String.eqb_neq (f y) (f x))).
    + cbn [negb]. f_equal. apply IH; assumption.
    + intro C. apply D1. rewrite <- C. apply in_map. apply nth_error_In with j. exact N.
Qed.
Lemma rebuild_ok (h : heap) : forall l2 l1, NoDup (map (rname h) (l1 ++ l2)) -> (forall r, In r (l1 ++ l2) -> In (rname h r) U) ->
  rebuild H h l2 (List.length l1) (ixs 0 (map (fun r => H (rname h r)) l1)) = (true, ixs 0 (map (fun r => H (rname h r)) (l1 ++ l2))).
Proof.
  induction l2 as [|r l2 IH]; intros l1 D O; [rewrite app_nil_r; reflexivity|]. cbn [rebuild].
  assert (Or : In (rname h r) U) by (apply O; apply in_or_app; right; left; reflexivity).
  pose proof (bt_find h (rname h r) l1 Or (fun x X => O x (in_or_app _ _ _ (or_introl X))) 0) as B. destruct (bt_search _ _) as [j|].
  - exfalso. destruct B as (_ & _ & B). destruct (List.find (is h (rname h r)) l1) as [y|] eqn:F; [|congruence]. apply find_some in F. destruct F as [F1 F2]. apply String.eqb_eq in F2. rewrite map_app in D. cbn [map] in D. apply NoDup_remove_2 in D. apply D. apply in_or_app. left. rewrite <- F2. apply in_map. exact F1.
  - replace (ixs 0 (map (fun r0 => H (rname h r0)) l1) ++ [(H (rname h r), List.length l1)]) with (ixs 0 (map (fun r0 => H (rname h r0)) (l1 ++ [r]))) by (rewrite map_app; cbn [map]; rewrite ixs_snoc, map_length; reflexivity).
    replace (S (List.length l1)) with (List.length (l1 ++ [r])) by (rewrite app_length; cbn; lia). rewrite IH; rewrite <- app_assoc; [reflexivity|exact D|exact O].
Qed.
Lemma find_filter (h : heap) n w l : List.find (is h w) (filter (fun x => negb (String.eqb n (rname h x))) l) = if String.eqb n w then None else List.find (is h w) l.
Proof.
  induction l as [|x l IH]; [destruct (String.eqb n w); reflexivity|]. cbn [filter List.find]. destruct (is h w x) eqn:E.
  - apply String.eqb_eq in E. subst w. destruct (String.eqb_spec n (rname h x)) as [Q|N]; cbn [negb]; [exact IH|]. cbn [List.find]. unfold is. rewrite String.eqb_refl. reflexivity.
  - destruct (String.eqb_spec n (rname h x)) as [Q|N]; cbn [negb]; [exact IH|]. cbn [List.find]. rewrite E. exact IH.
Qed.
Lemma filter_names (h : heap) n l : map (rname h) (filter (fun x => negb (String.eqb n (rname h x))) l) = filter (fun m => negb (String.eqb n m)) (map (rname h) l).
Proof. induction l as [|x l IH]; [reflexivity|]. cbn [filter map]. destruct (String.eqb n (rname h x)); cbn [negb map]; [exact IH|]. rewrite IH. reflexivity. Qed.
Lemma NoDup_filter_ {A} (f : A -> bool) l : NoDup l -> NoDup (filter f l).
Proof. induction 1 as [|x l N D IH]; [constructor|]. cbn. destruct (f x); [|exact IH]. constructor; [|exact IH]. intro C. apply filter_In in C. apply N. apply C. Qed.

Lemma delete_ok h nx t P i n r : rel h nx t -> lk h 0 P = Some (RNode i) -> In n U -> child h i n = Some r ->
  exists h', delete H (S nx) h i r = Some (true, h') /\ rel h' nx (del t P n) /\ lk h' 0 P = Some (RNode i).
Proof.
  intros R LP IU Ch. pose proof R as [W RE RN]. assert (L : i < nx) by (apply (lk_range h nx P W 0 i (w_pos h nx W) LP)). destruct (child_in h i n r Ch) as [Ir Nr].
  unfold delete. rewrite Nr, (w_bt h nx W i L). pose proof (bt_find h n (cont (h i)) IU (fun r R => w_ok h nx W i r L R) 0) as B. destruct (bt_search _ _) as [j|]; [|unfold child in Ch; congruence].
  destruct B as (B1 & B2 & _). rewrite Nat.sub_0_r in B2. fold (child h i n) in B2. rewrite Ch in B2. rewrite (proj2 (Nat.ltb_lt j _)) by lia.
  set (size := List.length (cont (h i)) - 1). set (m := if size <? mx (h i) / 2 then Nat.max (mx (h i) / 2) size else mx (h i)).
  assert (Lm : size <= m). { unfold m. pose proof (w_mx h nx W i L). destruct (size <? mx (h i) / 2); [apply Nat.le_max_r|unfold size; lia]. }
  rewrite (proj2 (Nat.ltb_ge m size) Lm). rewrite (remove_filter (rname h) (cont (h i)) (w_nodup h nx W i L) j r B2), Nr. set (l := filter _ (cont (h i))).
  assert (Ll : List.length l = size).
  { unfold l, size. rewrite <- Nr, <- (remove_filter (rname h) (cont (h i)) (w_nodup h nx W i L) j r B2), app_length, firstn_length, skipn_length. lia. }
  assert (Dl : NoDup (map (rname h) l)) by (unfold l; rewrite filter_names; apply NoDup_filter_; exact (w_nodup h nx W i L)).
  assert (Il : forall x, In x l -> In x (cont (h i)) /\ rname h x <> n). { intros x X. unfold l in X. apply filter_In in X. destruct X as [X1 X2]. split; [exact X1|]. apply negb_true_iff, String.eqb_neq in X2. congruence. }
  pose proof (rebuild_ok h l [] Dl (fun x X => w_ok h nx W i x L (proj1 (Il x X)))) as RB. cbn [List.length map ixs app] in RB. rewrite RB.
  set (m' := if 0 <? size then m else 0). assert (Lm' : List.length l <= m') by (rewrite Ll; unfold m'; destruct (Nat.ltb_spec 0 size); lia).
  set (h1 := put h i _). assert (Hi : h1 i = Nd (nname (h i)) (par (h i)) l m' (ixs 0 (map (fun r0 => H (rname h r0)) l))) by (unfold h1; rewrite put_same; reflexivity).
  assert (Hk : forall k, k <> i -> h1 k = h k) by (intros k Nk; unfold h1; rewrite put_other by exact Nk; reflexivity). clearbody h1.
  assert (SN : forall k, nname (h1 k) = nname (h k)) by (intro k; destruct (Nat.eq_dec k i) as [-> |Nk]; [rewrite Hi; reflexivity|rewrite Hk by exact Nk; reflexivity]).
  assert (SP : forall k, par (h1 k) = par (h k)) by (intro k; destruct (Nat.eq_dec k i) as [-> |Nk]; [rewrite Hi; reflexivity|rewrite Hk by exact Nk; reflexivity]).
  assert (SR : forall x, rname h1 x = rname h x) by (intros [d|w u]; [apply SN|reflexivity]).
  assert (Sa : forall k, k < nx -> k <> i -> cont (h1 k) = cont (h k)) by (intros k _ Nk; rewrite Hk by exact Nk; reflexivity).
  assert (SN' : forall k, k < nx -> nname (h1 k) = nname (h k)) by (intros; apply SN).
  assert (Cc : forall w, child h1 i w = if String.eqb n w then None else child h i w).
  { intro w. unfold child. rewrite Hi. cbn [cont]. rewrite (find_ext (is h1 w) (is h w)) by (intros x _; unfold is; rewrite SR; reflexivity). apply find_filter. }
  assert (W1 : wf h1 nx).
  { constructor.
    - exact (w_pos h nx W).
    - rewrite SP. exact (w_root h nx W).
    - intros k K. rewrite (map_ext (fun r0 => H (rname h1 r0)) (fun r0 => H (rname h r0))) by (intro; rewrite SR; reflexivity). destruct (Nat.eq_dec k i) as [-> |Nk]; [rewrite Hi; reflexivity|rewrite Hk by exact Nk; exact (w_bt h nx W k K)].
    - intros k K. rewrite (map_ext _ _ SR). destruct (Nat.eq_dec k i) as [-> |Nk]; [rewrite Hi; exact Dl|rewrite Hk by exact Nk; exact (w_nodup h nx W k K)].
    - intros k x K X. rewrite SR. destruct (Nat.eq_dec k i) as [-> |Nk]; [rewrite Hi in X; apply (w_ok h nx W i x L); apply Il; exact X|rewrite Hk in X by exact Nk; exact (w_ok h nx W k x K X)].
    - intros k c K X. rewrite SP. apply (w_kid h nx W k c K). destruct (Nat.eq_dec k i) as [-> |Nk]; [rewrite Hi in X; apply Il; exact X|rewrite Hk in X by exact Nk; exact X].
    - intros k K. destruct (Nat.eq_dec k i) as [-> |Nk]; [rewrite Hi; exact Lm'|rewrite Hk by exact Nk; exact (w_mx h nx W k K)]. }
  pose proof (change_away h h1 nx i P W LP Sa SN') as CA. pose proof (change_under h h1 nx i P W LP Sa SN') as CU. pose proof (change_kept h h1 nx i P W LP Sa SN') as CK. pose proof (change_P h h1 nx i P W LP Sa SN') as CP.
  assert (Un : forall q, lk h1 0 (P ++ n :: q) = None) by (intro q; rewrite CU; cbn [lk]; rewrite Cc, String.eqb_refl; reflexivity).
  assert (Ot : forall q, (forall s, q <> P ++ n :: s) -> lk h1 0 q = lk h 0 q).
  { intros q D. destruct (under_dec P q) as [(w & s & ->)|D']; [|apply CA; exact D']. apply CK. rewrite Cc. rewrite (proj2 (String.eqb_neq n w)); [reflexivity|]. intros ->. apply (D s). reflexivity. }
  assert (R1 : rel h1 nx (del t P n)).
  { constructor; [exact W1| |].
    - intro q. cbn [ent del]. destruct (strip (P ++ [n]) q) as [s|] eqn:Sq.
      + apply strip_spec in Sq. rewrite snoc_app in Sq. subst q. rewrite Un. reflexivity.
      + rewrite RE, Ot; [reflexivity|]. intros s Q. pose proof (proj1 (strip_none _ _) Sq s) as C. rewrite snoc_app in C. contradiction.
    - intros q c Q. cbn [names del]. rewrite (map_ext _ _ SR). destruct (path_eqb P q) eqn:E.
      + apply path_eqb_spec in E. subst q. assert (c = i) by congruence. subst c. rewrite Hi. cbn [cont]. unfold l. rewrite filter_names, (RN P i LP). reflexivity.
      + assert (Nc : c <> i). { intros ->. rewrite (lk_unique h1 nx W1 i P q CP Q), path_eqb_refl in E. discriminate. } rewrite Hk by exact Nc. apply RN. rewrite Ot in Q; [exact Q|]. intros s ->. rewrite Un in Q. discriminate. }
  destruct r as [c|w v]; [|exists h1; auto].
  destruct (w_kid h nx W i c L Ir) as [Kc Pc]. set (h2 := put h1 c _).
  assert (Free1 : forall k, k < nx -> ~ In (RNode c) (cont (h1 k))).
  { intros k K C. destruct (w_kid h1 nx W1 k c K C) as [_ Pk]. rewrite SP, Pc in Pk. injection Pk as <-. rewrite Hi in C. cbn [cont] in C. apply Il in C. apply (proj2 C). exact Nr. }
  assert (C2 : forall k, cont (h2 k) = cont (h1 k) /\ nname (h2 k) = nname (h1 k) /\ mx (h2 k) = mx (h1 k) /\ bt (h2 k) = bt (h1 k)) by (intro k; unfold h2, put; destruct (Nat.eqb_spec k c); [subst; repeat split; reflexivity|repeat split; reflexivity]).
  assert (SR2 : forall x, rname h2 x = rname h1 x) by (intros [d|w u]; [apply C2|reflexivity]).
  assert (P2 : forall k, k <> c -> par (h2 k) = par (h1 k)) by (intros k Nk; unfold h2; rewrite put_other by exact Nk; reflexivity).
  assert (LK2 : forall q, lk h2 0 q = lk h1 0 q) by (intro q; apply (lk_same h1 nx h2 q W1); [intros; apply C2|exact (w_pos h1 nx W1)|intros; apply C2]).
  assert (R2 : rel h2 nx (del t P n)).
  { constructor.
    - constructor.
      + exact (w_pos h1 nx W1).
      + rewrite P2 by lia. exact (w_root h1 nx W1).
      + intros k K. destruct (C2 k) as (-> & _ & _ & ->). rewrite (map_ext (fun r0 => H (rname h2 r0)) (fun r0 => H (rname h1 r0))) by (intro; rewrite SR2; reflexivity). exact (w_bt h1 nx W1 k K).
      + intros k K. rewrite (map_ext _ _ SR2). destruct (C2 k) as (-> & _). exact (w_nodup h1 nx W1 k K).
      + intros k x K X. rewrite SR2. destruct (C2 k) as (E & _). rewrite E in X. exact (w_ok h1 nx W1 k x K X).
      + intros k d K X. destruct (C2 k) as (E & _). rewrite E in X. destruct (w_kid h1 nx W1 k d K X) as [K1 K2]. split; [exact K1|]. rewrite P2; [exact K2|]. intros ->. exact (Free1 k K X).
      + intros k K. destruct (C2 k) as (-> & _ & -> & _). exact (w_mx h1 nx W1 k K).
    - intro q. rewrite LK2. apply (r_ent h1 nx _ R1).
    - intros q d Q. rewrite LK2 in Q. rewrite (map_ext _ _ SR2). destruct (C2 d) as (-> & _). apply (r_names h1 nx _ R1). exact Q. }
  destruct (purge_rel h2 nx (del t P n) c R2) as (h3 & -> & R3 & LK3); [lia|lia|intros k K; destruct (C2 k) as (-> & _); exact (Free1 k K)|].
  exists h3. split; [reflexivity|]. split; [exact R3|]. rewrite LK3, LK2. exact CP.
Qed.

(** ** The operations *)
Definition sim (s : db V) (t : tree V) : Prop := rel (hp s) (nxt s) t /\ lk (hp s) 0 (at_ t) = Some (RNode (cur s)).
Lemma rel_at h nx t p : rel h nx t -> rel h nx (move_to t p). Proof. intros [A B C]. constructor; assumption. Qed.
Lemma sim_init : sim init (empty).
Proof.
  split; [|reflexivity]. assert (K : forall p, lk (fun _ => new_node "") 0 p = match p with [] => Some (@RNode V 0) | _ => None end) by (intros [|a p]; reflexivity). constructor.
  - constructor; cbn; try lia; try reflexivity; try (intros; constructor); intros; contradiction.
  - intro p. unfold init, hp. rewrite K. destruct p; reflexivity.
  - intros p c Q. reflexivity.
Qed.
Lemma mk_ok s t base c p fail : rel (hp s) (nxt s) t -> lk (hp s) 0 base = Some (RNode c) -> p <> [] -> Forall good_name p -> (forall n, In n p -> In n U) -> no_value_on t base p -> lk (hp s) 0 fail = Some (RNode c) ->
  exists b s', create H s c (join p) = Some (b, s') /\ Ok b = fst (mk t base p fail) /\ sim s' (snd (mk t base p fail)).
Proof.
  intros R LB N G IU NV LF. unfold create. assert (Ne : join p <> "") by (apply join_nonempty; assumption).
  assert (E : forall A (x y : A), match join p with EmptyString => x | _ => y end = y) by (intros; destruct (join p); congruence). rewrite E. clear E.
  destruct (create_ok p (hp s) (nxt s) t base c false (S (String.length (join p))) R LB G IU NV ltac:(pose proof (length_join p G); lia)) as (h' & nx' & c' & ok & cr & -> & _ & K). specialize (K N).
  unfold mk. destruct (ent t (base ++ p)) eqn:E.
  - destruct K as (-> & R' & K). exists false, (Db h' nx' c). split; [destruct c' as [d|]; reflexivity|]. split; [reflexivity|]. split; [apply rel_at; exact R'|]. cbn. apply K. exact LF.
  - destruct K as (-> & -> & R' & d & -> & L). exists true, (Db h' nx' d). split; [reflexivity|]. split; [reflexivity|]. split; [apply rel_at; exact R'|exact L].
Qed.
Lemma go_ok s t base p c : sim s t -> lk (hp s) 0 base = Some (RNode c) -> p <> [] -> Forall good_name p -> (forall n, In n p -> In n U) ->
  exists s', move H s c (join p) = Some (fst (go t (base ++ p)), s') /\ sim s' (snd (go t (base ++ p))).
Proof.
  intros [R LC] LB N G IU. pose proof R as [W RE RN]. unfold move. pose proof (length_join p G).
  assert (L : c < nxt s) by (apply (lk_range (hp s) (nxt s) base W 0 c (w_pos _ _ W) LB)). rewrite (find_ok (hp s) (nxt s) W p c (S (String.length (join p))) L N G IU ltac:(lia)).
  pose proof (RE (base ++ p)) as E. rewrite lk_app, LB in E. unfold go, is_dir. rewrite E. destruct (lk (hp s) c p) as [[d|n v]|] eqn:F; cbn [ent_of fst snd].
  - eexists. split; [reflexivity|]. split; [apply rel_at; exact R|]. cbn. rewrite lk_app, LB. exact F.
  - exists s. split; [reflexivity|]. split; assumption.
  - exists s. split; [reflexivity|]. split; assumption.
Qed.
Lemma step_ok s t o : sim s t -> good_paths o -> (forall n, In n (used o) -> In n U) -> clear_way t o -> exists s', step H s (call o) = Some (fst (sstep t o), s') /\ sim s' (snd (sstep t o)).
Proof.
  intros S G IU CW. pose proof S as [R LC]. pose proof R as [W RE RN]. assert (L : cur s < nxt s) by (apply (lk_range (hp s) (nxt s) (at_ t) W 0 _ (w_pos _ _ W) LC)).
  assert (EC : forall n, ent t (at_ t ++ [n]) = ent_of (child (hp s) (cur s) n)). { intro n. rewrite RE, lk_app, LC. cbn [lk]. destruct (child (hp s) (cur s) n) as [[d|m v]|]; reflexivity. }
  pose proof (RN (at_ t) (cur s) LC) as NM.
  destruct o as [n v|n|p|p|p|p|i|n| |n| |i|]; cbn [call step sstep good_paths used clear_way] in *.
  - destruct (String.eqb_spec n "") as [-> |Nn]; [exists s; split; [reflexivity|exact S]|].
    destruct (write_ok (hp s) (nxt s) t (at_ t) (cur s) n v R LC (IU n (or_introl eq_refl))) as (h' & E & R' & L'). destruct n as [|a n]; [congruence|]. rewrite E. eexists. split; [reflexivity|]. split; [exact R'|exact L'].
  - exists s. split; [|exact S]. rewrite (search_child (hp s) (nxt s) (cur s) n W L (IU n (or_introl eq_refl))), EC. destruct (child (hp s) (cur s) n) as [[d|m v]|]; reflexivity.
  - destruct G as [G1 G2]. destruct (mk_ok s t [] 0 p [] R eq_refl G1 G2 IU CW eq_refl) as (b & s' & -> & -> & S'). exists s'. split; [reflexivity|exact S'].
  - destruct G as [G1 G2]. destruct (mk_ok s t (at_ t) (cur s) p (at_ t) R LC G1 G2 IU CW LC) as (b & s' & -> & -> & S'). exists s'. split; [reflexivity|exact S'].
  - destruct G as [G1 G2]. exact (go_ok s t [] p 0 S eq_refl G1 G2 IU).
  - destruct G as [G1 G2]. exact (go_ok s t (at_ t) p (cur s) S LC G1 G2 IU).
  - rewrite NM. destruct (nth_error (cont (hp s (cur s))) i) as [r|] eqn:E.
    + rewrite (map_nth_error (rname (hp s)) i _ E). unfold go, is_dir. rewrite EC, (child_of (hp s) (nxt s) (cur s) r W L (nth_error_In _ _ E)). destruct r as [c|m v]; cbn [ent_of fst snd].
      * eexists. split; [reflexivity|]. split; [apply rel_at; exact R|]. cbn [at_ move_to hp cur]. rewrite lk_app, LC. cbn [lk]. rewrite (child_of (hp s) (nxt s) (cur s) (RNode c) W L (nth_error_In _ _ E)). reflexivity.
      * exists s. split; [reflexivity|exact S].
    + rewrite (proj2 (nth_error_None (map (rname (hp s)) (cont (hp s (cur s)))) i)) by (rewrite map_length; apply nth_error_None; exact E). exists s. split; [reflexivity|exact S].
  - destruct n as [|n]; [exists s; split; [reflexivity|exact S]|]. change (1 <=? Datatypes.S n) with true. cbn [andb]. pose proof (ancestor_ok (hp s) (nxt s) W (Datatypes.S n) (at_ t) (cur s) LC) as A. destruct (Datatypes.S n <=? List.length (at_ t)).
    + destruct A as (a & -> & A). eexists. split; [reflexivity|]. split; [apply rel_at; exact R|exact A].
    + rewrite A. exists s. split; [reflexivity|exact S].
  - eexists. split; [reflexivity|]. split; [apply rel_at; exact R|reflexivity].
  - rewrite (search_child (hp s) (nxt s) (cur s) n W L (IU n (or_introl eq_refl))), EC. destruct (child (hp s) (cur s) n) as [r|] eqn:C; cbn [ent_of]; [|exists s; split; [reflexivity|exact S]].
    destruct (delete_ok (hp s) (nxt s) t (at_ t) (cur s) n r R LC (IU n (or_introl eq_refl)) C) as (h' & -> & R' & L'). destruct r as [c|m v]; eexists; (split; [reflexivity|split; [exact R'|exact L']]).
  - exists s. split; [|exact S]. rewrite NM, map_length. reflexivity.
  - exists s. split; [|exact S]. rewrite NM. cbn. f_equal. f_equal. f_equal. destruct (nth_error (cont (hp s (cur s))) i) as [r|] eqn:E.
    + symmetry. apply map_nth_error. exact E.
    + symmetry. apply nth_error_None. rewrite map_length. apply nth_error_None. exact E.
  - exists s. split; [|exact S]. cbn. f_equal. f_equal. f_equal. destruct (list_eq_dec string_dec (at_ t) []) as [E|N].
    + rewrite E in *. injection LC as <-. reflexivity.
    + destruct (exists_last N) as (P' & m & E). rewrite E in *. destruct (lk_up (hp s) (nxt s) P' m (cur s) W LC) as (i & _ & _ & _ & _ & Nm & I). rewrite rev_app_distr. cbn [rev app]. rewrite (proj2 (Nat.eqb_neq (cur s) 0)) by lia. rewrite Nm. reflexivity.
Qed.
Lemma exec_ok : forall l s t, sim s t -> Forall good_paths l -> (forall n, In n (flat_map used l) -> In n U) -> all_clear t l -> exists s', exec H s (map call l) = Some (fst (srun t l), s') /\ sim s' (snd (srun t l)).
Proof.
  induction l as [|o l IH]; intros s t S G IU C; [exists s; split; [reflexivity|exact S]|]. inversion G as [|? ? G1 G2]; subst. destruct C as [C1 C2]. cbn [map exec srun].
  destruct (step_ok s t o S G1 (fun n I => IU n (in_or_app _ _ _ (or_introl I))) C1) as (s1 & -> & S1). destruct (sstep t o) as [a t1]. cbn [fst snd] in *.
  destruct (IH s1 t1 S1 G2 (fun n I => IU n (in_or_app _ _ _ (or_intror I))) C2) as (s2 & -> & S2). destruct (srun t1 l) as [al t2]. exists s2. split; [reflexivity|exact S2].
Qed.
End DB.
