(** C47: trees and the items that describe them *)
From Coq Require Import String.
From Verif Require Import Base Paths ConfigDB_Model ConfigDB_Spec ConfigDB_Proofs Slk_Model Cfg_Model Cfg_Spec Cfg_Db Cfg_Standard.
Open Scope string_scope. Open Scope nat_scope. Open Scope list_scope.

(** ** Trees of databases *)
Definition closed {V} (t : tree V) : Prop :=
  (forall p n, ent t (p ++ [n]) <> None -> ent t p = Some Dir /\ In n (names t p)) /\ (forall p n, ent t p = Some Dir -> In n (names t p) -> ent t (p ++ [n]) <> None).
Definition orderly {V} (U : list string) (t : tree V) : Prop := forall p, ent t p = Some Dir -> NoDup (names t p) /\ forall n, In n (names t p) -> In n U.
Lemma rel_closed {V} H U (h : heap V) nx t : rel H U h nx t -> closed t /\ orderly U t.
Proof.
  intros R. pose proof (r_wf H U h nx t R) as W. split; [split|].
  - intros p n N. rewrite !(r_ent H U h nx t R) in *. rewrite lk_app in N. destruct (lk h 0 p) as [[c|m v]|] eqn:L; [|cbn in N; congruence|cbn in N; congruence]. split; [reflexivity|].
    rewrite (r_names H U h nx t R p c L). cbn [lk] in N. destruct (child h c n) as [r|] eqn:C; [|cbn in N; congruence]. apply child_in in C. destruct C as [C <-]. apply in_map. exact C.
  - intros p n D I. rewrite !(r_ent H U h nx t R) in *. rewrite lk_app. destruct (lk h 0 p) as [[c|m v]|] eqn:L; [|discriminate|discriminate].
    rewrite (r_names H U h nx t R p c L) in I. apply in_map_iff in I. destruct I as (r & <- & I). destruct (lk_range H U h nx p W 0 c (w_pos H U h nx W) L) as [[_ B] _].
    cbn [lk]. rewrite (child_of H U h nx c r W B I). destruct r; discriminate.
  - intros p D. rewrite (r_ent H U h nx t R) in D. destruct (lk h 0 p) as [[c|m v]|] eqn:L; [|discriminate|discriminate]. rewrite (r_names H U h nx t R p c L).
    destruct (lk_range H U h nx p W 0 c (w_pos H U h nx W) L) as [[_ B] _]. split; [exact (w_nodup H U h nx W c B)|]. intros n I. apply in_map_iff in I. destruct I as (r & <- & I). exact (w_ok H U h nx W c r B I).
Qed.
Lemma closed_none {V} (t : tree V) p q : closed t -> ent t p <> Some Dir -> q <> [] -> ent t (p ++ q) = None.
Proof.
  intros [C _] N. revert p N. induction q as [|n q IH]; intros p N Q; [congruence|]. assert (X : ent t (p ++ [n]) = None).
  { destruct (ent t (p ++ [n])) eqn:E; [|reflexivity]. destruct (C p n) as [D _]; [congruence|]. contradiction. }
  destruct q as [|m q]; [exact X|]. change (n :: m :: q) with ([n] ++ m :: q). rewrite app_assoc. apply IH; [congruence|discriminate].
Qed.

Definition iname (i : item) : string := match i with Leaf n _ _ | Expr n _ _ | Block n _ _ => n end.
Section Spelt.
Context {V : Type} (ok : V -> val -> Prop).
(** The item describes what is at its name in the directory [p]. *)
Fixpoint spelt (t : tree V) (p : path) (i : item) : Prop :=
  match i with
  | Leaf n None v => exists x, ent t (p ++ [n]) = Some (Val x) /\ ok x v
  | Block n i l => ent t (p ++ [n]) = Some Dir /\ names t (p ++ [n]) = iname i :: map iname l /\ spelt t (p ++ [n]) i /\ (fix all l := match l with [] => True | j :: l => spelt t (p ++ [n]) j /\ all l end) l
  | _ => False
  end.
Lemma spelt_block t p n i l : spelt t p (Block n i l) <-> ent t (p ++ [n]) = Some Dir /\ names t (p ++ [n]) = map iname (i :: l) /\ Forall (spelt t (p ++ [n])) (i :: l).
Proof.
  cbn [spelt map]. assert (K : forall l, (fix all l := match l with [] => True | j :: l => spelt t (p ++ [n]) j /\ all l end) l <-> Forall (spelt t (p ++ [n])) l).
  { clear. induction l as [|j l IH]; [split; [constructor|exact (fun _ => Logic.I)]|]. rewrite IH, Forall_cons_iff. reflexivity. }
  rewrite K, Forall_cons_iff. tauto.
Qed.
Lemma spelt_ext i : forall t t' p, (forall r, ent t' (p ++ iname i :: r) = ent t (p ++ iname i :: r) /\ names t' (p ++ iname i :: r) = names t (p ++ iname i :: r)) -> spelt t p i -> spelt t' p i.
Proof.
  induction i as [n c v|n o e|n i l IH1 IH2] using item_ind2; intros t t' p X S; cbn [iname] in X.
  - destruct c; [contradiction|]. destruct S as (x & A & B). exists x. split; [|exact B]. destruct (X []) as [-> _]. exact A.
  - contradiction.
  - apply spelt_block in S. apply spelt_block. destruct S as (A & B & C). destruct (X []) as [-> ->]. split; [exact A|]. split; [exact B|]. assert (F : Forall (fun i => forall t t' p, (forall r, ent t' (p ++ iname i :: r) = ent t (p ++ iname i :: r) /\ names t' (p ++ iname i :: r) = names t (p ++ iname i :: r)) -> spelt t p i -> spelt t' p i) (i :: l)) by (constructor; assumption).
    rewrite Forall_forall in F, C |- *. intros j J. apply (F j J t t'); [|apply C, J]. intros r. rewrite <- !app_assoc. apply (X (iname j :: r)).
Qed.
(** Every tree without empty directories, of limited depth, is described by items. *)
Lemma forall_choice {A B} (R : A -> B -> Prop) l : (forall a, In a l -> exists b, R a b) -> exists m, Forall2 R l m.
Proof. induction l as [|a l IH]; intros K; [exists []; constructor|]. destruct (K a (or_introl eq_refl)) as [b B0]. destruct IH as [m M]; [intros x I; apply K; right; exact I|]. exists (b :: m). constructor; assumption. Qed.
Lemma describe (t : tree V) deepest : closed t -> forall k q, deepest - List.length q <= k -> (forall r, match ent t (q ++ r) with Some Dir => (r <> [] -> names t (q ++ r) <> []) /\ List.length (q ++ r) <= deepest | Some (Val x) => exists v, ok x v | None => True end) ->
  ent t q = Some Dir -> exists l, names t q = map iname l /\ Forall (spelt t q) l /\ forall i, In i l -> depth i + List.length q <= deepest.
Proof.
  intros CL. induction k as [|k IH]; intros q K A D.
  all: assert (X : forall n, In n (names t q) -> exists i, iname i = n /\ spelt t q i /\ depth i + List.length q <= deepest).
  1, 3: intros n I; pose proof (A [n]) as An; destruct (ent t (q ++ [n])) as [[|x]|] eqn:EN; [|destruct An as [v B]; exists (Leaf n None v); split; [reflexivity|]; split; [exists x; auto|]; pose proof (A []) as A0; rewrite app_nil_r, D in A0; cbn [depth]; lia|destruct (proj2 CL q n D I EN)].
  - rewrite app_length in An. cbn in An. lia.
  - destruct An as [N L]. specialize (N ltac:(discriminate)). destruct (IH (q ++ [n])) as (l & B1 & B2 & B3); [rewrite app_length in *; cbn [List.length] in *; lia| |exact EN|].
    { intros r. rewrite <- !app_assoc. cbn [app]. specialize (A (n :: r)). destruct (ent t (q ++ n :: r)) as [[|]|]; [|exact A|exact A]. split; [intros _; apply A; discriminate|apply A]. }
    destruct l as [|i l]; [contradiction|]. exists (Block n i l). split; [reflexivity|]. split; [apply spelt_block; auto|]. rewrite app_length in B3. cbn [List.length] in B3.
    assert (M : fold_right (fun i m => Nat.max (depth i) m) (depth i) l + (List.length q + 1) <= deepest).
    { pose proof (B3 i (or_introl eq_refl)) as Bi. assert (Bl : forall j, In j l -> depth j + (List.length q + 1) <= deepest) by (intros j J; apply B3; right; exact J). clear -Bi Bl. induction l as [|j l IH]; [exact Bi|]. cbn [fold_right]. pose proof (Bl j (or_introl eq_refl)). specialize (IH ltac:(intros x I; apply Bl; right; exact I)). lia. }
    cbn [depth]. lia.
  - destruct (forall_choice (fun n i => iname i = n /\ spelt t q i /\ depth i + List.length q <= deepest) (names t q) X) as [l F]. exists l. clear -F. induction F as [|n i ns l (A & B & C) F (D & E & G)]; [split; [reflexivity|]; split; [constructor|intros i []]|].
    cbn [map]. rewrite A, D. split; [reflexivity|]. split; [constructor; assumption|]. intros j [<-|J]; auto.
  - destruct (forall_choice (fun n i => iname i = n /\ spelt t q i /\ depth i + List.length q <= deepest) (names t q) X) as [l F]. exists l. clear -F. induction F as [|n i ns l (A & B & C) F (D & E & G)]; [split; [reflexivity|]; split; [constructor|intros i []]|].
    cbn [map]. rewrite A, D. split; [reflexivity|]. split; [constructor; assumption|]. intros j [<-|J]; auto.
Qed.
End Spelt.

(** ** Two trees described by the same items *)
Lemma in_names (l : list item) n : In n (map iname l) -> exists i, In i l /\ iname i = n.
Proof. intros I. apply in_map_iff in I. destruct I as (i & A & B). eauto. Qed.
Lemma not_dir {V} (t : tree V) p n : closed t -> ~ In n (names t p) -> ent t (p ++ [n]) = None.
Proof. intros [C _] N. destruct (ent t (p ++ [n])) eqn:E; [|reflexivity]. destruct (C p n) as [_ I]; [congruence|]. contradiction. Qed.
Lemma same_tree {V V'} (ok : V -> val -> Prop) (ok' : V' -> val -> Prop) (W : V -> V' -> Prop) (t : tree V) (t' : tree V') : (forall x x' v, ok x v -> ok' x' v -> W x x') -> closed t -> closed t' ->
  forall q p p' l, ent t p = Some Dir -> ent t' p' = Some Dir -> names t p = map iname l -> names t' p' = map iname l -> Forall (spelt ok t p) l -> Forall (spelt ok' t' p') l ->
  match ent t (p ++ q), ent t' (p' ++ q) with Some Dir, Some Dir => names t' (p' ++ q) = names t (p ++ q) | Some (Val v), Some (Val v') => W v v' | None, None => True | _, _ => False end.
Proof.
  intros K C C'. induction q as [|n q IH]; intros p p' l D D' N N' F F'; [rewrite !app_nil_r, D, D'; congruence|].
  assert (X : (ent t (p ++ [n]) = None /\ ent t' (p' ++ [n]) = None) \/ exists i, In i l /\ iname i = n).
  { destruct (in_dec string_dec n (map iname l)) as [I|I]; [right; apply in_names; exact I|left]. split; apply not_dir; auto; congruence. }
  destruct X as [[X X']|(i & I & <-)].
  - assert (E : forall V (t : tree V) p, closed t -> ent t (p ++ [n]) = None -> ent t (p ++ n :: q) = None).
    { clear. intros V t p C X. destruct q as [|m q]; [exact X|]. change (n :: m :: q) with ([n] ++ m :: q). rewrite app_assoc. apply closed_none; [exact C|congruence|discriminate]. }
    rewrite (E V t p C X), (E V' t' p' C' X'). exact Logic.I.
  - rewrite Forall_forall in F, F'. specialize (F i I). specialize (F' i I). destruct i as [n c v|n o e|n i l']; cbn [iname].
    + destruct c; [contradiction|]. destruct F as (x & A & B). destruct F' as (x' & A' & B'). destruct q as [|m q]; [rewrite A, A'; eauto|]. change (n :: m :: q) with ([n] ++ m :: q). rewrite !app_assoc.
      rewrite (closed_none t), (closed_none t'); auto; congruence.
    + contradiction.
    + apply spelt_block in F, F'. destruct F as (A1 & A2 & A3). destruct F' as (B1 & B2 & B3). specialize (IH (p ++ [n]) (p' ++ [n]) (i :: l') A1 B1 A2 B2 A3 B3). rewrite <- !app_assoc in IH. exact IH.
Qed.

(** ** The items added to a tree *)
Lemma names_set {V} (t : tree V) p n v : closed t -> ent t p = Some Dir -> ent t (p ++ [n]) = None -> names (set t p n v) p = names t p ++ [n] /\ forall q, q <> p -> names (set t p n v) q = names t q.
Proof.
  intros [_ C] D N. cbn [names set]. split.
  - rewrite (proj2 (path_eqb_spec p p) eq_refl). destruct (existsb (String.eqb n) (names t p)) eqn:E; [|reflexivity]. apply existsb_exists in E. destruct E as (m & I & Q). apply String.eqb_eq in Q. subst m. destruct (C p n D I N).
  - intros q Q. destruct (path_eqb p q) eqn:E; [apply path_eqb_spec in E; congruence|reflexivity].
Qed.
Lemma snoc_cases (q p : path) m n r : q ++ [m] = p ++ n :: r -> (r = [] /\ q = p /\ m = n) \/ exists r', r = r' ++ [m] /\ q = p ++ n :: r'.
Proof.
  intros E. destruct (list_eq_dec string_dec r []) as [->|N].
  - apply app_inj_tail in E. destruct E as [-> ->]. auto.
  - destruct (exists_last N) as (r' & m' & ->). right. exists r'. change (p ++ n :: r' ++ [m']) with (p ++ (n :: r') ++ [m']) in E. rewrite app_assoc in E. apply app_inj_tail in E. destruct E as [-> ->]. auto.
Qed.
Lemma closed_set {V} (t : tree V) p n v : closed t -> ent t p = Some Dir -> ent t (p ++ [n]) = None -> closed (set t p n v).
Proof.
  intros CL D N. destruct (names_set t p n v CL D N) as [A B]. assert (DP : ent (set t p n v) p = Some Dir).
  { destruct (ent_set_cases t p n v p) as [(r & Q & _)|(_ & ->)]; [|exact D]. symmetry in Q. rewrite <- (app_nil_r p) in Q at 2. apply app_inv_head in Q. discriminate. }
  split.
  - intros q m X. destruct (ent_set_cases t p n v (q ++ [m])) as [(r & Q & Y)|(Q & Y)].
    + destruct (snoc_cases q p m n r Q) as [(-> & -> & ->)|(r' & -> & _)]; [|destruct r'; cbn [app] in Y; congruence]. split; [exact DP|]. rewrite A. apply in_or_app. right. left. reflexivity.
    + rewrite Y in X. destruct (proj1 CL q m X) as [E I]. split.
      * destruct (ent_set_cases t p n v q) as [(r & Z & _)|(_ & ->)]; [|exact E]. destruct (Q (r ++ [m])). rewrite Z, <- app_assoc. reflexivity.
      * destruct (list_eq_dec string_dec q p) as [->|K]; [rewrite A; apply in_or_app; left; exact I|rewrite (B q K); exact I].
  - intros q m E I. destruct (ent_set_cases t p n v q) as [(r & Q & Y)|(Q & Y)]; [rewrite Y in E; destruct r; discriminate|]. rewrite Y in E.
    destruct (ent_set_cases t p n v (q ++ [m])) as [(r & Z & X)|(Z & ->)].
    + destruct (snoc_cases q p m n r Z) as [(-> & -> & ->)|(r' & _ & W)]; [rewrite X; discriminate|destruct (Q r' W)].
    + destruct (list_eq_dec string_dec q p) as [->|K]; [|rewrite (B q K) in I; apply (proj2 CL q m E I)]. rewrite A in I. apply in_app_or in I. destruct I as [I|[<-|[]]]; [apply (proj2 CL p m E I)|]. destruct (Z [] eq_refl).
Qed.
Lemma mkdir_cases {V} (t : tree V) p n : ent t (p ++ [n]) = None ->
  ent (mkdir t p n) (p ++ [n]) = Some Dir /\ names (mkdir t p n) (p ++ [n]) = [] /\ names (mkdir t p n) p = names t p ++ [n] /\ at_ (mkdir t p n) = at_ t /\
  (forall q, q <> p ++ [n] -> ent (mkdir t p n) q = ent t q /\ (q <> p -> names (mkdir t p n) q = names t q)).
Proof.
  intros N. unfold mkdir. rewrite N. cbn [ent names at_]. assert (K : path_eqb (p ++ [n]) (p ++ [n]) = true) by (apply path_eqb_spec; reflexivity). rewrite K.
  assert (K1 : path_eqb (p ++ [n]) p = false). { destruct (path_eqb (p ++ [n]) p) eqn:E; [|reflexivity]. apply path_eqb_spec in E. apply (f_equal (@List.length string)) in E. rewrite app_length in E. cbn in E. lia. }
  rewrite K1, (proj2 (path_eqb_spec p p) eq_refl). repeat (split; [reflexivity|]). intros q Q. assert (K2 : path_eqb (p ++ [n]) q = false). { destruct (path_eqb (p ++ [n]) q) eqn:E; [|reflexivity]. apply path_eqb_spec in E. congruence. }
  rewrite K2. split; [reflexivity|]. intros Q'. destruct (path_eqb p q) eqn:E; [apply path_eqb_spec in E; congruence|reflexivity].
Qed.
Lemma closed_mkdir {V} (t : tree V) p n : closed t -> ent t p = Some Dir -> ent t (p ++ [n]) = None -> closed (mkdir t p n).
Proof.
  intros CL D N. destruct (mkdir_cases t p n N) as (A & B & C & _ & X). assert (PN : p <> p ++ [n]) by (intros Q; apply (f_equal (@List.length string)) in Q; rewrite app_length in Q; cbn in Q; lia). split.
  - intros q m Y. destruct (list_eq_dec string_dec (q ++ [m]) (p ++ [n])) as [Q|Q].
    + apply app_inj_tail in Q. destruct Q as [-> ->]. destruct (X p PN) as [-> _]. split; [exact D|]. rewrite C. apply in_or_app. right. left. reflexivity.
    + destruct (X _ Q) as [Z _]. rewrite Z in Y. destruct (proj1 CL q m Y) as [E I]. destruct (list_eq_dec string_dec q (p ++ [n])) as [->|K]; [congruence|]. destruct (X q K) as [-> W]. split; [exact E|].
      destruct (list_eq_dec string_dec q p) as [->|K']; [rewrite C; apply in_or_app; left; exact I|rewrite (W K'); exact I].
  - intros q m E I. destruct (list_eq_dec string_dec q (p ++ [n])) as [->|K]; [rewrite B in I; destruct I|]. destruct (X q K) as [Z W]. rewrite Z in E. destruct (list_eq_dec string_dec (q ++ [m]) (p ++ [n])) as [Q|Q]; [rewrite Q, A; discriminate|].
    destruct (X _ Q) as [-> _]. destruct (list_eq_dec string_dec q p) as [->|K']; [|rewrite (W K') in I; exact (proj2 CL q m E I)]. rewrite C in I. apply in_app_or in I. destruct I as [I|[<-|[]]]; [exact (proj2 CL p m E I)|congruence].
Qed.

Section Add.
Context {V E : Type} (ok : V -> val -> Prop) (conv : string -> string -> option E).
Hypothesis values : forall x v, ok x v -> exists x', value_of conv "string" v = Some x'.
Definition ok' (x' : value E) (v : val) : Prop := value_of conv "string" v = Some x'.
Context (ts : tree V) (U : list string).
Hypothesis distinct : orderly U ts.
Hypothesis named : forall p n, ent ts p = Some Dir -> In n (names ts p) -> n <> "".
Definition added (t : tree (value E)) (p : path) (ns : list string) (t1 : tree (value E)) : Prop :=
  closed t1 /\ names t1 p = names t p ++ ns /\ at_ t1 = at_ t /\ (forall q, (forall n r, In n ns -> q <> p ++ n :: r) -> ent t1 q = ent t q /\ (q <> p -> names t1 q = names t q)).
Definition goal (i : item) : Prop := forall t p ps, closed t -> ent t p = Some Dir -> ent t (p ++ [iname i]) = None -> iname i <> "" -> spelt ok ts ps i ->
  exists t1, add conv t p i = Some (t1, []) /\ spelt ok' t1 p i /\ added t p [iname i] t1.
Lemma add_list l : Forall goal l -> forall t p ps, closed t -> ent t p = Some Dir -> (forall i, In i l -> ent t (p ++ [iname i]) = None) -> NoDup (map iname l) -> (forall n, In n (map iname l) -> n <> "") -> Forall (spelt ok ts ps) l ->
  exists t1, add_all conv t p l = Some (t1, []) /\ Forall (spelt ok' t1 p) l /\ added t p (map iname l) t1.
Proof.
  induction 1 as [|i l G F IH]; intros t p ps CL D N ND NE S.
  - exists t. split; [reflexivity|]. split; [constructor|]. split; [exact CL|]. split; [cbn; rewrite app_nil_r; reflexivity|]. split; [reflexivity|]. auto.
  - inversion S as [|? ? S1 S2]; subst. cbn [map] in ND. inversion ND as [|? ? ND1 ND2]; subst. destruct (G t p ps CL D (N i (or_introl eq_refl)) (NE _ (or_introl eq_refl)) S1) as (t1 & A & B & C1 & C2 & C3 & C4).
    assert (PQ : forall m (r : path), p <> p ++ m :: r) by (intros m r Q; apply (f_equal (@List.length string)) in Q; rewrite app_length in Q; cbn in Q; lia).
    assert (OTHER : forall n r, n <> iname i -> ent t1 (p ++ n :: r) = ent t (p ++ n :: r) /\ names t1 (p ++ n :: r) = names t (p ++ n :: r)).
    { intros n r Q. destruct (C4 (p ++ n :: r)) as [X Y]; [intros m r' [<-|[]] Z; apply app_cons_inj in Z; destruct Z; congruence|]. split; [exact X|]. apply Y. intros Z. symmetry in Z. exact (PQ _ _ Z). }
    destruct (IH t1 p ps C1) as (t2 & A' & B' & C1' & C2' & C3' & C4'); auto.
    { destruct (C4 p) as [-> _]; [intros m r _; apply PQ|exact D]. }
    { intros j J. destruct (OTHER (iname j) []) as [-> _]; [intros Q; apply ND1; rewrite <- Q; apply in_map; exact J|]. apply N. right. exact J. }
    { intros n I. apply NE. right. exact I. }
    exists t2. cbn [add_all]. rewrite A, A'. split; [reflexivity|]. split.
    + constructor; [|exact B']. apply (spelt_ext ok' i t1); [|exact B]. intros r. destruct (C4' (p ++ iname i :: r)) as [X Y]; [intros m r' I Z; apply app_cons_inj in Z; destruct Z as [Z _]; apply ND1; rewrite Z; exact I|].
      split; [exact X|]. apply Y. intros Z. symmetry in Z. exact (PQ _ _ Z).
    + split; [exact C1'|]. split; [rewrite C2', C2, <- app_assoc; reflexivity|]. split; [congruence|]. intros q Q. destruct (C4 q) as [X Y]; [intros m r [<-|[]]; apply Q; left; reflexivity|].
      destruct (C4' q) as [X' Y']; [intros m r I; apply Q; right; exact I|]. rewrite X'. split; [exact X|]. intros K. rewrite (Y' K). exact (Y K).
Qed.
Lemma add_item i : goal i.
Proof.
  induction i as [n c v|n o e|n i l IH1 IH2] using item_ind2; intros t p ps CL D N NE S.
  - destruct c; [contradiction|]. destruct S as (x & _ & K). destruct (values x v K) as (x' & Q). cbn [iname add] in *. unfold put_value. rewrite (proj2 (String.eqb_neq n "") NE), Q. exists (set t p n x'). split; [reflexivity|].
    destruct (names_set t p n x' CL D N) as [A B]. split.
    + exists x'. split; [|exact Q]. destruct (ent_set_cases t p n x' (p ++ [n])) as [(r & Z & ->)|(Z & _)]; [apply app_cons_inj in Z; destruct Z as [_ <-]; reflexivity|]. destruct (Z [] eq_refl).
    + split; [apply closed_set; assumption|]. split; [exact A|]. split; [reflexivity|]. intros q Z. split; [|apply B]. destruct (ent_set_cases t p n x' q) as [(r & Y & _)|(_ & ->)]; [|reflexivity]. destruct (Z n r (or_introl eq_refl) Y).
  - contradiction.
  - cbn [iname] in *. rewrite add_block, N. destruct (mkdir_cases t p n N) as (A & B & C & D' & X). apply spelt_block in S. destruct S as (S1 & S2 & S3). destruct (distinct _ S1) as [ND _]. rewrite S2 in ND.
    destruct (add_list (i :: l) ltac:(constructor; assumption) (mkdir t p n) (p ++ [n]) (ps ++ [n]) (closed_mkdir t p n CL D N) A) as (t1 & Y1 & Y2 & Y3 & Y4 & Y5 & Y6); auto.
    { intros j _. destruct (X ((p ++ [n]) ++ [iname j])) as [-> _]; [intros Q; apply (f_equal (@List.length string)) in Q; rewrite !app_length in Q; cbn in Q; lia|]. apply closed_none; [exact CL|congruence|discriminate]. }
    { intros m I. apply (named (ps ++ [n]) m S1). rewrite S2. exact I. }
    assert (KEEP : forall q, (forall r, q <> p ++ n :: r) -> ent t1 q = ent (mkdir t p n) q /\ names t1 q = names (mkdir t p n) q).
    { intros q Q. destruct (Y6 q) as [Z1 Z2]; [intros m r _ Z; rewrite <- app_assoc in Z; exact (Q _ Z)|]. split; [exact Z1|]. apply Z2. exact (Q []). }
    assert (PQ : forall m (r : path), p <> p ++ m :: r) by (intros m r Q; apply (f_equal (@List.length string)) in Q; rewrite app_length in Q; cbn in Q; lia).
    exists t1. split; [exact Y1|]. split.
    + apply spelt_block. split; [|split; [|exact Y2]].
      * destruct (Y6 (p ++ [n])) as [-> _]; [|exact A]. intros m r _ Q. apply (f_equal (@List.length string)) in Q. rewrite !app_length in Q. cbn in Q. lia.
      * rewrite Y4, B. reflexivity.
    + split; [exact Y3|]. destruct (KEEP p (PQ n)) as [_ KP]. split; [rewrite KP; exact C|]. split; [congruence|]. intros q Q. assert (Q' : forall r, q <> p ++ n :: r) by (intros r; apply Q; left; reflexivity).
      destruct (KEEP q Q') as [-> ->]. apply X. exact (Q' []).
Qed.
End Add.
