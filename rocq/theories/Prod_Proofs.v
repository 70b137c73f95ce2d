(** Proofs about the threads and the producers of an application. *)
From Coq Require Import ZArith List Bool String Lia PeanoNat.
From Verif Require Broker_Props.
From Verif Require Import Base Broker_Model SigMem_Model Prod_Model Prod_Spec.
Import ListNotations.
Open Scope string_scope. Open Scope nat_scope. Open Scope list_scope.

(** * Names *)

Lemma prefix_iff p n : String.prefix p n = true <-> exists r, n = (p ++ r)%string.
Proof.
  revert n. induction p as [|c p IH]; intro n; simpl.
  - split; [intros _; exists n; reflexivity|]. destruct n; reflexivity.
  - destruct n as [|d n]; [split; [discriminate|intros (r & H); discriminate]|].
    cbn [String.prefix]. destruct (Ascii.ascii_dec c d) as [->|NE].
    + rewrite IH. split; intros (r & H); exists r; congruence.
    + split; [discriminate|]. intros (r & H). congruence.
Qed.

Lemma append_assoc a b c : (a ++ (b ++ c))%string = ((a ++ b) ++ c)%string.
Proof. induction a as [|x a IH]; cbn; [reflexivity|now rewrite IH]. Qed.

Lemma belongs_iff p n : belongs p n = true <-> within p n.
Proof.
  unfold belongs, within. rewrite orb_true_iff, String.eqb_eq, prefix_iff. split.
  - intros [->|(r & ->)]; [now left|right; exists r]. symmetry. apply append_assoc.
  - intros [->|(r & ->)]; [now left|right; exists r]. apply append_assoc.
Qed.

Lemma in_expand names p n : In n (expand names p) <-> In n names /\ within p n.
Proof. unfold expand. rewrite filter_In. change (String.eqb p n || String.prefix (p ++ ".") n) with (belongs p n).
  now rewrite belongs_iff. Qed.

Lemma thread_gams_in names ps ns : thread_gams names ps = Some ns ->
  (forall n, In n ns <-> exists p, In p ps /\ In n names /\ within p n) /\
  (forall p, In p ps -> exists n, In n names /\ within p n).
Proof.
  revert ns. induction ps as [|p ps IH]; intros ns H; cbn [thread_gams] in H.
  - injection H as <-. split; [|intros p []]. intro n. split; [intros []|intros (p & [] & _)].
  - destruct (expand names p) as [|e l] eqn:E; [discriminate|].
    destruct (thread_gams names ps) as [r|]; [|discriminate]. injection H as <-.
    destruct (IH _ eq_refl) as [A B]. split.
    + intro n. change (e :: l ++ r) with ((e :: l) ++ r). rewrite <- E, in_app_iff, in_expand, A. split.
      * intros [[? ?]|(q & ? & ? & ?)]; [exists p|exists q]; cbn; auto.
      * intros (q & [->|I] & ? & ?); [left; auto|right; exists q; auto].
    + intros q [->|I]; [|auto]. exists e. apply in_expand. rewrite E. now left.
Qed.

Lemma thread_gams_ok names ps : (forall p, In p ps -> exists n, In n names /\ within p n) ->
  thread_gams names ps = Some (flat_map (expand names) ps).
Proof.
  induction ps as [|p ps IH]; intro H; cbn [thread_gams flat_map]; [reflexivity|].
  rewrite IH by (intros; apply H; now right).
  destruct (H p) as (n & I & W); [now left|].
  destruct (expand names p) as [|e l] eqn:E; [|reflexivity].
  exfalso. assert (X : In n (expand names p)) by now apply in_expand. rewrite E in X. destruct X.
Qed.
Lemma thread_gams_eq names ps ns : thread_gams names ps = Some ns -> ns = flat_map (expand names) ps.
Proof.
  intro H. destruct (thread_gams_in _ _ _ H) as [_ B]. rewrite (thread_gams_ok _ _ B) in H. congruence.
Qed.

(** * The numbers of the functions *)

Lemma assoc_put n m i c : assoc m (cache_put n i c) = if String.eqb n m then Some i else assoc m c.
Proof.
  induction c as [|[k v] c IH]; cbn [cache_put assoc].
  - reflexivity.
  - destruct (String.eqb_spec k n) as [->|NE]; cbn [assoc].
    + destruct (String.eqb_spec n m); reflexivity.
    + rewrite IH. destruct (String.eqb_spec k m) as [->|]; [|reflexivity].
      destruct (String.eqb_spec n m); [congruence|reflexivity].
Qed.

Lemma assoc_from names : NoDup names -> forall k c n,
  assoc n (cache_from k names c) = assoc n c /\ ~ In n names \/
  exists i, assoc n (cache_from k names c) = Some (k + i) /\ nth_error names i = Some n.
Proof.
  induction 1 as [|m names NI ND IH]; intros k c n; cbn [cache_from].
  - left. split; [reflexivity|intros []].
  - destruct (IH (S k) (cache_put m k c) n) as [[E N]|(i & E & G)].
    + rewrite E, assoc_put. destruct (String.eqb_spec m n) as [->|NE].
      * right. exists 0. split; [f_equal; lia|reflexivity].
      * left. split; [reflexivity|]. intros [?|?]; auto.
    + right. exists (S i). split; [rewrite E; f_equal; lia|exact G].
Qed.

Definition good_cache (names : list string) (c : cache) : Prop :=
  forall n, match assoc n c with
            | Some i => nth_error names i = Some n
            | None => ~ In n names
            end.
Lemma first_cache names : NoDup names -> good_cache names (cache_from 0 names []).
Proof.
  intros ND n. destruct (assoc_from names ND 0 [] n) as [[E N]|(i & E & G)]; rewrite E; [exact N|exact G].
Qed.

Lemma names_nth a i f : nth_error (x_functions a) i = Some f -> nth_error (names_of a) i = Some (f_name f).
Proof. intro H. unfold names_of. now apply map_nth_error. Qed.
Lemma nth_names a i n : nth_error (names_of a) i = Some n -> exists f, nth_error (x_functions a) i = Some f /\ f_name f = n.
Proof.
  unfold names_of. rewrite nth_error_map. destruct (nth_error (x_functions a) i) as [f|]; [|discriminate].
  intro H. injection H as <-. eauto.
Qed.
Lemma nth_inj a i j f g : NoDup (names_of a) ->
  nth_error (x_functions a) i = Some f -> nth_error (x_functions a) j = Some g -> f_name f = f_name g -> i = j.
Proof.
  intros ND A B E. apply names_nth in A. apply names_nth in B.
  eapply NoDup_nth_error; [exact ND| |congruence]. apply nth_error_Some. congruence.
Qed.

(** * The states of the functions *)

Lemma nth_set {A} (l : list A) i j v :
  nth_error (set_nth l i v) j = if Nat.eqb i j then match nth_error l i with Some _ => Some v | None => None end
                                else nth_error l j.
Proof.
  revert i j. induction l as [|x l IH]; intros i j; cbn [set_nth].
  - destruct i, j; cbn; try reflexivity; destruct (Nat.eqb _ _); reflexivity.
  - destruct i, j; cbn [nth_error Nat.eqb]; try reflexivity. apply IH.
Qed.
Lemma set_nth_length {A} (l : list A) i v : List.length (set_nth l i v) = List.length l.
Proof. revert i. induction l as [|x l IH]; intros [|i]; cbn; auto. Qed.

Lemma assoc_app {A} k (l1 l2 : list (string * A)) :
  assoc k (l1 ++ l2) = match assoc k l1 with Some v => Some v | None => assoc k l2 end.
Proof. induction l1 as [|[n v] l1 IH]; cbn; [reflexivity|]. destruct (String.eqb n k); auto. Qed.
Lemma assoc_in {A} k (l : list (string * A)) : In k (map fst l) <-> assoc k l <> None.
Proof.
  induction l as [|[n v] l IH]; cbn; [intuition congruence|].
  destruct (String.eqb_spec n k) as [->|NE]; [intuition congruence|]. rewrite <- IH. intuition congruence.
Qed.
Lemma set_assoc_keys {A} k (v : A) l : map fst (set_assoc k v l) = map fst l.
Proof.
  induction l as [|[n x] l IH]; cbn; [reflexivity|].
  destruct (String.eqb n k); cbn; [reflexivity|now rewrite IH].
Qed.

(** What ran: the state, the thread and the name of the function. *)
Definition event := (string * string * string)%type.

(** The nodes States of the functions tell the states of the events; with
    CheckSameGamInMoreThreads also the one thread. *)
Record told (a : rtapp) (D : list event) (N : sts) : Prop := Told
  { t_len : List.length N = List.length (x_functions a);
    t_keys : forall i f l, nth_error (x_functions a) i = Some f -> nth_error N i = Some l ->
               NoDup (map fst l) /\
               forall st, In st (map fst l) <-> exists t, In (st, t, f_name f) D;
    t_one : x_same a = true ->
            forall i f l st ts t, nth_error (x_functions a) i = Some f -> nth_error N i = Some l ->
              assoc st l = Some ts -> In (st, t, f_name f) D -> ts = [t] }.
Definition lone (D : list event) : Prop :=
  forall st t t' n, In (st, t, n) D -> In (st, t', n) D -> t = t'.

Lemma told_lone a D N : told a D N -> x_same a = true ->
  (forall st t n, In (st, t, n) D -> In n (names_of a)) -> lone D.
Proof.
  intros T S R st t t' n I I'. destruct (In_nth_error _ _ (R _ _ _ I)) as (i & Hi).
  destruct (nth_names _ _ _ Hi) as (f & Hf & <-).
  destruct (nth_error N i) as [l|] eqn:HN.
  2:{ apply nth_error_None in HN. rewrite (t_len _ _ _ T) in HN.
      assert (i < List.length (x_functions a)) by (apply nth_error_Some; congruence). lia. }
  destruct (t_keys _ _ _ T _ _ _ Hf HN) as [_ K].
  assert (X : assoc st l <> None) by (apply assoc_in, K; eauto).
  destruct (assoc st l) as [ts|] eqn:E; [|congruence].
  pose proof (t_one _ _ _ T S _ _ _ _ _ _ Hf HN E I). pose proof (t_one _ _ _ T S _ _ _ _ _ _ Hf HN E I'). congruence.
Qed.

Lemma NoDup_snoc {A} (l : list A) x : NoDup l -> ~ In x l -> NoDup (l ++ [x]).
Proof.
  induction 1 as [|y l NI N IH]; cbn; intro H; [repeat constructor; intros []|].
  constructor; [|apply IH; tauto]. rewrite in_app_iff. cbn. intuition congruence.
Qed.

Lemma add_state_keys same st t l l' : add_state same st t l = Some l' ->
  NoDup (map fst l) -> NoDup (map fst l') /\ (forall x, In x (map fst l') <-> In x (map fst l) \/ x = st).
Proof.
  unfold add_state. intros H ND. destruct (assoc st l) as [ts|] eqn:E.
  - assert (I : In st (map fst l)) by (apply assoc_in; congruence).
    assert (G : forall x, In x (map fst l) <-> In x (map fst l) \/ x = st) by (intro x; intuition congruence).
    destruct same.
    + destruct ts as [|t' [|? ?]]; try discriminate. destruct (String.eqb t' t); [|discriminate]. injection H as <-. auto.
    + injection H as <-. rewrite set_assoc_keys. auto.
  - injection H as <-. rewrite map_app. cbn [map fst].
    assert (NI : ~ In st (map fst l)) by (rewrite assoc_in; congruence). split.
    + apply NoDup_snoc; assumption.
    + intro x. rewrite in_app_iff. cbn. intuition congruence.
Qed.

Lemma assoc_set {A} k (v : A) l x : assoc x (set_assoc k v l) =
  if String.eqb k x then match assoc k l with Some _ => Some v | None => None end else assoc x l.
Proof.
  induction l as [|[n y] l IH]; cbn [set_assoc assoc].
  - destruct (String.eqb k x); reflexivity.
  - destruct (String.eqb_spec n k) as [->|NE]; cbn [assoc].
    + destruct (String.eqb k x); reflexivity.
    + destruct (String.eqb_spec n x) as [->|NX]; [|exact IH].
      destruct (String.eqb_spec k x); [congruence|reflexivity].
Qed.

Lemma add_state_one st t l l' : add_state true st t l = Some l' ->
  assoc st l' = Some [t] /\ (forall x, x <> st -> assoc x l' = assoc x l) /\
  (forall ts, assoc st l = Some ts -> ts = [t]).
Proof.
  unfold add_state. intro H. destruct (assoc st l) as [ts|] eqn:E.
  - destruct ts as [|t' [|? ?]]; try discriminate.
    destruct (String.eqb_spec t' t) as [->|]; [|discriminate]. injection H as <-.
    repeat split; auto. intros ts X. congruence.
  - injection H as <-. repeat split.
    + rewrite assoc_app, E. cbn [assoc]. now rewrite String.eqb_refl.
    + intros x NE. rewrite assoc_app. destruct (assoc x l); [reflexivity|]. cbn [assoc].
      destruct (String.eqb_spec st x); [congruence|reflexivity].
    + discriminate.
Qed.

(** The synchronising signals of the function with this name. *)
Definition waits_of (a : rtapp) (n : string) : nat :=
  match find (fun f => String.eqb (f_name f) n) (x_functions a) with Some f => syncs f | None => 0 end.

Lemma find_named a i f : NoDup (names_of a) -> nth_error (x_functions a) i = Some f ->
  find (fun g => String.eqb (f_name g) (f_name f)) (x_functions a) = Some f.
Proof.
  unfold names_of. revert i. induction (x_functions a) as [|g l IH]; intros i ND H; [destruct i; discriminate|].
  inversion ND as [|x y NI ND']; subst. destruct i as [|i]; cbn [nth_error] in H; cbn [find].
  - injection H as ->. now rewrite String.eqb_refl.
  - destruct (String.eqb_spec (f_name g) (f_name f)) as [E|_].
    + exfalso. apply NI. rewrite E. apply in_map. eapply nth_error_In; eauto.
    + eauto.
Qed.

Section Fixed.
Variable a : rtapp.
Variable c : cache.
Hypothesis ND : NoDup (names_of a).
Hypothesis GC : good_cache (names_of a) c.

Lemma nth_states D N i f : told a D N -> nth_error (x_functions a) i = Some f -> exists l, nth_error N i = Some l.
Proof.
  intros T H. destruct (nth_error N i) as [l|] eqn:E; [eauto|].
  apply nth_error_None in E. rewrite (t_len _ _ _ T) in E.
  assert (i < List.length (x_functions a)) by (apply nth_error_Some; congruence). lia.
Qed.

Lemma one_gam_told D N k st t n N' k' : told a D N ->
  one_gam (x_functions a) c (x_same a) st t (N, k) n = Some (N', k') ->
  told a (D ++ [(st, t, n)]) N' /\ In n (names_of a) /\ k' = k + waits_of a n.
Proof.
  intros T H. unfold one_gam in H. cbn [fst snd] in H. specialize (GC n).
  destruct (assoc n c) as [i|]; [|discriminate].
  destruct (nth_error (x_functions a) i) as [f|] eqn:Hf; [|discriminate].
  destruct (nth_error N i) as [l|] eqn:HN; [|discriminate].
  destruct (add_state (x_same a) st t l) as [l'|] eqn:HA; [|discriminate].
  injection H as <- <-.
  assert (En : f_name f = n) by (pose proof (names_nth _ _ _ Hf); congruence).
  destruct (t_keys _ _ _ T _ _ _ Hf HN) as [NK K].
  split; [|split; [subst n; eapply nth_error_In, names_nth; eauto|]].
  2:{ unfold waits_of. subst n. now rewrite (find_named _ _ _ ND Hf). }
  destruct (add_state_keys _ _ _ _ _ HA NK) as [NK' K'].
  constructor.
  - rewrite set_nth_length. apply (t_len _ _ _ T).
  - intros j g m Hg HM. rewrite nth_set in HM. destruct (Nat.eqb_spec i j) as [<-|NE].
    + rewrite HN in HM. injection HM as <-. assert (g = f) by congruence. subst g. split; [exact NK'|].
      intro x. rewrite K', K. split.
      * intros [(u & I)| ->]; [exists u; apply in_app_iff; now left|]. exists t. apply in_app_iff. right. left. congruence.
      * intros (u & I). apply in_app_iff in I. destruct I as [I|[I|[]]]; [left; eauto|right; congruence].
    + destruct (t_keys _ _ _ T _ _ _ Hg HM) as [NM M]. split; [exact NM|].
      intro x. rewrite M. split; intros (u & I); exists u.
      * apply in_app_iff. now left.
      * apply in_app_iff in I. destruct I as [I|[I|[]]]; [exact I|]. exfalso. apply NE.
        eapply nth_inj; eauto. congruence.
  - intros SM j g m x ts u Hg HM HX I. rewrite nth_set in HM. destruct (Nat.eqb_spec i j) as [<-|NE].
    + rewrite HN in HM. injection HM as <-. assert (g = f) by congruence. subst g.
      rewrite SM in HA. destruct (add_state_one _ _ _ _ HA) as (A1 & A2 & A3).
      destruct (string_dec x st) as [->|NX].
      * apply in_app_iff in I. destruct I as [I|[I|[]]]; [|congruence].
        assert (X : assoc st l <> None) by (apply assoc_in, K; eauto).
        destruct (assoc st l) as [ts0|] eqn:E; [|congruence].
        pose proof (t_one _ _ _ T SM _ _ _ _ _ _ Hf HN E I) as ->.
        specialize (A3 _ eq_refl). congruence.
      * rewrite A2 in HX by assumption. apply in_app_iff in I. destruct I as [I|[I|[]]]; [|congruence].
        eapply (t_one _ _ _ T SM); eauto.
    + apply in_app_iff in I. destruct I as [I|[I|[]]].
      * eapply (t_one _ _ _ T SM); eauto.
      * exfalso. apply NE. eapply nth_inj; eauto. congruence.
Qed.

Lemma one_gam_ok D N k st t n : told a D N -> In n (names_of a) ->
  (x_same a = true -> forall t', In (st, t', n) D -> t' = t) ->
  exists y, one_gam (x_functions a) c (x_same a) st t (N, k) n = Some y.
Proof.
  intros T I O. unfold one_gam. cbn [fst snd]. specialize (GC n).
  destruct (assoc n c) as [i|]; [|contradiction].
  destruct (nth_names _ _ _ GC) as (f & Hf & En). rewrite Hf.
  destruct (nth_states _ _ _ _ T Hf) as (l & HN). rewrite HN.
  assert (X : exists l', add_state (x_same a) st t l = Some l').
  { unfold add_state. destruct (assoc st l) as [ts|] eqn:E; [|eauto].
    destruct (x_same a) eqn:SM; [|eauto].
    destruct (t_keys _ _ _ T _ _ _ Hf HN) as [_ K].
    assert (Y : In st (map fst l)) by (apply assoc_in; congruence).
    apply K in Y. destruct Y as (u & Y).
    pose proof (t_one _ _ _ T SM _ _ _ _ _ _ Hf HN E Y) as ->.
    rewrite (O eq_refl u) by (rewrite <- En; exact Y). rewrite String.eqb_refl. eauto. }
  destruct X as (l' & ->). eauto.
Qed.

Definition ev (st t : string) (ns : list string) : list event := map (fun n => (st, t, n)) ns.

Lemma gams_told st t ns : forall D N k N' k', told a D N ->
  gams (x_functions a) c (x_same a) st t (N, k) ns = Some (N', k') ->
  told a (D ++ ev st t ns) N' /\ Forall (fun n => In n (names_of a)) ns /\ k' = k + list_sum (map (waits_of a) ns).
Proof.
  induction ns as [|n ns IH]; intros D N k N' k' T H; cbn [gams] in H.
  - injection H as <- <-. cbn. rewrite app_nil_r. split; [exact T|]. split; [constructor|lia].
  - destruct (one_gam (x_functions a) c (x_same a) st t (N, k) n) as [[N1 k1]|] eqn:E; [|discriminate].
    destruct (one_gam_told _ _ _ _ _ _ _ _ T E) as (T1 & I & K).
    destruct (IH _ _ _ _ _ T1 H) as (T2 & F & K2).
    split; [|split; [constructor; auto|]].
    + unfold ev in *. cbn [map]. rewrite <- app_assoc in T2. exact T2.
    + cbn [map]. change (list_sum (waits_of a n :: map (waits_of a) ns)) with (waits_of a n + list_sum (map (waits_of a) ns)). lia.
Qed.

Lemma gams_ok st t ns : forall D N k, told a D N -> Forall (fun n => In n (names_of a)) ns ->
  (x_same a = true -> lone (D ++ ev st t ns)) ->
  exists N' k', gams (x_functions a) c (x_same a) st t (N, k) ns = Some (N', k').
Proof.
  induction ns as [|n ns IH]; intros D N k T F L; cbn [gams]; [eauto|].
  inversion F as [|x y I F']; subst.
  destruct (one_gam_ok D N k st t n T I) as ([N1 k1] & E).
  { intros SM t' J. eapply (L SM st t' t n); apply in_app_iff; [now left|right]. now left. }
  rewrite E. destruct (one_gam_told _ _ _ _ _ _ _ _ T E) as (T1 & _ & _).
  apply (IH _ _ _ T1 F'). intro SM. specialize (L SM). unfold ev in *. cbn [map] in L. now rewrite <- app_assoc.
Qed.

Definition thread_events (st : string) (T : thread) : list event :=
  ev st (t_name T) (flat_map (expand (names_of a)) (t_functions T)).
Definition thread_waits (T : thread) : nat :=
  list_sum (map (waits_of a) (flat_map (expand (names_of a)) (t_functions T))).
Definition thread_exists (T : thread) : Prop :=
  forall p, In p (t_functions T) -> exists n, In n (names_of a) /\ within p n.

Lemma thread_told st T D N N' : told a D N -> thread_after a c st N T = Some N' ->
  told a (D ++ thread_events st T) N' /\ thread_exists T /\ thread_waits T <= 1.
Proof.
  intros TD H. unfold thread_after in H.
  destruct (thread_gams (names_of a) (t_functions T)) as [ns|] eqn:E; [|discriminate].
  destruct (gams _ _ _ _ _ _ _) as [[N1 k]|] eqn:G; [|discriminate].
  destruct (Nat.leb_spec k 1) as [L|]; [|discriminate]. injection H as <-.
  destruct (thread_gams_in _ _ _ E) as [_ B]. pose proof (thread_gams_eq _ _ _ E) as ->.
  destruct (gams_told _ _ _ _ _ _ _ _ TD G) as (A & _ & K). split; [exact A|]. split; [exact B|].
  unfold thread_waits. lia.
Qed.
Lemma thread_ok st T D N : told a D N -> thread_exists T -> thread_waits T <= 1 ->
  (x_same a = true -> lone (D ++ thread_events st T)) ->
  exists N', thread_after a c st N T = Some N'.
Proof.
  intros TD EX W L. unfold thread_after. rewrite (thread_gams_ok _ _ EX).
  destruct (gams_ok st (t_name T) (flat_map (expand (names_of a)) (t_functions T)) D N 0 TD) as (N' & k & E).
  - apply Forall_forall. intros n I. apply in_flat_map in I. destruct I as (p & _ & I). now apply in_expand in I.
  - exact L.
  - rewrite E. destruct (gams_told _ _ _ _ _ _ _ _ TD E) as (_ & _ & K).
    unfold thread_waits in W. destruct (Nat.leb_spec k 1); [eauto|lia].
Qed.

Lemma lone_sub D E : lone E -> incl D E -> lone D.
Proof. intros L I st t t' n A B. eapply L; eauto. Qed.

Lemma threads_told st Ts : forall D N N', told a D N -> fold_opt (thread_after a c st) Ts N = Some N' ->
  told a (D ++ flat_map (thread_events st) Ts) N' /\ Forall (fun T => thread_exists T /\ thread_waits T <= 1) Ts.
Proof.
  induction Ts as [|T Ts IH]; intros D N N' TD H; cbn [fold_opt] in H.
  - injection H as <-. cbn. rewrite app_nil_r. auto.
  - destruct (thread_after a c st N T) as [N1|] eqn:E; [|discriminate].
    destruct (thread_told _ _ _ _ _ TD E) as (T1 & X & W). destruct (IH _ _ _ T1 H) as [T2 F].
    cbn [flat_map]. rewrite app_assoc. auto.
Qed.
Lemma threads_ok st Ts : forall D N, told a D N -> Forall (fun T => thread_exists T /\ thread_waits T <= 1) Ts ->
  (x_same a = true -> lone (D ++ flat_map (thread_events st) Ts)) ->
  exists N', fold_opt (thread_after a c st) Ts N = Some N'.
Proof.
  induction Ts as [|T Ts IH]; intros D N TD F L; cbn [fold_opt]; [eauto|].
  inversion F as [|x y [X W] F']; subst. cbn [flat_map] in L. rewrite app_assoc in L.
  destruct (thread_ok st T D N TD X W) as (N1 & E).
  { intro SM. eapply lone_sub; [exact (L SM)|]. apply incl_appl, incl_refl. }
  rewrite E. destruct (thread_told _ _ _ _ _ TD E) as (T1 & _ & _). apply (IH _ _ T1 F' L).
Qed.

Definition state_events (s : state) : list event := flat_map (thread_events (s_name s)) (s_threads s).
Definition state_fine (s : state) : Prop :=
  s_before s < x_children a /\ Forall (fun T => thread_exists T /\ thread_waits T <= 1) (s_threads s).

Lemma states_told ss : forall D N N', told a D N -> fold_opt (state_after a c) ss N = Some N' ->
  told a (D ++ flat_map state_events ss) N' /\ Forall state_fine ss.
Proof.
  induction ss as [|s ss IH]; intros D N N' TD H; cbn [fold_opt] in H.
  - injection H as <-. cbn. rewrite app_nil_r. auto.
  - destruct (state_after a c N s) as [N1|] eqn:E; [|discriminate]. unfold state_after in E.
    destruct (Nat.ltb_spec (s_before s) (x_children a)) as [LT|]; [|discriminate].
    destruct (threads_told _ _ _ _ _ TD E) as (T1 & X). destruct (IH _ _ _ T1 H) as [T2 F].
    cbn [flat_map]. rewrite app_assoc. split; [exact T2|]. constructor; [split; assumption|exact F].
Qed.
Lemma states_ok ss : forall D N, told a D N -> Forall state_fine ss ->
  (x_same a = true -> lone (D ++ flat_map state_events ss)) ->
  exists N', fold_opt (state_after a c) ss N = Some N'.
Proof.
  induction ss as [|s ss IH]; intros D N TD F L; cbn [fold_opt]; [eauto|].
  inversion F as [|x y [X W] F']; subst. cbn [flat_map] in L. rewrite app_assoc in L.
  destruct (threads_ok (s_name s) (s_threads s) D N TD W) as (N1 & E).
  { intro SM. eapply lone_sub; [exact (L SM)|]. apply incl_appl, incl_refl. }
  unfold state_after. destruct (Nat.ltb_spec (s_before s) (x_children a)) as [LT|]; [|lia].
  rewrite E. destruct (threads_told _ _ _ _ _ TD E) as (T1 & _). apply (IH _ _ T1 F' L).
Qed.
End Fixed.

Definition all_events (a : rtapp) : list event := flat_map (state_events a) (x_states a).

Lemma told_none a : told a [] (no_states a).
Proof.
  constructor.
  - unfold no_states. apply map_length.
  - intros i f l H HN. unfold no_states in HN. rewrite nth_error_map, H in HN. injection HN as <-.
    split; [constructor|]. intro st. cbn. split; [intros []|intros (t & [])].
  - intros _ i f l st ts t H HN HA. unfold no_states in HN. rewrite nth_error_map, H in HN. injection HN as <-. discriminate.
Qed.

Lemma states_after_told a N : NoDup (names_of a) -> states_after a = Some N ->
  told a (all_events a) N /\ Forall (state_fine a) (x_states a).
Proof. intros ND H. apply (states_told a _ ND (first_cache _ ND) _ [] _ _ (told_none a) H). Qed.
Lemma states_after_ok a : NoDup (names_of a) -> Forall (state_fine a) (x_states a) ->
  (x_same a = true -> lone (all_events a)) -> exists N, states_after a = Some N.
Proof. intros ND F L. apply (states_ok a _ ND (first_cache _ ND) _ [] _ (told_none a) F L). Qed.

(** The events are the runs. *)
Lemma in_events a st t n : In (st, t, n) (all_events a) <->
  exists s T p, In s (x_states a) /\ In T (s_threads s) /\ In p (t_functions T) /\ In n (names_of a) /\ within p n /\
                s_name s = st /\ t_name T = t.
Proof.
  unfold all_events, state_events, thread_events, ev. rewrite in_flat_map. split.
  - intros (s & Hs & I). apply in_flat_map in I. destruct I as (T & HT & I). apply in_map_iff in I.
    destruct I as (m & E & I). apply in_flat_map in I. destruct I as (p & Hp & I). apply in_expand in I.
    destruct I as [I W]. injection E as <- <- <-. exists s, T, p. auto 10.
  - intros (s & T & p & Hs & HT & Hp & I & W & <- & <-). exists s. split; [assumption|].
    apply in_flat_map. exists T. split; [assumption|]. apply in_map_iff. exists n. split; [reflexivity|].
    apply in_flat_map. exists p. split; [assumption|]. now apply in_expand.
Qed.

Lemma runs_event a s T i f : runs a s T i -> nth_error (x_functions a) i = Some f ->
  In (s_name s, t_name T, f_name f) (all_events a).
Proof.
  intros (Hs & HT & p & g & Hp & Hg & W) Hf. assert (g = f) by congruence. subst g.
  apply in_events. exists s, T, p. repeat split; auto. eapply nth_error_In, names_nth; eauto.
Qed.

Lemma NoDup_map_inj {A B} (f : A -> B) l x y : NoDup (map f l) -> In x l -> In y l -> f x = f y -> x = y.
Proof.
  induction l as [|z l IH]; cbn; [intros _ []|]. intros N I J E.
  inversion N as [|u v NI N']; subst. destruct I as [I|I], J as [J|J].
  - congruence.
  - exfalso. apply NI. rewrite I, E. now apply in_map.
  - exfalso. apply NI. rewrite J, <- E. now apply in_map.
  - auto.
Qed.

Lemma event_runs a st t n i f : NoDup (names_of a) -> In (st, t, n) (all_events a) ->
  nth_error (x_functions a) i = Some f -> f_name f = n ->
  exists s T, runs a s T i /\ s_name s = st /\ t_name T = t.
Proof.
  intros ND I Hf E. apply in_events in I. destruct I as (s & T & p & Hs & HT & Hp & _ & W & ? & ?).
  exists s, T. split; [|auto]. split; [assumption|]. split; [assumption|]. exists p, f. subst n. auto.
Qed.

(** * The table of the producers *)

Lemma same_place_iff p q : same_place p q = true <-> p = q.
Proof.
  destruct p as [[d k] s], q as [[d' k'] s']. unfold same_place.
  rewrite !andb_true_iff, !String.eqb_eq. split; [intros [[-> ->] ->]; reflexivity|]. intro H. injection H as -> -> ->. auto.
Qed.
Lemma same_place_refl p : same_place p p = true.
Proof. now apply same_place_iff. Qed.

Fixpoint get (p : place) (t : table) : list (nat * nat) :=
  match t with
  | [] => []
  | (q, l) :: t' => if same_place q p then l else get p t'
  end.
Lemma get_add p q w t : get p (add_producer q w t) = if same_place q p then get p t ++ [w] else get p t.
Proof.
  induction t as [|[r l] t IH]; cbn [add_producer get].
  - destruct (same_place q p); reflexivity.
  - destruct (same_place r q) eqn:E; cbn [get].
    + apply same_place_iff in E. subst r. destruct (same_place q p); reflexivity.
    + rewrite IH. destruct (same_place r p) eqn:F; [|reflexivity].
      apply same_place_iff in F. subst r. destruct (same_place q p) eqn:G; [|reflexivity].
      apply same_place_iff in G. subst q. rewrite same_place_refl in E. discriminate.
Qed.

(** A table has every place once, and no place without producers. *)
Definition tidy (t : table) : Prop := NoDup (map fst t) /\ Forall (fun x => snd x <> []) t.
Lemma add_keys q w t : forall p, In p (map fst (add_producer q w t)) <-> In p (map fst t) \/ p = q.
Proof.
  induction t as [|[r l] t IH]; intro p; cbn [add_producer map fst].
  - cbn. intuition.
  - destruct (same_place r q) eqn:E; cbn [map fst].
    + apply same_place_iff in E. subst r. cbn. intuition congruence.
    + cbn. rewrite IH. intuition.
Qed.
Lemma add_tidy q w t : tidy t -> tidy (add_producer q w t).
Proof.
  unfold tidy. induction t as [|[r l] t IH]; cbn [add_producer map fst]; intros [N F].
  - split; [repeat constructor; intros []|repeat constructor; discriminate].
  - inversion N as [|x y NI N']; inversion F as [|x' y' NE F']; subst.
    destruct (same_place r q) eqn:E; cbn [map fst].
    + split; [constructor; assumption|constructor; [|assumption]]. cbn. destruct l; discriminate.
    + destruct (IH (conj N' F')) as [A B]. split; constructor; auto.
      rewrite add_keys. intros [I| ->]; [contradiction|]. rewrite same_place_refl in E. discriminate.
Qed.
Lemma get_in t p : tidy t -> forall l, In (p, l) t <-> get p t = l /\ l <> [].
Proof.
  unfold tidy. induction t as [|[r m] t IH]; cbn [map fst get]; intros [N F] l.
  - cbn. split; [intros []|]. intros [<- H]. congruence.
  - inversion N as [|x y NI N']; inversion F as [|x' y' NE F']; subst. cbn in NE.
    destruct (same_place r p) eqn:E.
    + apply same_place_iff in E. subst r. split.
      * intros [H|H]; [injection H as <-; auto|]. exfalso. apply NI. apply (in_map fst) in H. exact H.
      * intros [<- _]. now left.
    + rewrite <- (IH (conj N' F') l). split; [intros [H|H]; [|exact H]|intro; now right].
      injection H as -> ->. rewrite same_place_refl in E. discriminate.
Qed.

(** The producers of a place, read off the application. *)
Definition here (a : rtapp) (p : place) (s : sig) (states : list string) : bool :=
  let '(d, k, st) := p in
  String.eqb d (ds_of a (g_sig s)) && String.eqb k (q_key (g_sig s)) && existsb (String.eqb st) states.
Fixpoint writers1 (a : rtapp) (p : place) (i : nat) (states : list string) (j : nat) (l : list sig) : list (nat * nat) :=
  match l with
  | [] => []
  | s :: l' => (if here a p s states then [(i, j)] else []) ++ writers1 a p i states (S j) l'
  end.
Fixpoint writers (a : rtapp) (p : place) (i : nat) (fs : list fn) (N : sts) : list (nat * nat) :=
  match fs, N with
  | f :: fs', l :: N' => writers1 a p i (map fst l) 0 (f_out f) ++ writers a p (1 + i) fs' N'
  | _, _ => []
  end.

Lemma signal_producer_get a p i states t j s : NoDup states ->
  get p (signal_producer a i states t j s) = get p t ++ (if here a p s states then [(i, j)] else []).
Proof.
  unfold signal_producer. revert t. induction states as [|st states IH]; intros t ND; cbn [fold_left].
  - destruct p as [[d k] st]. cbn. rewrite andb_false_r. now rewrite app_nil_r.
  - inversion ND as [|x y NI ND']; subst. rewrite IH by assumption. rewrite get_add.
    destruct p as [[d k] st']. unfold here, same_place. cbn [existsb].
    rewrite (String.eqb_sym (ds_of a (g_sig s)) d), (String.eqb_sym (q_key (g_sig s)) k).
    destruct (String.eqb d (ds_of a (g_sig s))); [|reflexivity]. destruct (String.eqb k (q_key (g_sig s))); [|reflexivity].
    cbn [andb]. rewrite (String.eqb_sym st st').
    destruct (String.eqb_spec st' st) as [->|NE]; [|reflexivity].
    replace (existsb (String.eqb st) states) with false; [cbn [orb]; now rewrite app_nil_r|].
    symmetry. apply not_true_iff_false. intro H. apply existsb_exists in H. destruct H as (x & I & E).
    apply String.eqb_eq in E. subst x. contradiction.
Qed.
Lemma signal_producer_tidy a i states t j s : tidy t -> tidy (signal_producer a i states t j s).
Proof.
  unfold signal_producer. revert t. induction states as [|st states IH]; intros t T; cbn [fold_left]; [exact T|].
  apply IH, add_tidy, T.
Qed.
Lemma outputs_get a p i states l : NoDup states -> forall j t,
  get p (outputs a i states j l t) = get p t ++ writers1 a p i states j l.
Proof.
  intro ND. induction l as [|s l IH]; intros j t; cbn [outputs writers1]; [now rewrite app_nil_r|].
  rewrite IH, signal_producer_get by assumption. now rewrite app_assoc.
Qed.
Lemma outputs_tidy a i states l : forall j t, tidy t -> tidy (outputs a i states j l t).
Proof. induction l as [|s l IH]; intros j t T; cbn [outputs]; [exact T|]. now apply IH, signal_producer_tidy. Qed.
Lemma producers_get a p fs : forall i N t, Forall (fun l => NoDup (map fst l)) N ->
  get p (producers a i fs N t) = get p t ++ writers a p i fs N.
Proof.
  induction fs as [|f fs IH]; intros i N t F; cbn [producers writers]; [now rewrite app_nil_r|].
  destruct N as [|l N]; [now rewrite app_nil_r|]. inversion F; subst.
  rewrite IH, outputs_get by assumption. now rewrite app_assoc.
Qed.
Lemma producers_tidy a fs : forall i N t, tidy t -> tidy (producers a i fs N t).
Proof.
  induction fs as [|f fs IH]; intros i N t T; cbn [producers]; [exact T|]. destruct N as [|l N]; [exact T|].
  now apply IH, outputs_tidy.
Qed.

Lemma in_writers1 a p i states l : forall j0 w, In w (writers1 a p i states j0 l) <->
  exists j s, w = (i, j0 + j) /\ nth_error l j = Some s /\ here a p s states = true.
Proof.
  induction l as [|s l IH]; intros j0 w; cbn [writers1].
  - split; [intros []|]. intros (j & s & _ & H & _). destruct j; discriminate.
  - rewrite in_app_iff, IH. split.
    + intros [H|(j & x & -> & H & E)].
      * destruct (here a p s states) eqn:E; [|destruct H]. destruct H as [<-|[]]. exists 0, s. rewrite Nat.add_0_r. auto.
      * exists (S j), x. split; [f_equal; lia|auto].
    + intros (j & x & -> & H & E). destruct j as [|j]; cbn [nth_error] in H.
      * injection H as <-. rewrite E. left. left. f_equal. lia.
      * right. exists j, x. split; [f_equal; lia|auto].
Qed.
Lemma in_writers a p fs : forall i0 N w, List.length N = List.length fs ->
  (In w (writers a p i0 fs N) <->
   exists i j f l s, w = (i0 + i, j) /\ nth_error fs i = Some f /\ nth_error N i = Some l /\ nth_error (f_out f) j = Some s /\
                     here a p s (map fst l) = true).
Proof.
  induction fs as [|f fs IH]; intros i0 N w L; cbn [writers].
  - split; [intros []|]. intros (i & j & f & l & s & _ & H & _). destruct i; discriminate.
  - destruct N as [|l N]; [discriminate|]. injection L as L. rewrite in_app_iff, in_writers1, IH by assumption. split.
    + intros [(j & s & -> & H & E)|(i & j & g & m & s & -> & A)].
      * exists 0, j, f, l, s. cbn. rewrite Nat.add_0_r. auto.
      * exists (S i), j, g, m, s. split; [f_equal; lia|exact A].
    + intros (i & j & g & m & s & -> & A & B & H & E). destruct i as [|i]; cbn [nth_error] in A, B.
      * injection A as <-. injection B as <-. left. exists j, s. rewrite Nat.add_0_r. auto.
      * right. exists i, j, g, m, s. split; [f_equal; lia|auto].
Qed.
Lemma NoDup_app {A} (l1 l2 : list A) : NoDup l1 -> NoDup l2 -> (forall x, In x l1 -> ~ In x l2) -> NoDup (l1 ++ l2).
Proof.
  induction 1 as [|x l1 NI N IH]; cbn; intros N2 H; [exact N2|]. constructor.
  - rewrite in_app_iff. intros [I|I]; [contradiction|]. now apply (H x); [left|].
  - apply IH; [exact N2|]. intros y I. apply H. now right.
Qed.
Lemma writers_nodup a p fs : forall i0 N, List.length N = List.length fs -> NoDup (writers a p i0 fs N).
Proof.
  induction fs as [|f fs IH]; intros i0 N L; cbn [writers]; [constructor|].
  destruct N as [|l N]; [constructor|]. injection L as L. apply NoDup_app; [|apply IH; exact L|].
  - generalize 0. induction (f_out f) as [|s o IHo]; intro j0; cbn [writers1]; [constructor|].
    destruct (here a p s (map fst l)); cbn [List.app]; [|apply IHo]. constructor; [|apply IHo].
    rewrite in_writers1. intros (j & x & H & _). injection H as H. lia.
  - intros w I J. apply in_writers1 in I. destruct I as (j & s & -> & _).
    apply in_writers in J; [|exact L]. destruct J as (i & j' & g & m & x & H & _). injection H as H _. lia.
Qed.

(** * The ranges *)

Lemma check_app rs1 rs2 : check_ranges (rs1 ++ rs2) = true <->
  check_ranges rs1 = true /\ check_ranges rs2 = true /\
  (forall r1 r2, In r1 rs1 -> In r2 rs2 -> min_max_apart r1 r2 = true).
Proof.
  induction rs1 as [|r rs1 IH]; cbn [List.app check_ranges].
  - split; [intro H; repeat split; auto; intros ? ? []|tauto].
  - rewrite !andb_true_iff, IH, forallb_app, andb_true_iff, !forallb_forall. split.
    + intros [[A B] (C & D & E)]. repeat split; auto. intros r1 r2 [<-|I] J; auto.
    + intros [[A B] [C D]]. repeat split; auto. intros r2 J. apply D; [now left|exact J].
      intros r1 r2 I J. apply D; [now right|exact J].
Qed.
Lemma apart_no_common r1 r2 : min_max_apart r1 r2 = true ->
  forall e, ~ ((fst r1 <= e <= snd r1)%Z /\ (fst r2 <= e <= snd r2)%Z).
Proof. unfold min_max_apart. intros H e. lia. Qed.
Lemma no_common_apart r1 r2 : (fst r1 <= snd r1)%Z -> (fst r2 <= snd r2)%Z ->
  (forall e, ~ ((fst r1 <= e <= snd r1)%Z /\ (fst r2 <= e <= snd r2)%Z)) -> min_max_apart r1 r2 = true.
Proof. unfold min_max_apart. intros A B H. pose proof (H (fst r1)). pose proof (H (fst r2)). lia. Qed.
Lemma check_no_repeats rs : check_ranges rs = true -> no_repeats rs.
Proof.
  induction rs as [|r rs IH]; cbn [check_ranges no_repeats]; [auto|]. rewrite andb_true_iff, forallb_forall.
  intros [A B]. split; [|auto]. intros r1 r2 e [<-|[]] J. apply apart_no_common. auto.
Qed.
Lemma no_repeats_check rs : Forall (fun r => (fst r <= snd r)%Z) rs -> no_repeats rs -> check_ranges rs = true.
Proof.
  induction 1 as [|r rs A F IH]; cbn [check_ranges no_repeats]; [auto|]. intros [N R].
  rewrite andb_true_iff, forallb_forall. split; [|auto]. intros r2 J. rewrite Forall_forall in F.
  apply no_common_apart; auto. intro e. apply (N r r2 e); [now left|exact J].
Qed.

(** The ranges of one producer. *)
Definition ranges_of (fs : list fn) (w : nat * nat) : option (list (Z * Z)) :=
  match nth_error fs (fst w) with
  | None => None
  | Some f => match nth_error (f_out f) (snd w) with None => None | Some s => q_ranges (g_sig s) end
  end.
Lemma all_ranges_cons fs w l : all_ranges fs (w :: l) =
  match ranges_of fs w, all_ranges fs l with Some rs, Some r => Some (rs ++ r) | _, _ => None end.
Proof.
  destruct w as [i j]. unfold ranges_of. cbn [all_ranges fst snd].
  destruct (nth_error fs i) as [f|]; [|reflexivity]. destruct (nth_error (f_out f) j); reflexivity.
Qed.

Lemma ranges_sound fs l : producers_ranges fs l = true ->
  (forall w, In w l -> exists rs, ranges_of fs w = Some rs /\ no_repeats rs) /\
  (forall w1 w2 rs1 rs2, In w1 l -> In w2 l -> w1 <> w2 -> ranges_of fs w1 = Some rs1 -> ranges_of fs w2 = Some rs2 ->
     no_common rs1 rs2).
Proof.
  unfold producers_ranges. induction l as [|w l IH].
  - intros _. split; [intros w []|intros w1 w2 rs1 rs2 []].
  - rewrite all_ranges_cons. destruct (ranges_of fs w) as [rs|] eqn:E; [|discriminate].
    assert (R : forall w2 rs2 all, In w2 l -> ranges_of fs w2 = Some rs2 -> all_ranges fs l = Some all -> incl rs2 all).
    { clear. induction l as [|w l IH]; intros w2 rs2 all I E H; [destruct I|]. rewrite all_ranges_cons in H.
      destruct (ranges_of fs w) as [rs|] eqn:Ew; [|discriminate]. destruct (all_ranges fs l) as [m|] eqn:El; [|discriminate].
      injection H as <-. destruct I as [->|I]; [rewrite Ew in E; injection E as ->; apply incl_appl, incl_refl|].
      apply incl_appr. eauto. }
    destruct (all_ranges fs l) as [all|] eqn:EA; [|discriminate]. intro H. apply check_app in H. destruct H as (A & B & C).
    destruct (IH B) as [P Q]. split.
    + intros w1 [<-|I]; [exists rs; split; [exact E|now apply check_no_repeats]|auto].
    + assert (X : forall w2 rs2, In w2 l -> ranges_of fs w2 = Some rs2 -> forall r1 r2 e, In r1 rs -> In r2 rs2 ->
                    ~ ((fst r1 <= e <= snd r1)%Z /\ (fst r2 <= e <= snd r2)%Z)).
      { intros w2 rs2 I2 E2 r1 r2 e J1 J2. apply apart_no_common. apply C; [exact J1|]. eapply R; eauto. }
      intros w1 w2 rs1 rs2 [<-|I1] [<-|I2] NE E1 E2.
      * congruence.
      * rewrite E in E1. injection E1 as <-. intros r1 r2 e J1 J2. eapply X; eauto.
      * rewrite E in E2. injection E2 as <-. intros r1 r2 e J1 J2 [U V]. eapply (X w1 rs1 I1 E1 r2 r1 e); eauto.
      * exact (Q w1 w2 rs1 rs2 I1 I2 NE E1 E2).
Qed.
Lemma ranges_complete fs l : NoDup l ->
  (forall w, In w l -> exists rs, ranges_of fs w = Some rs /\ no_repeats rs /\ Forall (fun r => (fst r <= snd r)%Z) rs) ->
  (forall w1 w2 rs1 rs2, In w1 l -> In w2 l -> w1 <> w2 -> ranges_of fs w1 = Some rs1 -> ranges_of fs w2 = Some rs2 ->
     no_common rs1 rs2) ->
  producers_ranges fs l = true.
Proof.
  intros ND P Q.
  assert (G : exists all, all_ranges fs l = Some all /\ check_ranges all = true /\
              (forall r, In r all -> exists w rs, In w l /\ ranges_of fs w = Some rs /\ In r rs)).
  { induction ND as [|w l NI ND IH].
    - exists []. repeat split; auto. intros r [].
    - destruct IH as (all & E & C & W).
      { intros w' I'. apply P. now right. }
      { intros w1 w2 rs1 rs2 I1 I2 NE E1 E2. exact (Q w1 w2 rs1 rs2 (or_intror I1) (or_intror I2) NE E1 E2). }
      destruct (P w) as (rs & Ew & NR & AS); [now left|].
      exists (rs ++ all). rewrite all_ranges_cons, Ew, E. split; [reflexivity|]. split.
      + apply check_app. split; [now apply no_repeats_check|]. split; [exact C|].
        intros r1 r2 I1 I2. destruct (W r2 I2) as (w2 & rs2 & J2 & E2 & K2).
        destruct (P w2) as (rs2' & E2' & _ & AS2); [now right|]. assert (rs2' = rs2) by congruence. subst rs2'.
        rewrite Forall_forall in AS, AS2. apply no_common_apart; auto.
        intro e. eapply (Q w w2 rs rs2); eauto; [now left|now right|]. intros ->. contradiction.
      + intros r I. apply in_app_iff in I. destruct I as [I|I]; [exists w, rs; repeat split; auto; now left|].
        destruct (W r I) as (w2 & rs2 & ? & ? & ?). exists w2, rs2. repeat split; auto. now right. }
  destruct G as (all & E & C & _). unfold producers_ranges. now rewrite E.
Qed.

(** * The verdict of the builder *)

Lemma told_keys a D N : told a D N -> Forall (fun l => NoDup (map fst l)) N.
Proof.
  intro T. apply Forall_forall. intros l I. apply In_nth_error in I. destruct I as (i & Hi).
  destruct (nth_error (x_functions a) i) as [f|] eqn:Hf.
  - apply (t_keys _ _ _ T _ _ _ Hf Hi).
  - apply nth_error_None in Hf. rewrite <- (t_len _ _ _ T) in Hf. apply nth_error_None in Hf. congruence.
Qed.

(** The producers of a place are the output signals that run there. *)
Lemma in_place a N d k st i j : told a (all_events a) N -> NoDup (names_of a) ->
  (In (i, j) (writers a (d, k, st) 0 (x_functions a) N) <->
   exists s T x, runs a s T i /\ s_name s = st /\ output a i j x /\ source a x = d /\ name_there x = k).
Proof.
  intros TD ND. rewrite in_writers by (apply (t_len _ _ _ TD)). split.
  - intros (i' & j' & f & l & s & E & Hf & HN & Hs & H). cbn in E. injection E as -> ->.
    unfold here in H. rewrite !andb_true_iff, !String.eqb_eq in H. destruct H as [[H1 H2] H3].
    apply existsb_exists in H3. destruct H3 as (st' & I & E). apply String.eqb_eq in E. subst st'.
    apply (t_keys _ _ _ TD _ _ _ Hf HN) in I. destruct I as (t & I).
    destruct (event_runs _ _ _ _ _ _ ND I Hf eq_refl) as (z & T & R & Ez & _).
    exists z, T, (g_sig s). split; [exact R|]. split; [exact Ez|]. split; [exists f, s; auto|]. split; [now symmetry|now symmetry].
  - intros (s & T & x & R & Es & (f & y & Hf & Hy & Ex) & Ed & Ek).
    destruct (nth_error N i) as [l|] eqn:HN.
    2:{ apply nth_error_None in HN. rewrite (t_len _ _ _ TD) in HN. apply nth_error_None in HN. congruence. }
    exists i, j, f, l, y. repeat split; auto. unfold here. rewrite !andb_true_iff, !String.eqb_eq. subst x.
    split; [split; now symmetry|]. apply existsb_exists. exists st. split; [|apply String.eqb_refl].
    apply (t_keys _ _ _ TD _ _ _ Hf HN). exists (t_name T). subst st. eapply runs_event; eauto.
Qed.

Lemma verified a N : told a (all_events a) N -> NoDup (names_of a) ->
  (forallb (verify_place a) (producers a 0 (x_functions a) N []) = true <->
   forall d k st, writers a (d, k, st) 0 (x_functions a) N <> [] ->
     d <> x_timing a /\
     (x_multi a = true -> 1 < List.length (writers a (d, k, st) 0 (x_functions a) N) ->
      producers_ranges (x_functions a) (writers a (d, k, st) 0 (x_functions a) N) = true)).
Proof.
  intros TD ND. rewrite forallb_forall.
  assert (TI : tidy (producers a 0 (x_functions a) N [])) by (apply producers_tidy; split; constructor).
  pose proof (told_keys _ _ _ TD) as KY.
  split.
  - intros H d k st NE.
    assert (I : In ((d, k, st), writers a (d, k, st) 0 (x_functions a) N) (producers a 0 (x_functions a) N [])).
    { apply get_in; [exact TI|]. rewrite producers_get by exact KY. cbn. auto. }
    specialize (H _ I). unfold verify_place in H. cbn [fst snd] in H.
    destruct (String.eqb_spec d (x_timing a)) as [|ND']; [discriminate|]. split; [assumption|].
    intros M L. rewrite M in H. destruct (Nat.ltb_spec 1 (List.length (writers a (d, k, st) 0 (x_functions a) N))); [exact H|lia].
  - intros H [[[d k] st] l] I. apply get_in in I; [|exact TI]. rewrite producers_get in I by exact KY. cbn in I.
    destruct I as [<- NE]. destruct (H d k st NE) as [A B]. unfold verify_place. cbn [fst snd].
    destruct (String.eqb_spec d (x_timing a)) as [|_]; [contradiction|]. destruct (x_multi a); [|reflexivity].
    destruct (Nat.ltb_spec 1 (List.length (writers a (d, k, st) 0 (x_functions a) N))) as [L|]; [|reflexivity].
    apply B; auto.
Qed.

Lemma output_ranges a i j x : output a i j x -> ranges_of (x_functions a) (i, j) = q_ranges x.
Proof. intros (f & y & Hf & Hy & <-). unfold ranges_of. cbn [fst snd]. now rewrite Hf, Hy. Qed.
Lemma output_fun a i j x y : output a i j x -> output a i j y -> x = y.
Proof. intros (f & u & Hf & Hu & <-) (g & v & Hg & Hv & <-). congruence. Qed.

Lemma two_in {A} (l : list A) x y : In x l -> In y l -> x <> y -> 1 < List.length l.
Proof. destruct l as [|u [|v l]]; cbn; try tauto; try lia. intros [->|[]] [->|[]] N. congruence. Qed.

Lemma waits_syncs f : waits f = syncs f.
Proof. unfold waits, syncs. rewrite filter_app, app_length. reflexivity. Qed.
Lemma cycle_waits_eq a T : NoDup (names_of a) -> cycle_waits a T = thread_waits a T.
Proof.
  intro ND. unfold cycle_waits, thread_waits. f_equal. induction (t_functions T) as [|p ps IH]; cbn [flat_map]; [reflexivity|].
  rewrite map_app, IH. f_equal. clear IH.
  assert (G : forall l, incl l (x_functions a) ->
    map waits (filter (fun f => belongs p (f_name f)) l) = map (waits_of a) (expand (map f_name l) p)).
  { induction l as [|f l IHl]; intro I; [reflexivity|]. cbn [map filter]. unfold expand. cbn [filter].
    change (String.eqb p (f_name f) || String.prefix (p ++ ".") (f_name f)) with (belongs p (f_name f)).
    specialize (IHl (fun x H => I x (or_intror H))). unfold expand in IHl.
    destruct (belongs p (f_name f)); cbn [map]; rewrite IHl; [|reflexivity]. f_equal.
    destruct (In_nth_error _ _ (I f (or_introl eq_refl))) as (i & Hi).
    unfold waits_of. rewrite (find_named _ _ _ ND Hi). apply waits_syncs. }
  apply G, incl_refl.
Qed.

Lemma exists_eq a T : thread_exists a T <->
  forall p, In p (t_functions T) -> exists f, In f (x_functions a) /\ within p (f_name f).
Proof.
  unfold thread_exists, names_of. split; intros H p I; destruct (H p I) as (n & J & W).
  - apply in_map_iff in J. destruct J as (f & <- & J). eauto.
  - exists (f_name n). split; [now apply in_map|exact W].
Qed.

Lemma accepted_rules a : distinct_names a -> configure_after a = true -> rules a /\ threads_near a.
Proof.
  intros (ND & NS & NT) H. unfold configure_after, configure in H. change (NoDup (names_of a)) in ND.
  destruct (states_after a) as [N|] eqn:EN; [|discriminate].
  destruct (build (app_of a)) as [b|] eqn:EB; [|discriminate].
  destruct (states_after_told _ _ ND EN) as [TD FI]. rewrite Forall_forall in FI.
  rewrite (verified _ _ TD ND) in H.
  assert (LO : x_same a = true -> lone (all_events a)).
  { intro SM. apply (told_lone _ _ _ TD SM). intros st t n I. apply in_events in I.
    destruct I as (s & T & p & _ & _ & _ & I & _). exact I. }
  split.
  2:{ intros s I. apply (FI s I). }
  constructor.
  - rewrite EB. discriminate.
  - intros s T p I1 I2. destruct (FI s I1) as [_ F]. rewrite Forall_forall in F. destruct (F T I2) as [X _].
    apply exists_eq; assumption.
  - intros SM s T1 T2 i R1 R2. assert (R1' := R1). assert (R2' := R2).
    destruct R1' as (Is & I1 & p & f & _ & Hf & _). destruct R2' as (_ & I2 & _).
    rewrite Forall_forall in NT. apply (NoDup_map_inj t_name (s_threads s)); auto.
    eapply (LO SM (s_name s)); [exact (runs_event _ _ _ _ _ R1 Hf)|exact (runs_event _ _ _ _ _ R2 Hf)].
  - intros s T I1 I2. rewrite (cycle_waits_eq _ _ ND). destruct (FI s I1) as [_ F]. rewrite Forall_forall in F. now apply F.
  - intros s T i j x R O E.
    assert (I : In (i, j) (writers a (source a x, name_there x, s_name s) 0 (x_functions a) N)).
    { apply in_place; auto. exists s, T, x. auto. }
    destruct (H (source a x) (name_there x) (s_name s)) as [A _]; [intro Z; rewrite Z in I; destruct I|]. contradiction.
  - intros M s T1 i1 j1 x1 T2 i2 j2 x2 R1 O1 R2 O2 [E1 E2] NE.
    pose (W := writers a (source a x1, name_there x1, s_name s) 0 (x_functions a) N).
    assert (I1 : In (i1, j1) W) by (apply in_place; auto; exists s, T1, x1; auto).
    assert (I2 : In (i2, j2) W) by (apply in_place; auto; exists s, T2, x2; auto).
    destruct (H (source a x1) (name_there x1) (s_name s)) as [_ B].
    { fold W. intro Z. rewrite Z in I1. destruct I1. }
    specialize (B M (two_in _ _ _ I1 I2 NE)). apply ranges_sound in B. destruct B as [P Q].
    destruct (P _ I1) as (rs1 & G1 & N1). destruct (P _ I2) as (rs2 & G2 & N2).
    pose proof (Q _ _ _ _ I1 I2 NE G1 G2) as C.
    rewrite (output_ranges _ _ _ _ O1) in G1. rewrite (output_ranges _ _ _ _ O2) in G2. rewrite G1, G2. auto.
Qed.

Lemma rules_accepted a : distinct_names a -> ascending a -> rules a -> threads_near a -> configure_after a = true.
Proof.
  intros (ND & NS & NT) AS R NR. change (NoDup (names_of a)) in ND.
  assert (FI : Forall (state_fine a) (x_states a)).
  { apply Forall_forall. intros s I. split; [apply NR; assumption|]. apply Forall_forall. intros T IT. split.
    - apply exists_eq. intros p Ip. eapply (r_exist _ R); eauto.
    - rewrite <- (cycle_waits_eq _ _ ND). eapply (r_one_wait _ R); eauto. }
  assert (LO : x_same a = true -> lone (all_events a)).
  { intros SM st t t' n I I'.
    assert (In n (names_of a)) as J by (apply in_events in I; destruct I as (? & ? & ? & _ & _ & _ & J & _); exact J).
    destruct (In_nth_error _ _ J) as (i & Hi). destruct (nth_names _ _ _ Hi) as (f & Hf & En).
    destruct (event_runs _ _ _ _ _ _ ND I Hf En) as (s & T & R1 & E1 & <-).
    destruct (event_runs _ _ _ _ _ _ ND I' Hf En) as (s' & T' & R2 & E2 & <-).
    assert (s' = s).
    { apply (NoDup_map_inj s_name (x_states a)); auto; [apply R2|apply R1|congruence]. }
    subst s'. now rewrite (r_one_thread _ R SM _ _ _ _ R1 R2). }
  destruct (states_after_ok _ ND FI LO) as (N & EN). destruct (states_after_told _ _ ND EN) as [TD _].
  unfold configure_after, configure. rewrite EN.
  pose proof (r_memory _ R) as BM. destruct (build (app_of a)) as [b|]; [|congruence].
  apply (verified _ _ TD ND). intros d k st NE.
  assert (G : forall i j, In (i, j) (writers a (d, k, st) 0 (x_functions a) N) ->
            exists s T x, runs a s T i /\ s_name s = st /\ output a i j x /\ source a x = d /\ name_there x = k)
    by (intros i j; apply in_place; assumption).
  split.
  - destruct (writers a (d, k, st) 0 (x_functions a) N) as [|[i j] w]; [congruence|].
    destruct (G i j) as (s & T & x & Rn & _ & O & <- & _); [now left|]. eapply (r_times _ R); eauto.
  - intros M L.
    pose proof (writers_nodup a (d, k, st) (x_functions a) 0 N (t_len _ _ _ TD)) as NDW.
    set (W := writers a (d, k, st) 0 (x_functions a) N) in *. clearbody W.
    assert (PAIR : forall w1 w2, In w1 W -> In w2 W -> w1 <> w2 ->
      match ranges_of (x_functions a) w1, ranges_of (x_functions a) w2 with
      | Some rs1, Some rs2 => no_common rs1 rs2 /\ no_repeats rs1 /\ no_repeats rs2
      | _, _ => False
      end).
    { intros [i1 j1] [i2 j2] I1 I2 NEw.
      destruct (G _ _ I1) as (s1 & T1 & x1 & R1 & S1 & O1 & D1 & K1).
      destruct (G _ _ I2) as (s2 & T2 & x2 & R2 & S2 & O2 & D2 & K2).
      assert (s2 = s1) by (apply (NoDup_map_inj s_name (x_states a)); auto; [apply R2|apply R1|congruence]). subst s2.
      rewrite (output_ranges _ _ _ _ O1), (output_ranges _ _ _ _ O2).
      eapply (r_writers _ R M s1 T1 i1 j1 x1 T2 i2 j2 x2); eauto. split; congruence. }
    apply ranges_complete; [exact NDW| |].
    + intros w I.
      assert (exists w', In w' W /\ w <> w') as (w' & I' & NEw).
      { destruct W as [|u [|v W]]; cbn in L; try lia. inversion NDW as [|? ? NI _]; subst.
        destruct I as [->|I]; [exists v|exists u]; cbn; [split; [auto|]|split; [auto|]].
        - intros ->. apply NI. now left.
        - intros ->. apply NI. exact I. }
      specialize (PAIR w w' I I' NEw). destruct (ranges_of (x_functions a) w) as [rs|] eqn:E; [|contradiction].
      destruct (ranges_of (x_functions a) w'); [|contradiction]. exists rs. split; [reflexivity|]. split; [apply PAIR|].
      destruct w as [i j]. destruct (G _ _ I) as (s & T & x & _ & _ & O & _). rewrite (output_ranges _ _ _ _ O) in E.
      eapply AS; eauto.
    + intros w1 w2 rs1 rs2 I1 I2 NEw E1 E2. specialize (PAIR w1 w2 I1 I2 NEw). rewrite E1, E2 in PAIR. apply PAIR.
Qed.
