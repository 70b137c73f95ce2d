(** C28: the transitions of a state machine. *)
From Verif Require Import Base Conc StateMach_Model.
Open Scope string_scope.
Open Scope nat_scope.
Open Scope list_scope.

(** * Specification *)
(** e is an event of the state named n. *)
Definition event_in (c : config) (n : string) (e : event) : Prop := exists es, In (n, es) c /\ In e es.
(** No two states of the same name, no two events of the same name in a state, every event object in one place only. *)
Definition well_formed (c : config) : Prop :=
  NoDup (map fst c) /\ NoDup (map eid (flat_map snd c)) /\ forall n es, In (n, es) c -> NoDup (map ename es).
(** [expected c n fired msgs n']: from the state named n, having already moved on messages of the names in [fired], the messages msgs
    (name, and whether the messages of the event are delivered) shall lead to the state named n'.
    Left out: the messages of an event that leads to its own state are not delivered; a message that is not an event of the current
    state but has caused a transition before. *)
Inductive expected (c : config) : string -> list string -> list (string * bool) -> string -> Prop :=
| exp_nil n fired : expected c n fired [] n
| exp_move n fired e send r n' : event_in c n e -> (send = true \/ enext e <> n \/ enerr e = n) ->
    expected c (if send then enext e else enerr e) (ename e :: fired) r n' -> expected c n fired ((ename e, send) :: r) n'
| exp_ignore n fired m send r n' : (forall e, event_in c n e -> ename e <> m) -> ~ In m fired ->
    expected c n fired r n' -> expected c n fired ((m, send) :: r) n'.
(** ENTER messages are delivered. *)
Definition msgs (l : list (string * bool)) : list (string * list (bool * bool)) := map (fun p => (fst p, [(snd p, true)])) l.
Definition first_name (c : config) : string := match c with [] => "" | p :: _ => fst p end.
(** e would be asked for a message and act on it. *)
Definition enabled (s : st) (e : event) : Prop := In e (pool s) /\ armed s (eid e) = true.

(** * Proofs *)
Section P.
Variable c : config.
Hypothesis WF : well_formed c.

Lemma find_from_some k d n : In n (map fst d) -> exists i es, find_from k d n = Some (k + i) /\ nth_error d i = Some (n, es).
Proof.
  revert k. induction d as [|[x es] d IH]; intros k H; [destruct H|]. cbn [find_from fst].
  destruct (String.eqb_spec x n) as [->|Ne].
  - exists 0, es. rewrite Nat.add_0_r. auto.
  - destruct H as [H|H]; [cbn in H; congruence|]. destruct (IH (S k) H) as (i & es' & A & B). exists (S i), es'.
    rewrite <- plus_n_Sm. rewrite A. auto.
Qed.
Lemma find_from_none k d n : find_from k d n <> None -> In n (map fst d).
Proof.
  revert k. induction d as [|[x es] d IH]; intros k H; [destruct H; reflexivity|]. cbn [find_from fst] in H.
  destruct (String.eqb_spec x n) as [->|Ne]; [left; reflexivity|right; eapply IH; eauto].
Qed.
Lemma has_name n : has c n = true <-> In n (map fst c).
Proof.
  unfold has, find_state. split; intro H.
  - apply (find_from_none 0). destruct (find_from 0 c n); congruence.
  - destruct (find_from_some 0 c n H) as (i & es & -> & _). reflexivity.
Qed.
Lemma nth_name (d : config) : NoDup (map fst d) -> forall i n es es', nth_error d i = Some (n, es) -> In (n, es') d -> es = es'.
Proof.
  induction d as [|[x xs] d IH]; intros ND i n es es' A B; [destruct B|]. inversion ND as [|? ? N1 N2]; subst.
  destruct i; cbn in A.
  - injection A as -> ->. destruct B as [B|B]; [congruence|]. destruct N1. apply (in_map fst) in B. exact B.
  - destruct B as [B|B]; [injection B as -> ->; destruct N1; apply nth_error_In in A; apply (in_map fst) in A; exact A|].
    eapply IH; eauto.
Qed.
Lemma event_at i n es : nth_error c i = Some (n, es) -> forall e, event_in c n e <-> In e es.
Proof.
  intros H e. split.
  - intros (es' & A & B). destruct WF as (N & _). rewrite (nth_name c N i n es es' H A). exact B.
  - intro B. exists es. split; [eapply nth_error_In; eauto|exact B].
Qed.

(** ** The pool *)
Lemma remove_skip e p : forall q, ~ In (eid e) (map eid p) -> remove e (p ++ q) = (p ++ fst (remove e q), snd (remove e q))%list.
Proof.
  induction p as [|x p IH]; intros q H; cbn [app remove]; [destruct (remove e q); reflexivity|].
  destruct (Nat.eqb_spec (eid x) (eid e)) as [E|E]; [destruct H; left; exact E|]. rewrite IH by (intro; apply H; right; assumption). reflexivity.
Qed.
Lemma remove_last e p q : ~ In (eid e) (map eid p) -> remove e ((p ++ [e]) ++ q)%list = ((p ++ q)%list, true).
Proof.
  intro H. rewrite <- app_assoc. rewrite remove_skip by exact H. cbn [app remove]. rewrite Nat.eqb_refl. reflexivity.
Qed.
(** The filters of the current state but that of the event leave the pool. *)
Lemma remove_others_spec e es : NoDup (map eid es) -> forall rest, remove_others e es (rev es ++ rest)%list = (filter (fun x => eid x =? eid e) (rev es) ++ rest)%list.
Proof.
  induction es as [|x es IH]; intros ND rest; [reflexivity|]. cbn [map] in ND. inversion ND as [|? ? N1 N2]; subst. cbn [remove_others rev].
  assert (NI : ~ In (eid x) (map eid (rev es))) by (rewrite map_rev, <- in_rev; exact N1).
  rewrite filter_app. cbn [filter]. destruct (Nat.eqb_spec (eid x) (eid e)) as [E|E].
  - rewrite <- app_assoc. rewrite IH by exact N2. rewrite <- app_assoc. reflexivity.
  - rewrite remove_last by exact NI. rewrite IH by exact N2. rewrite app_nil_r. reflexivity.
Qed.
Lemma enter_cur b es : forall s, cur (enter_events b es s) = cur s.
Proof. induction es as [|x es IH]; intro s; [reflexivity|]. cbn [enter_events]. rewrite IH. reflexivity. Qed.
Lemma enter_pool b es : forall s, pool (enter_events b es s) = if b then (rev es ++ pool s)%list else pool s.
Proof.
  induction es as [|x es IH]; intro s; [destruct b; reflexivity|]. cbn [enter_events]. rewrite IH. cbn [pool]. destruct b; [|reflexivity].
  cbn [rev]. rewrite <- app_assoc. reflexivity.
Qed.
Lemma enter_armed b es : forall s k, armed (enter_events b es s) k = true <-> armed s k = true \/ In k (map eid es).
Proof.
  induction es as [|x es IH]; intros s k; cbn [enter_events map In]; [tauto|]. rewrite IH. cbn [armed]. unfold upd.
  destruct (Nat.eqb_spec k (eid x)) as [->|N]; [tauto|]. split; intros [H|H]; auto. destruct H as [H|H]; auto.
Qed.

(** ** The invariant *)
Record Inv (s : st) (n : string) (fired : list string) : Prop :=
  { v_at : exists es, nth_error c (cur s) = Some (n, es);
    v_pool : exists rest, pool s = (rev (events_of c (cur s)) ++ rest)%list /\ Forall (fun e => In (ename e) fired) rest;
    v_armed : forall e, event_in c n e -> armed s (eid e) = true }.

Lemma eids_state i n es : nth_error c i = Some (n, es) -> NoDup (map eid es).
Proof.
  intro H. destruct WF as (_ & N & _). apply nth_error_In in H. clear - H N. induction c as [|[x xs] d IH]; [destruct H|].
  cbn [flat_map snd] in N. rewrite map_app in N. destruct H as [H|H].
  - injection H as -> ->. clear IH. induction (map eid es) as [|a l IHl]; [constructor|]. inversion N as [|? ? A B]; subst. constructor; [|auto].
    intro. apply A. apply in_or_app. auto.
  - apply IH; [exact H|]. clear - N. induction (map eid xs) as [|a l IHl]; [exact N|]. inversion N; subst. auto.
Qed.
Lemma filter_self e es : In e es -> NoDup (map eid es) -> filter (fun x => eid x =? eid e) es = [e].
Proof.
  induction es as [|x es IH]; intros H ND; [destruct H|]. inversion ND as [|? ? N1 N2]; subst. cbn [filter].
  destruct H as [->|H].
  - rewrite Nat.eqb_refl. f_equal. clear - N1. induction es as [|y es IH]; [reflexivity|]. cbn [filter]. cbn [map In] in N1.
    destruct (Nat.eqb_spec (eid y) (eid e)); [destruct N1; auto|]. apply IH. intro; apply N1; auto.
  - destruct (Nat.eqb_spec (eid x) (eid e)) as [E|E]; [|apply IH; auto]. destruct N1. rewrite E. apply (in_map eid). exact H.
Qed.

(** An event of the current state. *)
Lemma trigger_ok s n fired e send : Inv s n fired -> initialise c <> None -> event_in c n e ->
  (send = true \/ enext e <> n \/ enerr e = n) ->
  exists s', event_triggered c e send true (St (cur s) (pool s) (upd (armed s) (eid e) false)) = Some (s', true) /\
    Inv s' (if send then enext e else enerr e) (ename e :: fired).
Proof.
  intros [(es & AT) (rest & PL & FR) AR] INI HE SELF.
  assert (EV : events_of c (cur s) = es) by (unfold events_of; rewrite AT; reflexivity).
  assert (NM : name_of c (cur s) = n) by (unfold name_of; rewrite AT; reflexivity).
  rewrite EV in PL. pose proof (eids_state _ _ _ AT) as ND. assert (IE : In e es) by (apply (event_at _ _ _ AT); exact HE).
  assert (OK : forall nm, nm = enext e \/ nm = enerr e -> In nm (map fst c)).
  { intros nm Hn. apply has_name. unfold initialise in INI. destruct (forallb (state_ok c) c) eqn:FB; [|congruence].
    rewrite forallb_forall in FB. specialize (FB _ (nth_error_In _ _ AT)). unfold state_ok in FB. cbn [snd] in FB. apply andb_true_iff in FB.
    destruct FB as [FB _]. rewrite forallb_forall in FB. specialize (FB e IE). apply andb_true_iff in FB. destruct Hn; subst nm; tauto. }
  set (t := if send then enext e else enerr e). assert (HT : In t (map fst c)) by (apply OK; unfold t; destruct send; auto).
  destruct (find_from_some 0 c t HT) as (i & es' & FI & AT'). cbn [Nat.add] in FI.
  assert (EV' : events_of c i = es') by (unfold events_of; rewrite AT'; reflexivity).
  unfold event_triggered. cbn [cur pool armed]. rewrite NM, EV. fold t. unfold find_state. rewrite FI, EV'.
  eexists. split; [reflexivity|].
  assert (ARM : forall e', event_in c t e' -> In (eid e') (map eid es')).
  { intros e' H. apply in_map. apply (event_at _ _ _ AT'). exact H. }
  assert (FR' : Forall (fun x => In (ename x) (ename e :: fired)) rest).
  { eapply Forall_impl; [|exact FR]. intros. right. assumption. }
  destruct (String.eqb_spec (enext e) n) as [SL|SL]; cbn [negb].
  - assert (t = n) as TN. { unfold t. destruct SELF as [->|[H|H]]; [exact SL|contradiction|destruct send; congruence]. }
    assert (i = cur s /\ es' = es) as [-> ->].
    { rewrite TN in AT'. clear - WF AT AT'. destruct WF as (N & _). 
      pose proof (map_nth_error fst _ _ AT) as A. pose proof (map_nth_error fst _ _ AT') as B. cbn [fst] in *.
      assert (i = cur s) as ->; [|split; congruence]. apply (proj1 (NoDup_nth_error _) N); [apply nth_error_Some; congruence|congruence]. }
    split; rewrite ?enter_cur, ?enter_pool; cbn [cur pool].
    + exists es. rewrite AT'. reflexivity.
    + exists rest. rewrite EV'. auto.
    + intros e' H. apply enter_armed. auto.
  - split; rewrite ?enter_cur, ?enter_pool; cbn [cur pool].
    + exists es'. exact AT'.
    + exists (e :: rest). rewrite EV'. split; [|constructor; [left; reflexivity|exact FR']].
      f_equal. rewrite PL, remove_others_spec by exact ND. rewrite filter_self; [reflexivity|rewrite <- in_rev; exact IE|].
      rewrite map_rev. apply NoDup_rev. exact ND.
    + intros e' H. apply enter_armed. auto.
Qed.

(** ** One message *)
Lemma receive_skip m orc s : forall pre post k, pool s = (pre ++ post)%list -> Forall (fun e => ename e <> m) pre ->
  forall i, i <= List.length pre -> receive (List.length pre - i + k) c m i orc s = receive k c m (List.length pre) orc s.
Proof.
  intros pre post k PL FA i Hi. remember (List.length pre - i) as d eqn:Ed. revert i Hi Ed.
  induction d as [|d IH]; intros i Hi Ed; [replace i with (List.length pre) by lia; reflexivity|].
  cbn [Nat.add receive]. rewrite PL, nth_error_app1 by lia. destruct (nth_error pre i) as [x|] eqn:EX; [|apply nth_error_None in EX; lia].
  assert (NX : ename x <> m). { rewrite Forall_forall in FA. apply FA. eapply nth_error_In; eauto. }
  unfold consume. rewrite (proj2 (String.eqb_neq m (ename x))) by congruence. cbn [andb].
  destruct (match orc with [] => (true, true) | o :: _ => o end) as [a b]. apply IH; lia.
Qed.
Lemma receive_mono c' m : forall k k' i orc s s', k <= k' -> receive k c' m i orc s = Some s' -> receive k' c' m i orc s = Some s'.
Proof.
  induction k as [|k IH]; intros k' i orc s s' L H; [discriminate|]. destruct k' as [|k']; [lia|]. cbn [receive] in *.
  destruct (nth_error (pool s) i) as [e|]; [|exact H]. destruct (match orc with [] => (true, true) | o :: _ => o end) as [a b].
  destruct (consume c' e m a b s) as [[s1 [|]]|]; auto. apply IH; [lia|exact H].
Qed.
Lemma processed_det c' s m orc s1 s2 : processed c' s m orc s1 -> processed c' s m orc s2 -> s1 = s2.
Proof.
  intros [k1 H1] [k2 H2]. apply (receive_mono _ _ _ (k1 + k2)) in H1; [|lia]. apply (receive_mono _ _ _ (k1 + k2)) in H2; [|lia]. congruence.
Qed.

Lemma split_name (l : list event) e : In e l -> NoDup (map ename l) -> exists a b, l = (a ++ e :: b)%list /\ Forall (fun x => ename x <> ename e) a.
Proof.
  intros H ND. apply in_split in H. destruct H as (a & b & ->). exists a, b. split; [reflexivity|]. rewrite map_app in ND. cbn [map] in ND.
  apply NoDup_remove_2 in ND. apply Forall_forall. intros x Hx E. apply ND. apply in_or_app. left. rewrite <- E. apply in_map. exact Hx.
Qed.

Lemma step_move s n fired e send : Inv s n fired -> initialise c <> None -> event_in c n e ->
  (send = true \/ enext e <> n \/ enerr e = n) ->
  exists s', processed c s (ename e) [(send, true)] s' /\ Inv s' (if send then enext e else enerr e) (ename e :: fired).
Proof.
  intros V INI HE SELF. destruct (trigger_ok s n fired e send V INI HE SELF) as (s' & T & V'). exists s'. split; [|exact V'].
  destruct V as [(es & AT) (rest & PL & FR) AR]. assert (EV : events_of c (cur s) = es) by (unfold events_of; rewrite AT; reflexivity).
  rewrite EV in PL. assert (IE : In e (rev es)) by (rewrite <- in_rev; apply (event_at _ _ _ AT); exact HE).
  assert (ND : NoDup (map ename (rev es))).
  { rewrite map_rev. apply NoDup_rev. destruct WF as (_ & _ & W). apply (W n). eapply nth_error_In; eauto. }
  destruct (split_name _ _ IE ND) as (a & b & SP & FA). rewrite SP, <- app_assoc in PL. cbn [app] in PL.
  exists (List.length a - 0 + 1). rewrite (receive_skip _ _ s a (e :: b ++ rest)%list 1 PL FA 0) by lia.
  cbn [receive]. rewrite PL, nth_error_app2, Nat.sub_diag by lia. cbn [nth_error].
  unfold consume. rewrite String.eqb_refl, (AR e HE). rewrite T. reflexivity.
Qed.
Lemma step_ignore s n fired m send : Inv s n fired -> (forall e, event_in c n e -> ename e <> m) -> ~ In m fired -> processed c s m [(send, true)] s.
Proof.
  intros [(es & AT) (rest & PL & FR) AR] NE NF. assert (EV : events_of c (cur s) = es) by (unfold events_of; rewrite AT; reflexivity).
  rewrite EV in PL. assert (FA : Forall (fun e => ename e <> m) (rev es ++ rest)).
  { apply Forall_forall. intros x Hx. apply in_app_or in Hx. destruct Hx as [Hx|Hx].
    - apply NE. apply (event_at _ _ _ AT). rewrite in_rev. exact Hx.
    - rewrite Forall_forall in FR. intro. subst m. apply NF. apply FR. exact Hx. }
  exists (List.length (rev es ++ rest) - 0 + 1). rewrite (receive_skip m _ s (rev es ++ rest)%list [] 1) by (rewrite ?app_nil_r; auto; lia).
  cbn [receive]. rewrite PL. rewrite (proj2 (nth_error_None _ _)) by lia. reflexivity.
Qed.

Lemma inv_init s0 : initialise c = Some s0 -> Inv s0 (first_name c) [].
Proof.
  unfold initialise. destruct (forallb (state_ok c) c); [|discriminate]. destruct c as [|[n es] d] eqn:EC; [discriminate|]. intro E. injection E as <-.
  split.
  - exists es. rewrite EC. reflexivity.
  - exists []. split; [|constructor]. unfold events_of. rewrite EC. cbn [pool cur nth_error snd]. rewrite app_nil_r. clear.
    assert (H : forall l q, fold_left (fun q e => install e q) l q = (rev l ++ q)%list).
    { induction l as [|x l IH]; intro q; [reflexivity|]. cbn [fold_left rev]. rewrite IH, <- app_assoc. reflexivity. }
    rewrite H, app_nil_r. reflexivity.
  - reflexivity.
Qed.

Lemma runs_expected l : forall s n fired n', initialise c <> None -> Inv s n fired -> expected c n fired l n' ->
  exists s' fired', runs c s (msgs l) s' /\ Inv s' n' fired' /\ forall m, In m fired' -> In m fired \/ In m (map fst l).
Proof.
  induction l as [|[m send] l IH]; intros s n fired n' INI V E.
  - inversion E; subst. exists s, fired. split; [constructor|]. auto.
  - inversion E as [|? ? e ? ? ? HE SELF R|? ? ? ? ? ? NE NF R]; subst.
    + destruct (step_move s n fired e send V INI HE SELF) as (s1 & P1 & V1). destruct (IH s1 _ _ _ INI V1 R) as (s' & fd & P2 & V2 & FD).
      exists s', fd. split; [econstructor; eauto|]. split; [exact V2|]. intros m Hm. cbn [map fst In]. destruct (FD m Hm) as [H|H]; [destruct H|]; auto.
    + pose proof (step_ignore s n fired m send V NE NF) as P1. destruct (IH s _ _ _ INI V R) as (s' & fd & P2 & V2 & FD).
      exists s', fd. split; [econstructor; eauto|]. split; [exact V2|]. intros m' Hm. cbn [map fst In]. destruct (FD m' Hm); auto.
Qed.
End P.

Lemma runs_det c l : forall s s1 s2, runs c s l s1 -> runs c s l s2 -> s1 = s2.
Proof.
  induction l as [|[m o] l IH]; intros s s1 s2 H1 H2; inversion H1; inversion H2; subst; [reflexivity|].
  match goal with A : processed c s m o ?x, B : processed c s m o ?y |- _ => rewrite (processed_det _ _ _ _ _ _ A B) in * end. eauto.
Qed.

(** * The theorems *)
(** Processing always comes to an end, and the machine is then in the state that the configuration says. *)
Theorem C28_transitions_partial c s0 l n' : well_formed c -> initialise c = Some s0 -> expected c (first_name c) [] l n' ->
  (exists s, runs c s0 (msgs l) s) /\ forall s, runs c s0 (msgs l) s -> name_of c (cur s) = n'.
Proof.
  intros WF INI E. destruct (runs_expected c WF l s0 _ _ _ ltac:(congruence) (inv_init c WF s0 INI) E) as (s' & fd & R & V & _).
  split; [eauto|]. intros s R2. rewrite (runs_det _ _ _ _ _ R2 R). destruct (v_at _ _ _ _ V) as (es & AT). unfold name_of. rewrite AT. reflexivity.
Qed.
(** All events of the new state are enabled; any other filter that is still installed belongs to an event whose name was received. *)
Theorem C28_enabled_partial c s0 l n' s : well_formed c -> initialise c = Some s0 -> expected c (first_name c) [] l n' -> runs c s0 (msgs l) s ->
  (forall e, event_in c n' e -> enabled s e) /\ (forall e, In e (pool s) -> event_in c n' e \/ In (ename e) (map fst l)).
Proof.
  intros WF INI E R2. destruct (runs_expected c WF l s0 _ _ _ ltac:(congruence) (inv_init c WF s0 INI) E) as (s' & fd & R & V & FD).
  rewrite (runs_det _ _ _ _ _ R2 R). destruct V as [(es & AT) (rest & PL & FR) AR].
  assert (EV : events_of c (cur s') = es) by (unfold events_of; rewrite AT; reflexivity). rewrite EV in PL. split.
  - intros e H. split; [|apply AR; exact H]. rewrite PL. apply in_or_app. left. rewrite <- in_rev. apply (event_at c WF _ _ _ AT). exact H.
  - intros e H. rewrite PL in H. apply in_app_or in H. destruct H as [H|H].
    + left. apply (event_at c WF _ _ _ AT). rewrite in_rev. exact H.
    + right. rewrite Forall_forall in FR. destruct (FD _ (FR e H)) as [[]|K]. exact K.
Qed.

(** * What does not hold *)
Definition ab : config := [("A", [Ev 0 "go" "B" "E"; Ev 1 "stop" "C" "E"]); ("B", [Ev 2 "back" "A" "E"]); ("C", [Ev 3 "reset" "A" "E"]); ("E", [Ev 4 "reset" "A" "E"])].
Definition final (c : config) (l : list (string * list (bool * bool))) : option string :=
  match initialise c with
  | None => None
  | Some s0 => match fold_left (fun o p => match o with Some s => receive 50 c (fst p) 0 (snd p) s | None => None end) l (Some s0) with
               | Some s => Some (name_of c (cur s)) | None => None end
  end.
Lemma not_in c n m : forallb (fun p => negb (String.eqb (fst p) n) || forallb (fun e => negb (String.eqb (ename e) m)) (snd p)) c = true ->
  forall e, event_in c n e -> ename e <> m.
Proof.
  intros F e (es & H & He) E. rewrite forallb_forall in F. specialize (F _ H). cbn [fst snd] in F. rewrite String.eqb_refl in F. cbn in F.
  rewrite forallb_forall in F. specialize (F e He). rewrite E, String.eqb_refl in F. discriminate.
Qed.
(** A disabled event acts: in state C the message "go" (of state A only) moves the machine to state B, since the second visit of A
    installed its filter again and leaving A by "stop" removed it only once. *)
Theorem C28_stale_event_refuted : final ab (msgs [("go", true); ("back", true); ("stop", true)]) = Some "C" /\ (forall e, event_in ab "C" e -> ename e <> "go") /\
  final ab (msgs [("go", true); ("back", true); ("stop", true); ("go", true)]) = Some "B".
Proof.
  split; [reflexivity|]. split; [|reflexivity]. apply not_in. reflexivity.
Qed.
(** The messages of an event that leads to its own state are not delivered: the machine moves to the error state, whose events are
    not enabled, so that it stays there although "reset" is received. *)
Definition selfc : config := [("A", [Ev 0 "again" "A" "E"]); ("E", [Ev 1 "reset" "A" "E"])].
Theorem C28_self_error_refuted : final selfc (msgs [("again", false)]) = Some "E" /\ event_in selfc "E" (Ev 1 "reset" "A" "E") /\
  final selfc (msgs [("again", false); ("reset", true)]) = Some "E".
Proof. split; [reflexivity|]. split; [|reflexivity]. exists [Ev 1 "reset" "A" "E"]. cbn. auto. Qed.
(** The ENTER messages of the new state are not delivered: one message causes two transitions. *)
Definition twice : config := [("A", [Ev 0 "next" "B" "E"]); ("B", [Ev 1 "next" "C" "E"; Ev 2 "back" "A" "E"]); ("C", [Ev 3 "back" "A" "E"]); ("E", [Ev 4 "back" "A" "E"])].
Theorem C28_enter_failure_refuted : final twice [("next", [(true, false)])] = Some "C".
Proof. reflexivity. Qed.

(** The hypotheses hold for these configurations and for histories with transitions, error transitions and ignored messages. *)
Example C28_case : well_formed ab /\ initialise ab <> None /\
  expected ab "A" [] [("reset", true); ("go", true); ("back", true); ("stop", false); ("reset", true); ("go", false)] "E".
Proof.
  split; [|split].
  - split; [|split].
    + cbn. repeat constructor; cbn; intuition discriminate.
    + cbn. repeat constructor; cbn; intuition discriminate.
    + intros n es H. cbn in H. repeat (destruct H as [H|H]; [injection H as <- <-; cbn; repeat constructor; cbn; intuition discriminate|]). destruct H.
  - discriminate.
  - apply exp_ignore.
    { apply not_in. reflexivity. }
    { intros []. }
    assert (EV : forall i j n es e, nth_error ab i = Some (n, es) -> nth_error es j = Some e -> event_in ab n e).
    { intros i j n es e A B. exists es. split; eapply nth_error_In; eauto. }
    apply (exp_move ab "A" [] (Ev 0 "go" "B" "E") true); [exact (EV 0 0 _ _ _ eq_refl eq_refl)|auto|]. cbn [enext].
    apply (exp_move ab "B" _ (Ev 2 "back" "A" "E") true); [exact (EV 1 0 _ _ _ eq_refl eq_refl)|auto|]. cbn [enext].
    apply (exp_move ab "A" _ (Ev 1 "stop" "C" "E") false); [exact (EV 0 1 _ _ _ eq_refl eq_refl)|right; left; discriminate|]. cbn [enerr].
    apply (exp_move ab "E" _ (Ev 4 "reset" "A" "E") true); [exact (EV 3 0 _ _ _ eq_refl eq_refl)|auto|]. cbn [enext].
    apply (exp_move ab "A" _ (Ev 0 "go" "B" "E") false); [exact (EV 0 0 _ _ _ eq_refl eq_refl)|right; left; discriminate|]. cbn [enerr]. apply exp_nil.
Qed.

Print Assumptions C28_transitions_partial.
Print Assumptions C28_enabled_partial.
Print Assumptions C28_stale_event_refuted.
Print Assumptions C28_self_error_refuted.
Print Assumptions C28_enter_failure_refuted.
