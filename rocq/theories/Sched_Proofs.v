(** The table of a thread; the invariant of the scheduler. *)
From Coq Require Import String.
From Verif Require Import Base Conc Sched_Model Sched_Spec.
Open Scope nat_scope.

(** * The table *)
Lemma put_app (a : arr) x (b : arr) e : put (a ++ x :: b) (length a) e = Some (a ++ Some e :: b).
Proof. induction a as [|y a IH]; cbn; [reflexivity|]. rewrite IH. reflexivity. Qed.
Lemma insert_brokers_ok l : forall a (done rest : arr) c, a = done ++ rest -> c = length done -> length l <= length rest ->
  match insert_brokers l a c with
  | IUndef => False
  | IFalse => exists x, In x l /\ x = None
  | IOk a' c' => l = map Some (names l) /\ a' = done ++ map Some (names l) ++ skipn (length l) rest /\ c' = c + length l
  end.
Proof.
  induction l as [|[e|] l IH]; intros a done rest c -> -> L; cbn [insert_brokers].
  - cbn. split; [reflexivity|]. split; [reflexivity|lia].
  - destruct rest as [|x rest]; [cbn in L; lia|]. rewrite put_app.
    specialize (IH (done ++ Some e :: rest) (done ++ [Some e]) rest (S (length done))).
    rewrite <- app_assoc in IH. specialize (IH eq_refl). rewrite app_length in IH. cbn in IH, L.
    specialize (IH ltac:(lia) ltac:(lia)). destruct (insert_brokers l _ _); [exact IH|destruct IH as (y & Hy & E); exists y; split; [right; exact Hy|exact E]|].
    destruct IH as (E1 & -> & ->). split; [cbn; f_equal; exact E1|]. split; [cbn; rewrite <- app_assoc; reflexivity|cbn; lia].
  - exists None. split; [left; reflexivity|reflexivity].
Qed.
Fixpoint size (gs : list gam) : nat := match gs with [] => 0 | g :: gs => length (g_in g) + S (length (g_out g)) + size gs end.
Lemma count_size gs : forall n, match count n gs with Some m => m = n + size gs - length gs /\ length gs <= size gs | None => True end.
Proof.
  induction gs as [|g gs IH]; intros n; cbn [count]; [cbn; lia|].
  destruct (ok_in g), (ok_out g); auto. specialize (IH (n + length (g_in g) + length (g_out g))).
  destruct (count _ gs); [|exact I]. cbn [size length]. lia.
Qed.
Lemma skipn_add {A} (a b : nat) (l : list A) : skipn a (skipn b l) = skipn (b + a) l.
Proof. revert l. induction b as [|b IH]; intros l; [reflexivity|]. destruct l; [cbn; rewrite skipn_nil; reflexivity|apply IH]. Qed.
Lemma fill_ok gs : forall a (done rest : arr) c, a = done ++ rest -> c = length done -> size gs <= length rest ->
  match fill gs a c with
  | IUndef => False
  | IFalse => True
  | IOk a' c' => a' = done ++ map Some (thread_order gs) ++ skipn (size gs) rest /\ c' = c + size gs /\ length (thread_order gs) = size gs
  end.
Proof.
  induction gs as [|g gs IH]; intros a done rest c -> -> L; cbn [fill]; [cbn; split; [reflexivity|split; [lia|reflexivity]]|].
  cbn [size] in L. unfold insert_inputs. destruct (sig_read g); [|exact I]. destruct (ok_in g); [|exact I].
  pose proof (insert_brokers_ok (g_in g) (done ++ rest) done rest (length done) eq_refl eq_refl ltac:(lia)) as P1.
  destruct (insert_brokers (g_in g) _ _) as [| |a1 c1]; [exact P1|exact I|]. destruct P1 as (E1 & -> & ->).
  unfold insert_gam. destruct (sig_exec g); [|exact I].
  assert (LN : length (map Some (names (g_in g))) = length (g_in g)) by (rewrite <- E1; reflexivity).
  pose proof (skipn_length (length (g_in g)) rest) as LS.
  destruct (skipn (length (g_in g)) rest) as [|x rest1] eqn:R1; [cbn in LS; lia|]. cbn [length] in LS.
  rewrite app_assoc. replace (length done + length (g_in g)) with (length (done ++ map Some (names (g_in g)))) by (rewrite app_length; lia).
  rewrite put_app. unfold insert_outputs. destruct (sig_write g); [|exact I]. destruct (ok_out g); [|exact I].
  set (done1 := done ++ map Some (names (g_in g))) in *.
  pose proof (insert_brokers_ok (g_out g) (done1 ++ Some (g_self g) :: rest1) (done1 ++ [Some (g_self g)]) rest1 (S (length done1))
     ltac:(rewrite <- app_assoc; reflexivity) ltac:(rewrite app_length; cbn; lia) ltac:(lia)) as P2.
  destruct (insert_brokers (g_out g) _ _) as [| |a2 c2]; [exact P2|exact I|]. destruct P2 as (E2 & -> & ->).
  assert (LN2 : length (map Some (names (g_out g))) = length (g_out g)) by (rewrite <- E2; reflexivity).
  pose proof (skipn_length (length (g_out g)) rest1) as LS2.
  specialize (IH _ ((done1 ++ [Some (g_self g)]) ++ map Some (names (g_out g))) (skipn (length (g_out g)) rest1) (S (length done1) + length (g_out g)) (app_assoc _ _ _)).
  rewrite !app_length in IH. cbn [length] in IH. specialize (IH ltac:(lia) ltac:(lia)).
  destruct (fill gs _ _) as [| |a3 c3]; [exact IH|exact I|]. destruct IH as (-> & -> & LO). split; [|split].
  - subst done1. unfold thread_order. cbn [flat_map]. rewrite !map_app. cbn [map]. rewrite <- !app_assoc. cbn [app].
    do 4 f_equal. f_equal. rewrite skipn_add. cbn [size].
    replace (length (g_in g) + S (length (g_out g)) + size gs) with (length (g_in g) + S (length (g_out g) + size gs)) by lia.
    rewrite <- (skipn_add (S _) (length (g_in g)) rest), R1. reflexivity.
  - subst done1. rewrite app_length. cbn [size]. lia.
  - unfold thread_order in *. cbn [flat_map size]. rewrite !app_length, LO. rewrite map_length in LN, LN2. cbn [length]. lia.
Qed.
Theorem table_ok gs : match table gs with
  | IUndef => False
  | IFalse => True
  | IOk a n => a = map Some (thread_order gs) /\ n = length a
  end.
Proof.
  unfold table. pose proof (count_size gs (length gs)) as C. destruct (count (length gs) gs) as [n|]; [|exact I]. destruct C as [C C2].
  pose proof (fill_ok gs (repeat None n) [] (repeat None n) 0 eq_refl eq_refl) as F. rewrite repeat_length in F. specialize (F ltac:(lia)).
  destruct (fill gs (repeat None n) 0) as [| |a c]; [exact F|exact I|]. destruct F as (-> & -> & LO). cbn [app].
  rewrite skipn_all2 by (rewrite repeat_length; lia). rewrite app_nil_r. split; [reflexivity|].
  rewrite map_length, LO. reflexivity.
Qed.
Definition good (g : gam) : Prop :=
  ok_in g = true /\ ok_out g = true /\ sig_read g = true /\ sig_exec g = true /\ sig_write g = true /\ ~ In None (g_in g) /\ ~ In None (g_out g).
Lemma insert_brokers_good l : ~ In None l -> forall a c, insert_brokers l a c <> IFalse.
Proof.
  induction l as [|[e|] l IH]; intros H a c; cbn [insert_brokers]; [discriminate| |exfalso; apply H; left; reflexivity].
  destruct (put a c e); [|discriminate]. apply IH. intros HI. apply H. right. exact HI.
Qed.
Lemma fill_good gs : Forall good gs -> forall a c, fill gs a c <> IFalse.
Proof.
  induction 1 as [|g gs (H1 & H2 & H3 & H4 & H5 & H6 & H7) _ IH]; intros a c; cbn [fill]; [discriminate|].
  unfold insert_inputs, insert_gam, insert_outputs. rewrite H1, H2, H3, H4, H5.
  pose proof (insert_brokers_good _ H6 a c) as N. destruct (insert_brokers (g_in g) a c) as [| |a1 c1]; [discriminate|contradiction|].
  destruct (put a1 c1 (g_self g)) as [a2|]; [|discriminate].
  pose proof (insert_brokers_good _ H7 a2 (S c1)) as N2. destruct (insert_brokers (g_out g) a2 (S c1)); [discriminate|contradiction|]. apply IH.
Qed.
Lemma count_good gs : Forall good gs -> forall n, count n gs <> None.
Proof. induction 1 as [|g gs (H1 & H2 & _) _ IH]; intros n; cbn [count]; [discriminate|]. rewrite H1, H2. apply IH. Qed.
Theorem table_good gs : Forall good gs -> table gs = IOk (map Some (thread_order gs)) (length (thread_order gs)).
Proof.
  intros G. pose proof (table_ok gs) as T. unfold table in *. pose proof (count_good gs G (length gs)).
  destruct (count (length gs) gs) as [n|]; [|contradiction]. pose proof (fill_good gs G (repeat None n) 0).
  destruct (fill gs (repeat None n) 0); [contradiction|contradiction|]. destruct T as [-> ->]. rewrite map_length. reflexivity.
Qed.

(** * Facts about the definitions of the specification *)
Lemma walk_snoc es e o : forall seq r, walk es r (seq ++ [(e, o)]) = match walk es r seq with Some w => walk es w [(e, o)] | None => None end.
Proof.
  induction seq as [|[e1 o1] seq IH]; intros r; [reflexivity|]. cbn [app walk].
  destruct (match r with [] => es | _ => r end) as [|x r']; [reflexivity|]. destruct (e1 =? x); [|reflexivity]. apply IH.
Qed.
Lemma nth_error_set_nth {A} (l : list A) : forall i x j, nth_error (set_nth l i x) j = if j =? i then (if i <? length l then Some x else None) else nth_error l j.
Proof.
  induction l as [|y l IH]; intros i x j.
  - destruct i, j; cbn; try reflexivity. destruct (j =? i); reflexivity.
  - destruct i, j; cbn [set_nth nth_error]; try reflexivity. rewrite IH. reflexivity.
Qed.
Lemma set_nth_length {A} (l : list A) : forall i x, length (set_nth l i x) = length l.
Proof. induction l as [|y l IH]; intros [|i] x; cbn; auto. Qed.
Lemma updb_same {A} (f : bool -> A) b x : updb f b x b = x. Proof. unfold updb. rewrite Bool.eqb_reflx. reflexivity. Qed.
Lemma updb_other {A} (f : bool -> A) b x : updb f b x (negb b) = f (negb b). Proof. unfold updb. destruct b; reflexivity. Qed.
Lemma updb_other' {A} (f : bool -> A) b x : updb f (negb b) x b = f b. Proof. unfold updb. destruct b; reflexivity. Qed.

Definition neutral (e : ev) : Prop := match e with ECall OStart | ERet OStop true | ERet (OPrepare _) _ | ERun _ _ _ _ => False | _ => True end.
Lemma stopped_neutral e l : neutral e -> stopped (e :: l) = stopped l.
Proof. destruct e as [[]|[] []| | |]; cbn; tauto. Qed.
Lemma prepared_neutral e l : neutral e -> prepared (e :: l) = prepared l.
Proof. destruct e as [[]|[] []| | |]; cbn; tauto. Qed.
Lemma in_force_neutral e l : neutral e -> in_force (e :: l) = in_force l.
Proof. destruct e as [[]|[] []| | |]; cbn; tauto. Qed.
Lemma runs_neutral i e l : neutral e -> runs i (e :: l) = runs i l.
Proof. destruct e as [[]|[] []| | |]; cbn; tauto. Qed.
Lemma disciplined_tail e l : disciplined (e :: l) -> disciplined l.
Proof. destruct e as [[]|[] []| | |]; cbn; tauto. Qed.

Section Sched.
Variable states : list (string * list (list exec)).
Definition threads (s : sys) (b : bool) : list thr := match svc s b with Some ts => ts | None => [] end.
Definition dead (t : thr) : Prop := pc t = TDead.
Definition boot (t : thr) : Prop := match pc t with TDead | TBoot | TKeep | TOuter | TWait | TSleep => True | _ => False end.
Definition past (t : thr) : Prop := match pc t with TBoot | TKeep => False | _ => True end.

Definition thread_ok (b : bool) (g : nat) (es : list exec) (seq : list (exec * outcome)) (t : thr) : Prop :=
  match pc t with
  | TCycle x g' rest => x = b /\ g' = g /\ exists w, walk es [] seq = Some w /\ (w = rest \/ w = [] /\ rest = es)
  | TEnd x g' => x = b /\ g' = g /\ walk es [] seq = Some []
  | _ => walk es [] seq = Some []
  end.
Definition current_ok (s : sys) (name : string) : Prop :=
  exists n g, find_state states name 0 = Some n /\ tab s (index s) = ITab g (threads_of states n) /\
    (ctl s <> CCur -> cur s = n) /\ (ctl s = CCur -> next_id s = n /\ sched s (index s) = Some n /\ valid s = true) /\
    forall i t, nth_error (threads s (index s)) i = Some t ->
      exists es, nth_error (threads_of states n) i = Some es /\ thread_ok (index s) g es (runs i (log s)) t.
Definition prep1 (s : sys) (name : string) (n : nat) : Prop := find_state states name 0 = Some n /\ sched s (negb (index s)) = Some n /\ next_id s = n.
Definition prep2 (s : sys) (name : string) (n : nat) : Prop := prep1 s name n /\ posted s = false /\ valid s = true.
Definition next_ok (s : sys) (name : string) : Prop :=
  exists n g, prep1 s name n /\ valid s = true /\ tab s (negb (index s)) = ITab g (threads_of states n) /\
    length (threads s (negb (index s))) = length (threads_of states n).
Definition prepping (c : cpc) : bool :=
  match c with
  | CApp _ | CFind _ | CReset _ _ | COld _ _ | CSet _ (KPrep _) _ _ | CWaitDead _ (KPrep _) _ _ | CNew _ _ | CInfo _ _ | CStartThr _ _ _ | CRet (OPrepare _) _ => true
  | _ => false
  end.
Definition ctl_ok (s : sys) : Prop :=
  let nxt := threads s (negb (index s)) in
  match ctl s with
  | CReset name n => prep1 s name n
  | COld name n => prep2 s name n
  | CSet o k _ _ | CWaitDead o k _ _ =>
    match k, o with KPrep n, OPrepare name => prep2 s name n | KStop, OStop => True | _, _ => False end
  | CNew name n => prep2 s name n /\ Forall dead nxt
  | CInfo name n => prep2 s name n /\ Forall dead nxt /\ length nxt = length (threads_of states n)
  | CStartThr name n _ => prep2 s name n /\ length nxt = length (threads_of states n) /\ exists g, tab s (negb (index s)) = ITab g (threads_of states n)
  | CIndex => stopped (log s) = false /\ prepared (log s) = None /\ Forall dead (threads s (index s)) /\ (forall i, runs i (log s) = []) /\ exists name, in_force (log s) = Some name /\ next_ok s name
  | CCur => in_force (log s) <> None /\ Forall dead nxt
  | CPost | CBroadcast => Forall dead nxt
  | CRet (OPrepare name) true => next_ok s name
  | CRet OStop true => Forall dead (threads s (index s))
  | CRet OStart ok => ok = true
  | _ => True
  end.
(** The loops of MultiThreadService::Stop. *)
Definition scan_ok (s : sys) : Prop :=
  match ctl s with
  | CSet o k second i =>
    let ts := threads s (target s k) in
    (forall j t, nth_error ts j = Some t -> j < i -> if second then dead t else past t) /\
    (second = true -> forall j t, nth_error ts j = Some t -> past t)
  | CWaitDead o k second i =>
    let ts := threads s (target s k) in
    (forall j t, nth_error ts j = Some t -> j < i -> if second then dead t else past t) /\
    (second = true -> forall j t, nth_error ts j = Some t -> past t) /\
    (forall t, nth_error ts i = Some t -> (cm t = CmdStop \/ past t) /\ (second = true -> cm t = CmdStop))
  | _ => True
  end.
Fixpoint only_when_started (l : list ev) : Prop :=
  match l with [] => True | ERun _ _ _ _ :: l => stopped l = false /\ only_when_started l | _ :: l => only_when_started l end.
Definition runs_ok (l : list ev) : Prop :=
  forall i, runs i l = [] \/ exists name n es, in_force l = Some name /\ find_state states name 0 = Some n /\ nth_error (threads_of states n) i = Some es /\ cycles es (runs i l).
Record inv (s : sys) : Prop := Inv {
  i_cur : ctl s <> CIndex -> forall name, in_force (log s) = Some name -> current_ok s name;
  i_none : in_force (log s) = None -> Forall dead (threads s (index s));
  i_next : Forall (fun t => boot t /\ (dead t \/ posted s = false)) (threads s (negb (index s)));
  i_stopped : stopped (log s) = true -> Forall dead (threads s (index s));
  i_prep : forall name, prepared (log s) = Some name -> prepping (ctl s) = false -> next_ok s name;
  i_ctl : ctl_ok s;
  i_scan : scan_ok s;
  i_runs : runs_ok (log s);
  i_log : only_when_started (log s);
  i_bad : ~ In EBad (log s);
}.
End Sched.
