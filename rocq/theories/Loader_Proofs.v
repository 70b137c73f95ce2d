(** Proofs about the Loader: each call does what the specification says. *)
From Coq Require Import String Ascii List Bool Arith ZArith Lia.
From Verif Require Import CRC_Model CRC_Spec CRC_Props Loader_Model Loader_Spec.
Import ListNotations.
Open Scope string_scope.
Open Scope nat_scope.
Open Scope list_scope.

(** The hash. *)
Lemma hash_ok : forall key seed t, (0 <= key < 2 ^ 32)%Z ->
  exists k, compute_hash key seed t = Some k /\ forall h, is_hash key seed t h <-> h = k.
Proof.
  intros key seed t K. unfold compute_hash.
  set (m := seed_bytes seed ++ text_bytes t).
  assert (BM : forall i, (0 <= nth (Z.to_nat i) m 0 < 256)%Z).
  { intros i. assert (F : Forall (fun b => (0 <= b < 256)%Z) m).
    { unfold m, seed_bytes, text_bytes. apply Forall_app. split.
      - repeat constructor; apply Z.mod_pos_bound; reflexivity.
      - apply Forall_forall. intros x Hx. apply in_map_iff in Hx. destruct Hx as (a & <- & _).
        pose proof (nat_ascii_bounded a). lia. }
    destruct (Nat.lt_ge_cases (Z.to_nat i) (List.length m)) as [L|L].
    - rewrite Forall_forall in F. apply F, nth_In, L.
    - rewrite nth_overflow by exact L. lia. }
  assert (W : crc_width 32) by (right; right; reflexivity).
  assert (I0 : (0 <= 0 < 2 ^ 32)%Z) by (split; [lia|reflexivity]).
  destruct (C13_crc_is_polynomial_remainder 32 key (fun i => nth (Z.to_nat i) m 0%Z) (Z.of_nat (List.length m)) 0 false
              W K BM (Nat2Z.is_nonneg _) I0) as (r & E & REM).
  exists r. split; [exact E|].
  assert (EM : read_bytes (fun i => nth (Z.to_nat i) m 0%Z) 1 (Z.to_nat (Z.of_nat (List.length m))) = m).
  { rewrite Nat2Z.id. unfold read_bytes. apply nth_ext with (d := 0%Z) (d' := 0%Z).
    - rewrite map_length, seq_length. reflexivity.
    - intros n Hn. rewrite map_length, seq_length in Hn.
      rewrite nth_indep with (d' := (fun i => nth (Z.to_nat (1 * Z.of_nat i)) m 0%Z) 0)
        by (rewrite map_length, seq_length; exact Hn).
      rewrite (map_nth (fun i => nth (Z.to_nat (1 * Z.of_nat i)) m 0%Z)). rewrite seq_nth by exact Hn. rewrite Z.mul_1_l, Nat2Z.id. reflexivity. }
  cbn [negb] in REM. rewrite EM in REM. rewrite Z.mul_0_l, Z.lxor_0_l in REM.
  intros h. unfold is_hash. fold (seed_bytes seed) (text_bytes t). fold m. split.
  - intros H. apply (C13_remainder_unique 32 key (message m * 2 ^ 32)); auto. discriminate.
  - intros ->. exact REM.
Qed.
Section Proofs.
Variable body : Type.
Variable builds application configures : body -> bool.
Variable token : ascii -> bool.
Local Notation load := (load body builds token).
Local Notation post_reconfigure := (post_reconfigure body application configures).
Local Notation reconfigure := (reconfigure body builds application configures token).
Local Notation declared := (declared body token).
Local Notation acceptable := (acceptable body builds application configures token).
Local Notation object := (object body).
Local Notation config := (config body).
Local Notation state := (state body).

(** The objects a configuration gives, up to the first failure. *)
Fixpoint made (n : nat) (c : config) : list object :=
  match c with
  | [] => []
  | e :: c' =>
    if is_object token (e_name _ e) then
      match e_body _ e with
      | None => []
      | Some b => if builds b then Object _ n (bare (e_name _ e)) b true :: made (S n) c' else []
      end
    else made n c'
  end.

Lemma load_eq : forall c s,
  load s c = (acceptable false c,
              with_registry _ s (registry _ s ++ made (next _ s) c) (next _ s + List.length (made (next _ s) c))).
Proof.
  induction c as [|e c IH]; intros s.
  - cbn. rewrite app_nil_r, Nat.add_0_r. destruct s; reflexivity.
  - cbn [Loader_Model.load made]. unfold Loader_Spec.acceptable in *.
    cbn [forallb Loader_Spec.declared flat_map implb]. rewrite andb_true_r.
    assert (E : forall x, x && implb false (existsb (fun x => application (snd x)) (declared c) &&
                  forallb (fun x => implb (application (snd x)) (configures (snd x))) (declared c)) = x)
      by (intros []; reflexivity).
    destruct (e_name _ e) as [|t n]; cbn [is_object bare].
    + rewrite IH, E. reflexivity.
    + destruct (token t).
      * destruct (e_body _ e) as [b|]; [|cbn; rewrite app_nil_r, Nat.add_0_r; destruct s; reflexivity].
        destruct (builds b); cbn [implb andb]; [|cbn; rewrite app_nil_r, Nat.add_0_r; destruct s; reflexivity].
        rewrite IH, E. cbn [registry next with_registry List.length]. rewrite <- app_assoc.
        cbn [List.app]. rewrite Nat.add_succ_r. reflexivity.
      * rewrite IH, E. destruct (e_body _ e); reflexivity.
Qed.

Lemma made_seen : forall c n, acceptable false c = true -> map (seen _) (made n c) = declared c.
Proof.
  unfold Loader_Spec.acceptable. induction c as [|e c IH]; intros n; [reflexivity|].
  cbn [forallb implb made Loader_Spec.declared flat_map]. fold (declared c). rewrite andb_true_r.
  cbn [implb] in IH.
  destruct (e_name _ e) as [|t m]; cbn [is_object bare].
  - intros H. apply IH. rewrite andb_true_r. exact H.
  - destruct (token t).
    + destruct (e_body _ e) as [b|]; [|discriminate].
      destruct (builds b); [|discriminate]. cbn. intros H. unfold seen at 1. cbn. f_equal. apply IH.
      rewrite andb_true_r. exact H.
    + destruct (e_body _ e); cbn; intros H; apply IH; rewrite andb_true_r; exact H.
Qed.

Lemma made_whole : forall c n, Forall (fun o => o_whole _ o = true) (made n c).
Proof.
  induction c as [|e c IH]; intros n; cbn [made]; [constructor|].
  destruct (is_object token (e_name _ e)); [|apply IH].
  destruct (e_body _ e) as [b|]; [|constructor]. destruct (builds b); constructor; [reflexivity|apply IH].
Qed.

Lemma made_fresh : forall c n o, In o (made n c) -> n <= o_id _ o < n + List.length (made n c).
Proof.
  induction c as [|e c IH]; intros n o; cbn [made]; [contradiction|].
  destruct (is_object token (e_name _ e)); [|apply IH].
  destruct (e_body _ e) as [b|]; [|contradiction]. destruct (builds b); [|contradiction].
  cbn. intros [<-|H]; [cbn; lia|]. apply IH in H. lia.
Qed.

(** The result of PostReconfigure. *)
Definition post_error (realtime : bool) (l : list (string * body)) : error :=
  if realtime then
    if existsb (fun x => application (snd x)) l then
      if forallb (fun x => implb (application (snd x)) (configures (snd x))) l then NoError else InitialisationError
    else ParametersError
  else NoError.

Lemma post_loop_eq : forall l found s, exists a,
  post_loop body application configures l found s =
  (if forallb (fun x => implb (application (snd x)) (configures (snd x))) (map (seen _) l) then NoError else InitialisationError,
   found || existsb (fun x => application (snd x)) (map (seen _) l), with_apps _ s a).
Proof.
  induction l as [|o l IH]; intros found s; cbn [post_loop map forallb existsb].
  - exists (apps _ s). rewrite orb_false_r. destruct s; reflexivity.
  - change (snd (seen body o)) with (o_body _ o).
    destruct (application (o_body _ o)); cbn [implb].
    + destruct (configures (o_body _ o)); cbn [andb].
      * destruct (IH true (with_apps _ s (apps _ s ++ [o]))) as (a & E). exists a. rewrite E.
        destruct found; reflexivity.
      * exists (apps _ s ++ [o]). destruct found; reflexivity.
    + cbn [andb]. rewrite orb_false_l. apply IH.
Qed.

Lemma post_eq : forall s, exists a,
  post_reconfigure s = (post_error (rt _ s) (map (seen _) (registry _ s)), with_apps _ s a).
Proof.
  intros s. unfold Loader_Model.post_reconfigure, post_error. destruct (rt _ s).
  - destruct (post_loop_eq (registry _ s) false s) as (a & E). exists a. rewrite E. cbn [orb].
    destruct (existsb _ _); reflexivity.
  - exists (apps _ s). destruct s; reflexivity.
Qed.

Lemma acceptable_split : forall r c,
  acceptable r c = acceptable false c && cleared (post_error r (declared c)).
Proof.
  intros r c. unfold Loader_Spec.acceptable, post_error. destruct r; cbn [implb]; [|rewrite !andb_true_r; reflexivity].
  rewrite andb_true_r. f_equal. destruct (existsb _ _); [|reflexivity]. cbn. destruct (forallb _ _); reflexivity.
Qed.

Lemma emptied_id : forall l o, o_id _ (emptied body l o) = o_id _ o.
Proof. intros l o. unfold emptied. destruct (existsb _ l); reflexivity. Qed.
Lemma emptied_seen : forall l o, seen body (emptied body l o) = seen _ o.
Proof. intros l o. unfold emptied. destruct (existsb _ l); reflexivity. Qed.

Lemma send_eq : forall v m (s : state), send body v m s =
  (if reply (msgs _ s) v m then NoError else MessageError,
   with_sent _ s (rev (filter (fun x => existsb (msg_eqb x) (msgs _ s)) [m]) ++ sent _ s)).
Proof.
  intros v m s. unfold send, reply. cbn [filter]. destruct (existsb (msg_eqb m) (msgs _ s)); [reflexivity|].
  destruct s; reflexivity.
Qed.

(** What a call does not change. *)
Definition frame (s s' : state) : Prop :=
  rt _ s' = rt _ s /\ parser _ s' = parser _ s /\ reload _ s' = reload _ s /\ msgs _ s' = msgs _ s /\
  map (o_id _) (keep _ s') = map (o_id _) (keep _ s) /\ map (seen _) (keep _ s') = map (seen _) (keep _ s) /\
  next _ s <= next _ s'.

Lemma frame_refl : forall s, frame s s.
Proof. intros s. unfold frame. repeat (split; [reflexivity|]). lia. Qed.

Lemma frame_trans : forall a b c, frame a b -> frame b c -> frame a c.
Proof.
  intros a b c (A1 & A2 & A3 & A4 & A5 & A6 & A7) (B1 & B2 & B3 & B4 & B5 & B6 & B7). unfold frame.
  repeat split; try congruence. lia.
Qed.

(** The invariant between calls. *)
Definition good (original kept : list object) (s : state) (w : view) : Prop :=
  first _ s = false /\ acceptable (rt _ s) (last _ s) = true /\
  map (o_id _) (keep _ s) = map (o_id _) kept /\ map (seen _) (keep _ s) = map (seen _) kept /\
  Forall (fun o => o_id _ o < next _ s) (original ++ kept) /\
  holds body token w (last _ s) original kept (registry _ s).

Lemma complete_holds : forall c original kept n (k : list object),
  acceptable false c = true -> map (o_id _) k = map (o_id _) kept -> map (seen _) k = map (seen _) kept ->
  Forall (fun o => o_id _ o < n) (original ++ kept) ->
  holds body token Complete c original kept (made n c ++ k).
Proof.
  intros c original kept n k A K1 K2 F. cbn. exists (made n c), k. repeat split; auto using made_seen, made_whole.
  intros o x Ho Hx E. apply made_fresh in Ho. rewrite Forall_forall in F. specialize (F x Hx). lia.
Qed.

(** The last part of ReconfigureImpl, when it is not the first loading. *)
Definition finish (v : env) (e : error) (s : state) : error * state :=
  let '(reloaded, failed, s) :=
    if cleared e then (false, negb (reload _ s), s)
    else if reload _ s then
      let '(r, s) := reload_last body builds token s in
      let '(r, s) := if cleared r then post_reconfigure s else (r, s) in
      (cleared r, negb (cleared r), s)
    else (false, true, s) in
  let s := put_back _ s in
  let s :=
    if cleared e then s
    else if failed then snd (send _ v FailedConfiguration s)
    else if reload _ s then snd (send _ v ReloadedConfiguration s) else s in
  let '(e, s) :=
    if cleared e || reloaded then
      let '(p, s) := send _ v PostConfiguration s in
      (if cleared p && reloaded then RecoverableError else p, s)
    else (e, s) in
  (e, not_first _ s).

Lemma reconfigure_finish : forall v c s, first _ s = false -> copies v = true ->
  reconfigure v c s =
  let '(e, s) := send _ v PreConfiguration s in
  let '(e, s) :=
    if cleared e then
      let '(ok, s) := load (purge _ s) c in
      (if ok then NoError else InitialisationError, s)
    else (e, s) in
  let '(e, s) := if cleared e then post_reconfigure s else (e, s) in
  let '(e, s) := if cleared e then (NoError, with_last _ s c) else (e, s) in
  finish v e s.
Proof.
  intros v c s F C. unfold Loader_Model.reconfigure, finish. rewrite F, C, send_eq.
  destruct (reply (msgs _ s) v PreConfiguration); cbn [cleared].
  - rewrite load_eq. cbn [first purge with_registry with_apps with_keep with_sent]. rewrite F.
    destruct (acceptable false c); cbn [cleared].
    + match goal with |- context [post_reconfigure ?x] => destruct (post_eq x) as (a & E); rewrite E; clear E end.
      cbn [rt registry purge with_registry with_apps with_keep with_sent].
      match goal with |- context [with_apps body ?x a] => generalize (with_apps body x a) end. intros s1.
      match goal with |- context [post_error ?x ?y] => generalize (post_error x y) end. intros e1.
      destruct e1; cbn [cleared]; try reflexivity;
        (destruct (reload _ _); [|reflexivity]);
        destruct (reload_last _ _ _ _) as (r & s'); destruct (if cleared r then _ else _) as (r' & s'');
        reflexivity.
    + destruct (reload _ _); [|reflexivity].
      destruct (reload_last _ _ _ _) as (r & s'). destruct (if cleared r then _ else _) as (r' & s'').
      reflexivity.
  - cbn [first with_sent]. rewrite F. cbn [cleared]. destruct (reload _ _); [|reflexivity].
    destruct (reload_last _ _ _ _) as (r & s'). destruct (if cleared r then _ else _) as (r' & s'').
    reflexivity.
Qed.

(** The state when [finish] begins. *)
Definition midway (original kept : list object) (s : state) : Prop :=
  acceptable (rt _ s) (last _ s) = true /\
  map (o_id _) (keep _ s) = map (o_id _) kept /\ map (seen _) (keep _ s) = map (seen _) kept /\
  Forall (fun o => o_id _ o < next _ s) (original ++ kept).

Lemma finish_ok : forall original kept v s n,
  midway original kept s -> registry _ s = made n (last _ s) -> Forall (fun o => o_id _ o < n) (original ++ kept) ->
  match finish v NoError s with
  | (e, s') =>
    e = (if reply (msgs _ s) v PostConfiguration then NoError else MessageError) /\ last _ s' = last _ s /\
    sent _ s' = rev (filter (fun x => existsb (msg_eqb x) (msgs _ s)) [PostConfiguration]) ++ sent _ s /\
    hash _ s' = hash _ s /\ frame s s' /\ good original kept s' Complete
  end.
Proof.
  intros original kept v s n (A & K1 & K2 & B) R F. unfold finish. cbn [cleared orb]. rewrite send_eq.
  pose proof A as AF. rewrite acceptable_split in AF. apply andb_prop in AF. destruct AF as (AF & AP).
  assert (E : forall x : bool, cleared (if x then NoError else MessageError) && false = false) by (intros []; reflexivity).
  rewrite E. split; [reflexivity|]. split; [reflexivity|]. split; [reflexivity|]. split; [reflexivity|].
  split; [unfold frame; cbn; repeat (split; [reflexivity|]); apply Nat.le_refl|].
  unfold good. cbn [first rt last keep next registry not_first with_sent with_registry put_back].
  split; [reflexivity|]. split; [exact A|]. split; [exact K1|]. split; [exact K2|]. split; [exact B|].
  rewrite R. apply complete_holds; assumption.
Qed.

Lemma finish_reload : forall original kept v s e,
  midway original kept s -> reload _ s = true -> cleared e = false ->
  match finish v e s with
  | (e, s') =>
    e = (if reply (msgs _ s) v PostConfiguration then RecoverableError else MessageError) /\ last _ s' = last _ s /\
    sent _ s' = rev (filter (fun x => existsb (msg_eqb x) (msgs _ s)) [ReloadedConfiguration; PostConfiguration]) ++ sent _ s /\
    hash _ s' = hash _ s /\ frame s s' /\ good original kept s' Complete
  end.
Proof.
  intros original kept v s e (A & K1 & K2 & B) RL CE. unfold finish, reload_last. rewrite CE, RL, load_eq.
  pose proof A as AF. rewrite acceptable_split in AF. apply andb_prop in AF. destruct AF as (AF & AP).
  cbn [last purge with_registry with_apps with_keep purge]. rewrite AF. cbn [cleared].
  match goal with |- context [post_reconfigure ?x] => destruct (post_eq x) as (a & E); rewrite E; clear E end.
  cbn [rt registry with_registry with_apps with_keep purge List.app next]. rewrite made_seen by exact AF. rewrite AP.
  cbn [negb reload put_back with_registry with_apps with_keep purge]. rewrite RL, send_eq. cbn [snd orb].
  rewrite send_eq. cbn [msgs with_sent put_back with_registry with_apps with_keep purge sent].
  assert (E : forall x : bool, (if cleared (if x then NoError else MessageError) && true then RecoverableError
            else (if x then NoError else MessageError)) = if x then RecoverableError else MessageError)
    by (intros []; reflexivity).
  rewrite E. split; [reflexivity|]. split; [reflexivity|]. split.
  { cbn [not_first sent with_sent]. change [ReloadedConfiguration; PostConfiguration] with
      ([ReloadedConfiguration] ++ [PostConfiguration]). rewrite filter_app, rev_app_distr, <- app_assoc. reflexivity. }
  split; [reflexivity|].
  assert (EK1 : forall l, map (o_id _) (map (emptied body l) (keep _ s)) = map (o_id _) (keep _ s)).
  { intros l. rewrite map_map. apply map_ext. intros o. apply emptied_id. }
  assert (EK2 : forall l, map (seen _) (map (emptied body l) (keep _ s)) = map (seen _) (keep _ s)).
  { intros l. rewrite map_map. apply map_ext. intros o. apply emptied_seen. }
  split.
  - unfold frame. cbn [rt parser reload msgs keep next not_first with_sent with_registry put_back snd purge with_apps with_keep purge].
    rewrite EK1, EK2. repeat (split; [reflexivity|]). lia.
  - unfold good. cbn [first rt last keep next registry not_first with_sent with_registry put_back snd with_apps with_keep purge].
    rewrite EK1, EK2. split; [reflexivity|]. split; [exact A|]. split; [exact K1|]. split; [exact K2|].
    split; [apply Forall_impl with (2 := B); intros; lia|].
    apply complete_holds; [exact AF|rewrite EK1; exact K1|rewrite EK2; exact K2|exact B].
Qed.

Lemma finish_broken : forall original kept v s e,
  midway original kept s -> reload _ s = false -> cleared e = false ->
  match finish v e s with
  | (e', s') =>
    e' = e /\ last _ s' = last _ s /\
    sent _ s' = rev (filter (fun x => existsb (msg_eqb x) (msgs _ s)) [FailedConfiguration]) ++ sent _ s /\
    hash _ s' = hash _ s /\ frame s s' /\ good original kept s' Broken
  end.
Proof.
  intros original kept v s e (A & K1 & K2 & B) RL CE. unfold finish. rewrite CE, RL. cbn [orb]. rewrite send_eq. cbn [snd].
  split; [reflexivity|]. split; [reflexivity|]. split; [reflexivity|]. split; [reflexivity|].
  split; [unfold frame; cbn; repeat (split; [reflexivity|]); apply Nat.le_refl|].
  unfold good. cbn [first rt last keep next registry not_first with_sent with_registry put_back].
  split; [reflexivity|]. split; [exact A|]. split; [exact K1|]. split; [exact K2|]. split; [exact B|exact Logic.I].
Qed.

Lemma reconfigure_ok : forall original kept v c s w,
  good original kept s w -> copies v = true ->
  match reconfigure v c s, request body builds application configures token (rt _ s) (reload _ s) (msgs _ s) v c (last _ s) w with
  | (e, s'), (e', cur, w', m) =>
    e = e' /\ last _ s' = cur /\ sent _ s' = rev (filter (fun x => existsb (msg_eqb x) (msgs _ s)) m) ++ sent _ s /\
    hash _ s' = hash _ s /\ frame s s' /\ good original kept s' w'
  end.
Proof.
  intros original kept v c s w (F & A & K1 & K2 & B & R) C.
  rewrite reconfigure_finish by assumption. rewrite send_eq. unfold request.
  set (flt := fun x => existsb (msg_eqb x) (msgs _ s)).
  assert (FL : forall m l, filter flt (m :: l) = filter flt [m] ++ filter flt l) by (intros; apply (filter_app flt [m] l)).
  rewrite (acceptable_split (rt _ s) c).
  assert (EK1 : forall l, map (o_id _) (map (emptied body l) (keep _ s)) = map (o_id _) (keep _ s)).
  { intros l. rewrite map_map. apply map_ext. intros o. apply emptied_id. }
  assert (EK2 : forall l, map (seen _) (map (emptied body l) (keep _ s)) = map (seen _) (keep _ s)).
  { intros l. rewrite map_map. apply map_ext. intros o. apply emptied_seen. }
  (* a refusal in state s2 *)
  assert (RF : forall e s2, cleared e = false -> midway original kept s2 -> frame s s2 -> last _ s2 = last _ s ->
    hash _ s2 = hash _ s -> sent _ s2 = rev (filter flt [PreConfiguration]) ++ sent _ s ->
    match finish v e s2,
      (if reload _ s
       then ((if reply (msgs _ s) v PostConfiguration then RecoverableError else MessageError), last _ s, Complete,
             [PreConfiguration; ReloadedConfiguration; PostConfiguration])
       else (e, last _ s, Broken, [PreConfiguration; FailedConfiguration])) with
    | (e, s'), (e', cur, w', m) =>
      e = e' /\ last _ s' = cur /\ sent _ s' = rev (filter flt m) ++ sent _ s /\
      hash _ s' = hash _ s /\ frame s s' /\ good original kept s' w'
    end).
  { intros e s2 CE M FR L H2 S2. pose proof FR as (_ & _ & FR3 & FR4 & _).
    destruct (reload _ s) eqn:RL.
    - pose proof (finish_reload original kept v s2 e M FR3 CE) as X.
      destruct (finish v e s2) as (e' & s'). destruct X as (X1 & X2 & X3 & X4 & X5 & X6).
      rewrite FR4 in X1, X3. split; [exact X1|]. split; [congruence|]. split.
      { rewrite (FL PreConfiguration), rev_app_distr, <- app_assoc, X3, S2. reflexivity. }
      split; [congruence|]. split; [eapply frame_trans; eassumption|exact X6].
    - pose proof (finish_broken original kept v s2 e M FR3 CE) as X.
      destruct (finish v e s2) as (e' & s'). destruct X as (X1 & X2 & X3 & X4 & X5 & X6).
      rewrite FR4 in X3. split; [exact X1|]. split; [congruence|]. split.
      { rewrite (FL PreConfiguration), rev_app_distr, <- app_assoc, X3, S2. reflexivity. }
      split; [congruence|]. split; [eapply frame_trans; eassumption|exact X6]. }
  destruct (reply (msgs _ s) v PreConfiguration) eqn:RP; cbn [cleared andb].
  - rewrite load_eq. destruct (acceptable false c) eqn:AC; cbn [cleared andb].
    + match goal with |- context [post_reconfigure ?x] => destruct (post_eq x) as (a & E); rewrite E; clear E end.
      cbn [rt registry next with_registry with_apps with_keep with_sent purge List.app].
      rewrite (made_seen c _ AC).
      destruct (cleared (post_error (rt _ s) (declared c))) eqn:PE; cbn [cleared].
      * match goal with |- context [finish v NoError ?x] => set (s2 := x) end.
        assert (M : midway original kept s2).
        { unfold midway, s2. cbn [rt last keep next with_last with_registry with_apps with_keep with_sent purge].
          rewrite EK1, EK2. split; [rewrite acceptable_split, AC, PE; reflexivity|].
          split; [exact K1|]. split; [exact K2|]. apply Forall_impl with (2 := B). intros; lia. }
        pose proof (finish_ok original kept v s2 (next _ s) M eq_refl B) as X.
        destruct (finish v NoError s2) as (e' & s'). destruct X as (X1 & X2 & X3 & X4 & X5 & X6).
        split; [exact X1|]. split; [exact X2|]. split.
        { rewrite (FL PreConfiguration), rev_app_distr, <- app_assoc, X3. reflexivity. }
        split; [exact X4|]. split; [|exact X6]. eapply frame_trans; [|exact X5].
        unfold frame, s2. cbn [rt parser reload msgs last keep next with_last with_registry with_apps with_keep with_sent purge].
        rewrite EK1, EK2. repeat (split; [reflexivity|]). lia.
      * match goal with |- context [finish v ?e ?x] => pose proof (RF e x) as Y end.
        assert (PX : post_error (rt _ s) (declared c) =
                  if existsb (fun x => application (snd x)) (declared c) then InitialisationError else ParametersError).
        { revert PE. unfold post_error. destruct (rt _ s); [|discriminate]. destruct (existsb _ _); [|reflexivity].
          destruct (forallb _ _); [discriminate|reflexivity]. }
        rewrite <- PX. apply Y; [exact PE| | | | |]; try reflexivity.
        -- unfold midway. cbn [rt last keep next with_last with_registry with_apps with_keep with_sent purge].
           rewrite EK1, EK2. split; [exact A|].
           split; [exact K1|]. split; [exact K2|]. apply Forall_impl with (2 := B). intros; lia.
        -- unfold frame. cbn [rt parser reload msgs last keep next with_last with_registry with_apps with_keep with_sent purge].
           rewrite EK1, EK2. repeat (split; [reflexivity|]). lia.
    + apply RF; try reflexivity.
      * unfold midway. cbn [rt last keep next with_last with_registry with_apps with_keep with_sent purge].
        rewrite EK1, EK2. split; [exact A|].
        split; [exact K1|]. split; [exact K2|]. apply Forall_impl with (2 := B). intros; lia.
      * unfold frame. cbn [rt parser reload msgs last keep next with_last with_registry with_apps with_keep with_sent purge].
        rewrite EK1, EK2. repeat (split; [reflexivity|]). lia.
  - apply RF; try reflexivity.
    + split; [exact A|]. split; [exact K1|]. split; [exact K2|exact B].
    + unfold frame; cbn; repeat (split; [reflexivity|]); apply Nat.le_refl.
Qed.

End Proofs.
