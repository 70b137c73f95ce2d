(** Histories of calls on a Loader, and what Configure leaves. *)
From Coq Require Import String Ascii List Bool Arith ZArith Lia.
From Verif Require Import CRC_Model CRC_Spec Loader_Model Loader_Spec Loader_Proofs.
Import ListNotations.
Open Scope string_scope.
Open Scope nat_scope.
Open Scope list_scope.

Section Proofs.
Variable body : Type.
Variable builds application configures : body -> bool.
Variable settings_of : body -> option settings.
Variable token : ascii -> bool.
Variable parse : string -> string -> option (config body).
Local Notation reconfigure := (reconfigure body builds application configures token).
Local Notation reconfigure_text := (reconfigure_text body builds application configures token parse).
Local Notation declared := (declared body token).
Local Notation acceptable := (acceptable body builds application configures token).
Local Notation object := (object body).
Local Notation config := (config body).
Local Notation state := (state body).
Local Notation step := (step body builds application configures token parse).
Local Notation run := (run body builds application configures token parse).
Local Notation good := (good body builds application configures token).
Local Notation frame := (frame body).
Local Notation made := (made body builds token).
Local Notation answer := (answer body builds application configures token parse).
Local Notation history := (history body builds application configures token parse).

Definition result (original kept : list object) (s : state) (r : error * state) (x : error * config * view * list msg) : Prop :=
  match r, x with
  | (e, s'), (e', cur, w', m) =>
    e = e' /\ last _ s' = cur /\ sent _ s' = rev (filter (fun x => existsb (msg_eqb x) (msgs _ s)) m) ++ sent _ s /\
    hash _ s' = hash _ s /\ frame s s' /\ good original kept s' w'
  end.

Lemma unchanged : forall original kept s w e, good original kept s w ->
  result original kept s (e, s) (e, last _ s, w, []).
Proof. intros. cbn. repeat (split; [reflexivity|]). split; [apply frame_refl|assumption]. Qed.

Lemma text_ok : forall original kept v t s w, good original kept s w -> copies v = true ->
  result original kept s (reconfigure_text v t s)
    (request_text body builds application configures token parse (rt _ s) (reload _ s) (parser _ s) (msgs _ s) v t (last _ s) w).
Proof.
  intros original kept v t s w G C. unfold Loader_Model.reconfigure_text, request_text, known_parser.
  cbn [existsb]. rewrite orb_false_r, orb_assoc.
  destruct (_ || _); [|apply unchanged, G].
  destruct (parse (parser _ s) t) as [c|]; [|apply unchanged, G].
  apply (reconfigure_ok body builds application configures token original kept v c s w G C).
Qed.

Definition key_ok (ks : option (Z * Z)) : Prop :=
  match ks with Some (key, _) => (0 <= key < 2 ^ 32)%Z | None => True end.

Lemma step_ok : forall original kept o s w, good original kept s w -> copied body o -> key_ok (hash _ s) ->
  exists e cur w' m, let s' := snd (step s o) in
    fst (step s o) = e /\ answer (rt _ s) (reload _ s) (parser _ s) (msgs _ s) o (last _ s) w (hash _ s) (e, cur, w', m) (hash _ s') /\
    last _ s' = cur /\ sent _ s' = rev (filter (fun x => existsb (msg_eqb x) (msgs _ s)) m) ++ sent _ s /\
    frame s s' /\ good original kept s' w' /\ key_ok (hash _ s').
Proof.
  intros original kept o s w G C K.
  assert (R : forall r x, result original kept s r x ->
    (forall e cur w' m, (e, cur, w', m) = x ->
       answer (rt _ s) (reload _ s) (parser _ s) (msgs _ s) o (last _ s) w (hash _ s) (e, cur, w', m) (hash _ s)) ->
    exists e cur w' m, let s' := snd r in
    fst r = e /\ answer (rt _ s) (reload _ s) (parser _ s) (msgs _ s) o (last _ s) w (hash _ s) (e, cur, w', m) (hash _ s') /\
    last _ s' = cur /\ sent _ s' = rev (filter (fun x => existsb (msg_eqb x) (msgs _ s)) m) ++ sent _ s /\
    frame s s' /\ good original kept s' w' /\ key_ok (hash _ s')).
  { intros (e, s') (((e', cur), w'), m) (-> & R2 & R3 & R4 & R5 & R6) A. exists e', cur, w', m. cbn [fst snd].
    rewrite R4. split; [reflexivity|]. split; [apply A; reflexivity|]. repeat (split; [assumption|]). assumption. }
  destruct o as [v c|v t|v t h| |c]; cbn [Loader_Model.step].
  - eapply R; [apply reconfigure_ok; eassumption|]. intros e cur w' m ->. split; reflexivity.
  - eapply R; [apply text_ok; eassumption|]. intros e cur w' m ->. split; reflexivity.
  - unfold reconfigure_hash. destruct (hash _ s) as [(key, seed)|] eqn:H.
    + destruct (hash_ok key seed t K) as (k & E & U). rewrite E. destruct (Z.eqb_spec k h) as [->|NE].
      * eapply R; [apply text_ok; eassumption|]. intros e cur w' m ->. cbn. split; [|reflexivity].
        left. split; [apply U; reflexivity|reflexivity].
      * eapply R; [apply unchanged; exact G|]. intros e cur w' m ->. cbn. split; [|reflexivity].
        right. split; [|reflexivity]. intros HH. apply U in HH. congruence.
    + eapply R; [apply unchanged; exact G|]. intros e cur w' m ->. cbn. split; reflexivity.
  - destruct G as (F & A & K1 & K2 & B & HR).
    pose proof A as AF. rewrite acceptable_split in AF. apply andb_prop in AF. destruct AF as (AF & AP).
    unfold reload_last. rewrite (load_eq body builds application configures token). cbn [last purge with_registry with_apps with_keep].
    rewrite AF. exists NoError, (last _ s), Bare, []. cbn [fst snd].
    split; [reflexivity|]. split; [split; reflexivity|]. split; [reflexivity|]. split; [reflexivity|].
    assert (EK1 : forall l, map (o_id _) (map (emptied body l) (keep _ s)) = map (o_id _) (keep _ s)).
    { intros l. rewrite map_map. apply map_ext. intros o. apply emptied_id. }
    assert (EK2 : forall l, map (seen _) (map (emptied body l) (keep _ s)) = map (seen _) (keep _ s)).
    { intros l. rewrite map_map. apply map_ext. intros o. apply emptied_seen. }
    split.
    + unfold Loader_Proofs.frame. cbn [rt parser reload msgs keep next with_registry with_apps with_keep purge].
      rewrite EK1, EK2. repeat (split; [reflexivity|]). lia.
    + split; [|exact K]. unfold Loader_Proofs.good. cbn [first rt last keep next registry with_registry with_apps with_keep purge].
      rewrite EK1, EK2. split; [exact F|]. split; [exact A|]. split; [exact K1|]. split; [exact K2|].
      split; [apply Forall_impl with (2 := B); intros; lia|]. cbn [holds List.app].
      split; [apply made_seen with (application := application) (configures := configures); exact AF|apply made_whole].
  - unfold get_seed. destruct (hash _ s) as [(key, seed)|] eqn:H.
    + exists NoError, (last _ s), w, []. cbn [fst snd hash with_hash].
      split; [reflexivity|]. split; [split; reflexivity|]. split; [reflexivity|]. split; [reflexivity|].
      split; [unfold Loader_Proofs.frame; cbn; repeat (split; [reflexivity|]); apply Nat.le_refl|].
      split; [exact G|exact K].
    + exists NoError, (last _ s), w, []. cbn [fst snd]. rewrite H.
      split; [reflexivity|]. split; [split; reflexivity|]. split; [reflexivity|]. split; [reflexivity|].
      split; [apply frame_refl|]. split; [exact G|exact K].
Qed.

Lemma history_ok : forall original kept ops s w es s',
  good original kept s w -> Forall (copied body) ops -> key_ok (hash _ s) -> run s ops = (es, s') ->
  exists ms w', history (rt _ s) (reload _ s) (parser _ s) (msgs _ s) ops (last _ s) w (hash _ s) es ms (last _ s') w' /\
    sent _ s' = rev ms ++ sent _ s /\ frame s s' /\ good original kept s' w'.
Proof.
  intros original kept. induction ops as [|o ops IH]; intros s w es s' G C K E; cbn [Loader_Model.run] in E.
  - injection E as <- <-. exists [], w. split; [constructor|]. split; [reflexivity|]. split; [apply frame_refl|exact G].
  - apply Forall_cons_iff in C. destruct C as (C1 & C2).
    destruct (step_ok original kept o s w G C1 K) as (e & cur & w1 & m & F1 & A & L & S1 & FR & G1 & K1).
    destruct (step s o) as (e', s1). cbn [fst snd] in *. subst e'.
    destruct (run s1 ops) as (es1, s2) eqn:E1. injection E as <- <-.
    destruct (IH s1 w1 es1 s2 G1 C2 K1 E1) as (ms & w2 & H & S2 & FR2 & G2).
    pose proof FR as (E1' & E2' & E3' & E4' & _). rewrite E1', E2', E3', E4', L in H.
    exists (filter (fun x => existsb (msg_eqb x) (msgs _ s)) m ++ ms), w2. split; [econstructor; eassumption|].
    split; [|split; [eapply frame_trans; eassumption|exact G2]].
    rewrite S2, S1, rev_app_distr, app_assoc. reflexivity.
Qed.

(** ** Configure *)
Lemma keep_loop_ok : forall l s s', keep_loop body l s = (NoError, s') ->
  exists k, s' = with_keep _ s (keep _ s ++ k) /\ map (o_name _) k = l /\ incl k (registry _ s).
Proof.
  induction l as [|n l IH]; intros s s' E; cbn [keep_loop] in E.
  - injection E as <-. exists []. rewrite app_nil_r. destruct s; repeat split; auto. intros x [].
  - destruct (find body n s) as [o|] eqn:F; [|discriminate].
    apply List.find_some in F. destruct F as (I & N). apply String.eqb_eq in N.
    apply IH in E. destruct E as (k & -> & M & IN). exists (o :: k). split; [|split].
    + cbn. rewrite <- app_assoc. reflexivity.
    + cbn. congruence.
    + intros x [<-|H]; [exact I|apply IN, H].
Qed.

Lemma forget_ok : forall l c c', forget body l c = (NoError, c') ->
  c' = filter (fun e => negb (existsb (fun o => String.eqb (e_name _ e) (String "+" (o_name _ o))) l)) c.
Proof.
  induction l as [|o l IH]; intros c c' E; cbn [forget] in E.
  - injection E as <-. cbn. symmetry. clear. induction c; cbn; congruence.
  - cbn in E. destruct (existsb _ c); [|discriminate]. apply IH in E. rewrite E. clear.
    induction c as [|e c IH]; [reflexivity|]. cbn [filter existsb].
    destruct (String.eqb (e_name _ e) (String "+" (o_name _ o))); cbn [negb orb]; [exact IH|].
    cbn [filter]. destruct (negb _); [f_equal|]; exact IH.
Qed.

Lemma acceptable_filter : forall f c, acceptable false c = true -> acceptable false (filter f c) = true.
Proof.
  intros f c. unfold Loader_Spec.acceptable. cbn [implb]. rewrite !andb_true_r.
  intros H. rewrite forallb_forall in *. intros x Hx. apply filter_In in Hx. apply H, Hx.
Qed.

Lemma find_seen : forall n l, match List.find (fun o => String.eqb (o_name body o) n) l with Some o => Some (seen _ o) | None => None end =
  List.find (fun x => String.eqb (fst x) n) (map (seen _) l).
Proof.
  intros n. induction l as [|o l IH]; [reflexivity|]. cbn [List.find map]. change (fst (seen body o)) with (o_name _ o).
  destruct (String.eqb _ _); [reflexivity|exact IH].
Qed.

(** The settings of a configuration. *)
Definition settings_in (c : config) : option settings :=
  match List.find (fun x => String.eqb (fst x) "LoaderPostInit") (declared c) with
  | Some (_, b) => settings_of b
  | None => None
  end.

Lemma configure_ok : forall r v d t s,
  configure body builds application configures settings_of token parse v d t (init body r) = (NoError, s) ->
  exists p c, d_parser d = Some p /\ parse p t = Some c /\ parser _ s = p /\ rt _ s = r /\ copies v = true /\ first _ s = false /\
    acceptable false c = true /\ registry _ s = made 0 c /\ next _ s = List.length (made 0 c) /\ sent _ s = [] /\
    incl (keep _ s) (registry _ s) /\
    last _ s = filter (fun e => negb (existsb (String.eqb (e_name _ e))
                         ("+LoaderPostInit" :: map (fun o => String "+" (o_name _ o)) (keep _ s)))) c /\
    match settings_in c with
    | None => keep _ s = [] /\ reload _ s = false /\ msgs _ s = [] /\ hash _ s = None
    | Some z => msgs _ s = s_msgs z /\ hash _ s = match s_hash z with Some k => Some (k, 0%Z) | None => None end /\
        match s_params z with
        | None => keep _ s = [] /\ reload _ s = false
        | Some (x, l) => map (o_name _) (keep _ s) = l /\ (reload _ s = true <-> x = Some "true")
        end
    end.
Proof.
  intros r v d t s. unfold configure. destruct (d_ok d); [|discriminate]. destruct (d_parser d) as [p|]; [|discriminate].
  unfold Loader_Model.reconfigure_text. cbn [parser with_parser]. destruct (existsb _ _); [|discriminate].
  destruct (parse p t) as [c|] eqn:P; [|discriminate].
  unfold Loader_Model.reconfigure. cbn [first init with_parser].
  rewrite (load_eq body builds application configures token). cbn [cleared first init with_parser purge with_registry with_apps with_keep registry next List.app].
  destruct (acceptable false c) eqn:A; [|discriminate]. cbn [cleared].
  destruct (copies v) eqn:C; [|discriminate]. cbn [cleared orb]. rewrite send_eq.
  cbn [msgs init with_last with_registry with_parser reply existsb filter rev List.app sent cleared andb purge with_apps with_keep].
  rewrite Nat.add_0_l. unfold reply. cbn [existsb msgs implb init cleared andb].
  set (s1 := not_first body _).
  assert (S1 : registry _ s1 = made 0 c /\ next _ s1 = List.length (made 0 c) /\ sent _ s1 = [] /\ keep _ s1 = [] /\
               reload _ s1 = false /\ msgs _ s1 = [] /\ hash _ s1 = None /\ last _ s1 = c /\ parser _ s1 = p /\
               rt _ s1 = r /\ first _ s1 = false) by (repeat split).
  clearbody s1. destruct S1 as (R1 & N1 & T1 & K1 & L1 & M1 & H1 & C1 & P1 & RT1 & F1).
  intros E. exists p, c. split; [reflexivity|]. split; [exact P|].
  destruct (post_init body settings_of s1) as (e2, s2) eqn:E2.
  destruct e2; cbn [cleared] in E; try discriminate.
  assert (S2 : registry _ s2 = made 0 c /\ next _ s2 = List.length (made 0 c) /\ sent _ s2 = [] /\ last _ s2 = c /\ parser _ s2 = p /\
               rt _ s2 = r /\ first _ s2 = false /\ incl (keep _ s2) (registry _ s2) /\
    match settings_in c with
    | None => keep _ s2 = [] /\ reload _ s2 = false /\ msgs _ s2 = [] /\ hash _ s2 = None
    | Some z => msgs _ s2 = s_msgs z /\ hash _ s2 = match s_hash z with Some k => Some (k, 0%Z) | None => None end /\
        match s_params z with
        | None => keep _ s2 = [] /\ reload _ s2 = false
        | Some (x, l) => map (o_name _) (keep _ s2) = l /\ (reload _ s2 = true <-> x = Some "true")
        end
    end).
  { unfold post_init in E2.
    assert (FS : settings_in c = match find body "LoaderPostInit" s1 with Some o => settings_of (o_body _ o) | None => None end).
    { unfold settings_in, find. rewrite R1. rewrite <- (made_seen body builds application configures token c 0 A), <- find_seen.
      destruct (List.find _ (made 0 c)); reflexivity. }
    rewrite FS. destruct (find body "LoaderPostInit" s1) as [o|].
    2:{ injection E2 as <-. rewrite K1. repeat split; auto. intros x []. }
    destruct (settings_of (o_body _ o)) as [z|].
    2:{ injection E2 as <-. rewrite K1. repeat split; auto. intros x []. }
    destruct (s_params z) as [(x, l)|].
    2:{ cbn [cleared] in E2. injection E2 as <-. cbn. rewrite K1. repeat split; auto. intros y []. }
    set (s3 := match x with None => (NoError, s1) | Some r0 => _ end) in E2.
    assert (S3 : registry _ (snd s3) = made 0 c /\ next _ (snd s3) = List.length (made 0 c) /\ sent _ (snd s3) = [] /\ keep _ (snd s3) = [] /\
               last _ (snd s3) = c /\ parser _ (snd s3) = p /\
               rt _ (snd s3) = r /\ first _ (snd s3) = false /\
               (reload _ (snd s3) = true <-> x = Some "true")).
    { unfold s3. destruct x as [y|].
      - destruct (String.eqb_spec y "true") as [->|NT]; [|destruct (String.eqb_spec y "false") as [->|NF]]; cbn;
          repeat (split; [assumption|]); split; intros; try reflexivity; try discriminate; congruence.
      - cbn. repeat (split; [assumption|]). split; congruence. }
    destruct s3 as (e3, s3). cbn [snd] in S3. destruct S3 as (R3 & N3 & T3 & K3 & C3 & P3 & RT3 & F3 & L3).
    destruct l as [|n l].
    - destruct e3; cbn [cleared] in E2; try discriminate. injection E2 as <-. cbn. rewrite K3. repeat split; auto.
      + intros y [].
      + apply L3.
      + apply L3.
    - destruct (keep_loop body (n :: l) s3) as (e4, s4) eqn:E4. destruct e4; cbn [cleared] in E2; try discriminate.
      apply keep_loop_ok in E4. destruct E4 as (k & -> & MK & IK). injection E2 as <-.
      cbn [registry next sent last parser rt first keep msgs hash reload with_keep with_hash with_msgs].
      rewrite K3. cbn [List.app]. rewrite R3 in *. repeat split; auto; apply L3. }
  clear E2 L1 M1 H1 C1 P1 RT1 F1 K1 R1 N1 T1 s1.
  destruct S2 as (R2 & N2 & T2 & C2 & P2 & RT2 & F2 & I2 & Z2).
  destruct (forget body (keep _ s2) (snd (delete body "+LoaderPostInit" (last _ s2)))) as (e3, c3) eqn:E3.
  destruct e3; cbn [cleared] in E; try discriminate. destruct (d_message d); cbn [cleared] in E; [|discriminate].
  apply forget_ok in E3. unfold delete in E3. cbn [snd] in E3. rewrite C2 in E3.
  assert (L3 : c3 = filter (fun e => negb (existsb (String.eqb (e_name _ e))
                         ("+LoaderPostInit" :: map (fun o => String "+" (o_name _ o)) (keep _ s2)))) c).
  { rewrite E3. clear. induction c as [|e c IH]; [reflexivity|]. cbn [filter existsb].
    destruct (String.eqb (e_name _ e) "+LoaderPostInit"); cbn [negb orb]; [exact IH|]. cbn [filter].
    assert (X : existsb (fun o => String.eqb (e_name _ e) (String "+" (o_name _ o))) (keep _ s2) =
                existsb (String.eqb (e_name _ e)) (map (fun o => String "+" (o_name _ o)) (keep _ s2))).
    { clear. induction (keep _ s2) as [|o k IH]; [reflexivity|]. cbn [existsb map]. rewrite IH. reflexivity. }
    rewrite X. destruct (negb _); [f_equal|]; exact IH. }
  assert (exists a, s = with_apps _ (with_last _ s2 c3) a) as (a & ->).
  { destruct (rt _ (with_last _ s2 c3)).
    - destruct (post_eq body application configures (with_last _ s2 c3)) as (a & X). rewrite X in E. injection E as _ <-. exists a. reflexivity.
    - injection E as <-. exists (apps _ s2). destruct s2; reflexivity. }
  cbn [registry next sent last parser rt first keep msgs hash reload with_apps with_last].
  repeat (split; [first [assumption|reflexivity]|]). exact Z2.
Qed.
End Proofs.
