(** C48: loading and reloading applications. *)
From Coq Require Import String Ascii List Bool Arith ZArith Lia.
From Verif Require Import CRC_Spec Loader_Model Loader_Spec Loader_Proofs Loader_Proofs2.
Import ListNotations.
Open Scope string_scope.
Open Scope nat_scope.
Open Scope list_scope.

(** What a successful Configure leaves: the objects that the text declares are in the registry, in order; the
    settings are those of +LoaderPostInit; the configuration to go back to is the one of the text without
    +LoaderPostInit and without the objects to keep. *)
Theorem C48_configure : forall body builds application configures settings_of token parse r v d t s,
  configure body builds application configures settings_of token parse v d t (init body r) = (NoError, s) ->
  exists p c, d_parser d = Some p /\ parse p t = Some c /\
    map (seen body) (registry _ s) = declared body token c /\ acceptable body builds application configures token false c = true /\
    sent _ s = [] /\ (forall o, In o (keep _ s) -> In o (registry _ s)) /\
    last _ s = filter (fun e => negb (existsb (String.eqb (e_name _ e))
                         ("+LoaderPostInit" :: map (fun o => String "+" (o_name _ o)) (keep _ s)))) c /\
    match settings_in body settings_of token c with
    | None => keep _ s = [] /\ reload _ s = false /\ msgs _ s = [] /\ hash _ s = None
    | Some z => msgs _ s = s_msgs z /\ hash _ s = match s_hash z with Some k => Some (k, 0%Z) | None => None end /\
        match s_params z with
        | None => keep _ s = [] /\ reload _ s = false
        | Some (x, l) => map (o_name _) (keep _ s) = l /\ (reload _ s = true <-> x = Some "true")
        end
    end.
Proof.
  intros body builds application configures settings_of token parse r v d t s E.
  destruct (configure_ok _ _ _ _ _ _ _ _ _ _ _ _ E) as (p & c & H1 & H2 & H3 & H4 & H5 & H6 & H7 & H8 & H9 & H10 & H11 & H12 & H13).
  exists p, c. split; [exact H1|]. split; [exact H2|].
  split; [rewrite H8; apply made_seen with (application := application) (configures := configures), H7|].
  repeat (split; [assumption|]). exact H13.
Qed.
Print Assumptions C48_configure.

(** Every history of calls after a successful Configure is one of the specification: requests are answered, the
    current configuration (what GetLastValidConfiguration gives) changes, messages are sent and the registry is
    what the view at the end says. *)
Theorem C48_history_partial : forall body builds application configures settings_of token parse r v d t s0 ops es s,
  configure body builds application configures settings_of token parse v d t (init body r) = (NoError, s0) ->
  acceptable body builds application configures token r (last _ s0) = true ->
  match hash _ s0 with Some (key, _) => (0 <= key < 2 ^ 32)%Z | None => True end ->
  Forall (copied body) ops ->
  run body builds application configures token parse s0 ops = (es, s) ->
  exists ms w,
    history body builds application configures token parse r (reload _ s0) (parser _ s0) (msgs _ s0) ops
            (last _ s0) Original (hash _ s0) es ms (last _ s) w /\
    sent _ s = rev ms /\ holds body token w (last _ s) (registry _ s0) (keep _ s0) (registry _ s).
Proof.
  intros body builds application configures settings_of token parse r v d t s0 ops es s E A K C R.
  destruct (configure_ok _ _ _ _ _ _ _ _ _ _ _ _ E) as (p & c & H1 & H2 & H3 & H4 & H5 & H6 & H7 & H8 & H9 & H10 & H11 & H12 & H13).
  assert (G : good body builds application configures token (registry _ s0) (keep _ s0) s0 Original).
  { unfold good. split; [exact H6|]. split; [rewrite H4; exact A|]. split; [reflexivity|]. split; [reflexivity|].
    assert (X : forall o, In o (registry _ s0) -> o_id _ o < next _ s0).
    { intros o Ho. rewrite H8 in Ho. apply (made_fresh body builds application configures token) in Ho. rewrite H9. lia. }
    split; [|reflexivity]. apply Forall_app. split; apply Forall_forall; [exact X|]. intros o Ho. apply X, H11, Ho. }
  destruct (history_ok body builds application configures token parse _ _ ops s0 Original es s G C K R)
    as (ms & w & X1 & X2 & X3 & X4).
  exists ms, w. rewrite H4 in X1. split; [exact X1|]. split.
  - rewrite X2, H10, app_nil_r. reflexivity.
  - destruct X4 as (_ & _ & _ & _ & _ & X). exact X.
Qed.
Print Assumptions C48_history_partial.

(** With ReloadLast the registry is never left in between: it holds what Configure put there, or all the objects
    of the current configuration (and, unless ReloadLastValidConfiguration was called last, the kept ones). *)
Theorem C48_reload_partial : forall body builds application configures settings_of token parse r v d t s0 ops es s,
  configure body builds application configures settings_of token parse v d t (init body r) = (NoError, s0) ->
  acceptable body builds application configures token r (last _ s0) = true ->
  match hash _ s0 with Some (key, _) => (0 <= key < 2 ^ 32)%Z | None => True end ->
  Forall (copied body) ops ->
  run body builds application configures token parse s0 ops = (es, s) ->
  reload _ s0 = true ->
  registry _ s = registry _ s0 \/
  exists objects back, registry _ s = objects ++ back /\
    map (seen _) objects = declared body token (last _ s) /\ Forall (fun o => o_whole _ o = true) objects /\
    (back = [] \/ map (o_id _) back = map (o_id _) (keep _ s0)).
Proof.
  intros body builds application configures settings_of token parse r v d t s0 ops es s E A K C R RL.
  destruct (C48_history_partial _ _ _ _ _ _ _ _ _ _ _ _ _ _ _ E A K C R) as (ms & w & H & _ & X).
  assert (NB : w <> Broken).
  { rewrite RL in H. assert (W : Original <> Broken) by discriminate. revert W H.
    generalize Original (last _ s0) (hash _ s0) (last _ s). clear.
    intros w0 c0 k0 c1 W H. induction H as [|o l cur w0 ks e cur1 w1 m ks1 es ms cur2 w2 AN H IH]; [exact W|].
    apply IH. clear - AN W.
    assert (RQ : forall set v c, snd (fst (request body builds application configures token r true set v c cur w0)) <> Broken).
    { intros set v c. unfold request. destruct (_ && _); discriminate. }
    assert (RT : forall p set v t, snd (fst (request_text body builds application configures token parse r true p set v t cur w0)) <> Broken).
    { intros p set v t. unfold request_text. destruct (known_parser p); [|exact W]. destruct (parse p t); [apply RQ|exact W]. }
    destruct o as [v c|v t|v t h| |c]; cbn [answer] in AN; destruct AN as (AN & _).
    - change w1 with (snd (fst (e, cur1, w1, m))). rewrite AN. apply RQ.
    - change w1 with (snd (fst (e, cur1, w1, m))). rewrite AN. apply RT.
    - unfold request_hash in AN. destruct ks as [(key, seed)|].
      + destruct AN as [(_ & AN)|(_ & AN)].
        * change w1 with (snd (fst (e, cur1, w1, m))). rewrite AN. apply RT.
        * injection AN as _ _ -> _. exact W.
      + injection AN as _ _ -> _. exact W.
    - injection AN as _ _ -> _. discriminate.
    - injection AN as _ _ -> _. exact W. }
  destruct w; cbn [holds] in X; [left; exact X| | |contradiction].
  - destruct X as (objects & back & X1 & X2 & X3 & X4 & _). right. exists objects, back. auto.
  - right. exists (registry _ s), []. rewrite app_nil_r. destruct X as (X1 & X2). auto.
Qed.
Print Assumptions C48_reload_partial.

(** A text that is not parsed, or whose hash is not the one given, changes nothing at all. *)
Theorem C48_refused_text_changes_nothing : forall body builds application configures token parse v t h s,
  (known_parser (parser _ s) = false \/ parse (parser _ s) t = None ->
     snd (reconfigure_text body builds application configures token parse v t s) = s /\
     fst (reconfigure_text body builds application configures token parse v t s) <> NoError) /\
  (match hash _ s with Some (key, seed) => (0 <= key < 2 ^ 32)%Z /\ ~ is_hash key seed t h | None => True end ->
     reconfigure_hash body builds application configures token parse v t h s = (FatalError, s)).
Proof.
  intros body builds application configures token parse v t h s. split.
  - intros H. unfold reconfigure_text. cbn [existsb]. rewrite orb_false_r, orb_assoc. fold (known_parser (parser _ s)).
    destruct (known_parser (parser _ s)); [|split; [reflexivity|discriminate]].
    destruct H as [H|H]; [discriminate|]. rewrite H. split; [reflexivity|discriminate].
  - unfold reconfigure_hash. destruct (hash _ s) as [(key, seed)|]; [|reflexivity]. intros (K & N).
    destruct (hash_ok key seed t K) as (k & E & U). rewrite E. destruct (Z.eqb_spec k h) as [->|NE]; [|reflexivity].
    exfalso. apply N, U. reflexivity.
Qed.
Print Assumptions C48_refused_text_changes_nothing.

(** ** Examples *)
Record thing := Thing { t_builds : bool; t_app : bool; t_configures : bool; t_settings : option settings }.
Definition plus (c : ascii) : bool := Ascii.eqb c "+" || Ascii.eqb c "$".
Definition node (n : string) (b : thing) : entry thing := Entry _ n (Some b).
Definition plain := Thing true false true None.
Definition bad := Thing false false true None.
Definition app_ok := Thing true true true None.
Definition app_bad := Thing true true false None.
Definition post (reload : option string) (keep : list string) (key : option Z) (m : list msg) : thing :=
  Thing true false true (Some (Settings (Some (reload, keep)) key m)).

(** Texts, given by their first letter. *)
Definition texts (first_text : config thing) (p t : string) : option (config thing) :=
  if String.eqb t "first" then Some first_text
  else if String.eqb t "second" then Some [node "+Other" app_ok; node "+More" plain]
  else if String.eqb t "partly" then Some [node "+Other" app_ok; node "+More" bad]
  else if String.eqb t "unconfigurable" then Some [node "+Other" app_bad]
  else None.
Definition go (r : bool) (f : config thing) (l : list (op thing)) : error * list error * state thing * state thing :=
  let '(e, s) := configure thing t_builds t_app t_configures t_settings plus (texts f) (Env (fun _ => true) true)
                   (Data true (Some "cdb") true) "first" (init thing r) in
  let '(es, s') := run thing t_builds t_app t_configures plus (texts f) s l in (e, es, s, s').
Definition fine : env := Env (fun _ => true) true.
Definition refusing (m : msg) : env := Env (fun x => negb (msg_eqb x m)) true.
Definition names (s : state thing) : list string := map (o_name _) (registry _ s).
Definition ids (s : state thing) : list nat := map (o_id _) (registry _ s).
Definition first_kept (r : option string) : config thing :=
  [node "+LoaderPostInit" (post r ["Web"] (Some 79764919%Z) [PreConfiguration; PostConfiguration; ReloadedConfiguration]);
   node "+Web" plain; node "+App" app_ok; Entry _ "Value" None].

(** The hypotheses are met by a RealTimeLoader that keeps an object: a text is refused, a configuration is
    refused halfway, another in the end, one replaces the first, and one is given with its hash. *)
Example C48_example :
  match go true (first_kept (Some "true"))
          [ReconfigureText _ fine "nonsense"; ReconfigureText _ fine "partly"; ReconfigureText _ fine "unconfigurable";
           ReconfigureText _ fine "second"; GetSeed _ 305419896%Z; ReconfigureHash _ fine "second" 0%Z] with
  | (e, es, s0, s) =>
    e = NoError /\ acceptable thing t_builds t_app t_configures plus true (last _ s0) = true /\
    es = [InitialisationError; RecoverableError; RecoverableError; NoError; NoError; FatalError] /\
    names s = ["Other"; "More"; "Web"] /\ reload _ s0 = true
  end.
Proof. vm_compute. repeat split. Qed.

(** ** Refutations *)

(** ReloadLast is false when it is not given (the documentation says true): a configuration that fails leaves the
    registry with part of it and nothing of the previous one. *)
Theorem C48_default_refuted :
  match go true (first_kept None) [ReconfigureText _ fine "partly"] with
  | (e, es, s0, s) => e = NoError /\ es = [InitialisationError] /\
      names s0 = ["LoaderPostInit"; "Web"; "App"] /\ names s = ["Other"; "Web"]
  end.
Proof. vm_compute. repeat split. Qed.

(** When the PreConfiguration message fails, nothing should happen; instead the application in place is purged
    and made again (with ReloadLast), or the kept objects are put in the registry again although they are there. *)
Theorem C48_pre_message_refuted :
  match go true (first_kept (Some "true")) [ReconfigureText _ (refusing PreConfiguration) "second"],
        go true (first_kept (Some "false")) [ReconfigureText _ (refusing PreConfiguration) "second"] with
  | (_, es1, a0, a), (_, es2, b0, b) =>
      es1 = [RecoverableError] /\ ids a0 = [0; 1; 2] /\ names a = ["App"; "Web"] /\ ids a = [3; 1] /\
      es2 = [MessageError] /\ names b = ["LoaderPostInit"; "Web"; "App"; "Web"] /\ ids b = [0; 1; 2; 1]
  end.
Proof. vm_compute. repeat split. Qed.

(** The kept objects are purged: what was inside them is gone after a reconfiguration. *)
Theorem C48_kept_emptied_refuted :
  match go true (first_kept (Some "true")) [ReconfigureText _ fine "second"] with
  | (_, es, s0, s) => es = [NoError] /\
      map (fun o => (o_name _ o, o_whole _ o)) (registry _ s0) = [("LoaderPostInit", true); ("Web", true); ("App", true)] /\
      map (fun o => (o_name _ o, o_whole _ o)) (registry _ s) = [("Other", true); ("More", true); ("Web", false)]
  end.
Proof. vm_compute. repeat split. Qed.

(** An error answer does not mean that the configuration was not applied: the PostConfiguration message failed. *)
Theorem C48_post_message_refuted :
  match go true (first_kept (Some "true")) [ReconfigureText _ (refusing PostConfiguration) "second"] with
  | (_, es, s0, s) => es = [MessageError] /\ names s = ["Other"; "More"; "Web"] /\
      last _ s = [node "+Other" app_ok; node "+More" plain]
  end.
Proof. vm_compute. repeat split. Qed.

(** The PostConfiguration message ("if the configuration was successfully applied") is sent although it was not. *)
Theorem C48_post_message_sent_refuted :
  match go true (first_kept (Some "true")) [ReconfigureText _ fine "partly"] with
  | (_, es, s0, s) => es = [RecoverableError] /\
      rev (sent _ s) = [PreConfiguration; ReloadedConfiguration; PostConfiguration]
  end.
Proof. vm_compute. repeat split. Qed.

(** A RealTimeLoader keeps the applications it replaced: after a reconfiguration the first state of FirstState
    is given to the application that was purged, and there is none for the new one. *)
Theorem C48_stale_applications_refuted :
  match go true (first_kept (Some "true")) [ReconfigureText _ fine "second"] with
  | (_, es, s0, s) => es = [NoError] /\
      match start thing ["State1"] (apps _ s0), start thing ["State1"; "State2"] (apps _ s) with
      | Some l0, Some l => map (fun x => (o_name _ (fst x), snd x)) l0 = [("App", "State1")] /\
          map (fun x => (o_name _ (fst x), snd x)) l = [("App", "State1"); ("Other", "State2")]
      | _, _ => False
      end /\ start thing ["State1"] (apps _ s) = None /\ ~ In "App" (names s)
  end.
Proof. vm_compute. repeat split. intuition discriminate. Qed.

(** When the only application is one to keep, the configuration to go back to has none, and going back fails:
    the hypothesis on [last] is needed. *)
Theorem C48_kept_application_refuted :
  match go true [node "+LoaderPostInit" (post (Some "true") ["App"] None []); node "+App" app_ok; node "+Gone" plain]
          [ReconfigureText _ fine "partly"] with
  | (e, es, s0, s) => e = NoError /\ es = [InitialisationError] /\ reload _ s0 = true /\ names s = ["Gone"; "App"] /\
      acceptable thing t_builds t_app t_configures plus true (last _ s0) = false
  end.
Proof. vm_compute. repeat split. Qed.

(** A value of ReloadLast that is neither true nor false is an error, unless there are objects to keep. *)
Theorem C48_reload_value_refuted :
  match go true (first_kept (Some "maybe")) [],
        go true [node "+LoaderPostInit" (post (Some "maybe") [] None []); node "+App" app_ok] [] with
  | (e1, _, _, _), (e2, _, _, _) => e1 = NoError /\ e2 = ParametersError
  end.
Proof. vm_compute. repeat split. Qed.

(** A seed is not used up: the same text and hash are accepted again; and a text without hash is accepted
    although a hash is set. *)
Theorem C48_hash_refuted :
  match compute_hash 79764919 305419896 "second" with
  | Some h =>
    match go true (first_kept (Some "true"))
            [GetSeed _ 305419896%Z; ReconfigureHash _ fine "second" h; ReconfigureHash _ fine "second" h;
             ReconfigureText _ fine "second"] with
    | (e, es, s0, s) => e = NoError /\ es = [NoError; NoError; NoError; NoError]
    end
  | None => False
  end.
Proof. vm_compute. repeat split. Qed.

(** An object to keep that is declared as a domain ($) makes Configure fail after everything was started. *)
Theorem C48_kept_domain_refuted :
  match go true [node "+LoaderPostInit" (post (Some "true") ["Web"] None []); node "$Web" plain; node "+App" app_ok] [] with
  | (e, _, s0, _) => e = ParametersError /\ names s0 = ["LoaderPostInit"; "Web"; "App"]
  end.
Proof. vm_compute. repeat split. Qed.
