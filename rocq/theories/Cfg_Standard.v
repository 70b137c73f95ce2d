(** C44: the parse of MARTe's own syntax. *)
From Coq Require Import String Ascii.
From Verif Require Import Base Paths ConfigDB_Model ConfigDB_Spec ConfigDB_Proofs Slk_Model Slk_Proofs Cfg_Model Cfg_Spec Cfg_Values Cfg_Db.
Open Scope string_scope. Open Scope nat_scope. Open Scope list_scope.

(** The choice of a production, on the types of the tokens that follow *)
Fixpoint resolve_t (T : tables) (fuel : nat) (ts : nat -> nat) (entry level : nat) : out nat :=
  if entry <? START_CONFLICT T then Ret entry else
  match fuel with O => NoFuel | S k => bind (get (Conflict_row T) (entry - (START_CONFLICT T - 1))) (fun row => bind (get (Conflict T) (row + ts level)) (fun e => resolve_t T k ts e (S level))) end.
Definition pick_t (T : tables) (cf N k : nat) (ts : nat -> nat) : out (option (list nat)) :=
  bind (get (Parse_row T) (N - (START_SYMBOL T - 1))) (fun row => bind (get (ParseArray T) (row + k)) (fun e => bind (resolve_t T cf ts e 0) (fun entry =>
  if entry =? 0 then Ret None else
  bind (get (Production_row T) entry) (fun row => bind (get (Production T) row) (fun len => bind (get (Production T) (S row)) (fun head =>
  if head =? N then Ret (Some (firstn (len - 1) (skipn (S (S row)) (Production T)))) else Ret None)))))).
Definition ts_of (T : tables) (l : list token) (i : nat) : nat := token_type T (nth (S i) l TEof).
Lemma resolve_ts T l : forall fuel e lv, resolve T fuel l e lv = resolve_t T fuel (ts_of T l) e lv.
Proof. induction fuel as [|k IH]; intros e lv; [reflexivity|]. cbn [resolve resolve_t]. destruct (e <? START_CONFLICT T); [reflexivity|]. destruct (get (Conflict_row T) _); [|reflexivity|reflexivity]. cbn [bind]. unfold peek. fold (ts_of T l lv). destruct (get (Conflict T) _); [|reflexivity|reflexivity]. cbn [bind]. apply IH. Qed.
Lemma pick_ts T cf N k l : pick T cf N k l = pick_t T cf N k (ts_of T l).
Proof. unfold pick, pick_t. destruct (get (Parse_row T) _); [|reflexivity|reflexivity]. cbn [bind]. destruct (get (ParseArray T) _); [|reflexivity|reflexivity]. cbn [bind]. rewrite resolve_ts. reflexivity. Qed.
(** [cf] is at least 8; the types are those in the hypotheses on [ts] *)
Ltac more_fuel := repeat match goal with F : S _ <= ?cf |- _ => destruct cf as [|cf]; [lia|apply le_S_n in F] end.
Ltac chosen := more_fuel; lazy; repeat match goal with Q : ?ts ?i = _ |- context [?ts ?i] => rewrite Q; lazy end; reflexivity.

Section Standard.
Notation P := (pick_t Standard).
Lemma std_10 cf ts : 8 <= cf -> P cf 10 1 ts = Ret (Some [11; 23]). Proof. intros F. chosen. Qed.
Lemma std_11 cf ts : 8 <= cf -> P cf 11 1 ts = Ret (Some [12; 19]). Proof. intros F. chosen. Qed.
Lemma std_leaf cf ts : 8 <= cf -> ts 0 = 2 -> ts 1 = 1 \/ ts 1 = 8 -> P cf 12 1 ts = Ret (Some [24; 1; 2; 13; 25]). Proof. intros F A [B|B]; chosen. Qed.
Lemma std_leaf_v cf ts : 8 <= cf -> ts 0 = 2 -> ts 1 = 6 -> ts 2 = 8 -> P cf 12 1 ts = Ret (Some [24; 1; 2; 13; 25]). Proof. intros F A B D; chosen. Qed.
Lemma std_leaf_s cf ts : 8 <= cf -> ts 0 = 2 -> ts 1 = 6 -> ts 2 = 1 -> ts 3 = 1 \/ ts 3 = 7 \/ ts 3 = 8 -> P cf 12 1 ts = Ret (Some [24; 1; 2; 13; 25]). Proof. intros F A B D [G|[G|G]]; chosen. Qed.
Lemma std_leaf_m cf ts : 8 <= cf -> ts 0 = 2 -> ts 1 = 6 -> ts 2 = 6 -> P cf 12 1 ts = Ret (Some [24; 1; 2; 13; 25]). Proof. intros F A B D; chosen. Qed.
Lemma std_cast cf ts : 8 <= cf -> ts 0 = 2 -> ts 1 = 3 -> ts 2 = 1 -> ts 3 = 4 -> P cf 12 1 ts = Ret (Some [24; 1; 2; 3; 26; 1; 4; 13; 25]). Proof. intros F A B D G; chosen. Qed.
Lemma std_expr cf ts : 8 <= cf -> ts 0 = 2 -> ts 1 = 3 -> ts 2 = 1 -> ts 3 = 5 -> P cf 12 1 ts = Ret (Some [24; 1; 2; 3; 27; 1; 5; 14; 4; 25]). Proof. intros F A B D G; chosen. Qed.
Lemma std_block cf ts : 8 <= cf -> ts 0 = 2 -> ts 1 = 6 -> ts 2 = 1 -> ts 3 = 2 -> P cf 12 1 ts = Ret (Some [28; 1; 2; 17]). Proof. intros F A B D G; chosen. Qed.
Lemma std_17 cf ts : 8 <= cf -> P cf 17 6 ts = Ret (Some [6; 12; 22; 7]). Proof. intros F. chosen. Qed.
Lemma std_22 cf ts : 8 <= cf -> P cf 22 1 ts = Ret (Some [12; 22]). Proof. intros F. chosen. Qed.
Lemma std_22e cf ts : 8 <= cf -> P cf 22 7 ts = Ret (Some [32]). Proof. intros F. chosen. Qed.
Lemma std_19 cf ts : 8 <= cf -> P cf 19 1 ts = Ret (Some [12; 19]). Proof. intros F. chosen. Qed.
End Standard.

(** ** Items *)
Section ItemInd.
Variable P : item -> Prop.
Hypothesis PL : forall n c v, P (Leaf n c v).
Hypothesis PE : forall n o e, P (Expr n o e).
Hypothesis PB : forall n i l, P i -> Forall P l -> P (Block n i l).
Fixpoint item_ind2 (i : item) : P i :=
  match i with
  | Leaf n c v => PL n c v
  | Expr n o e => PE n o e
  | Block n i l => PB n i l (item_ind2 i) ((fix f (l : list item) : Forall P l := match l with [] => Forall_nil P | x :: r => Forall_cons x (item_ind2 x) (f r) end) l)
  end.
End ItemInd.

Section Parse.
Context {E : Type} (H : string -> Z) (U : list string) (conv : string -> string -> option E) (text_of : value E -> option string) (vars : string -> option (list string)) (is_num : string -> bool)
        (eval : string -> string -> list (value E) -> option (value E)).
Hypothesis inj : distinct_hashes H U.
Notation value := (value E). Notation sim := (ConfigDB_Proofs.sim (V := value) H U).
Notation exe := (standard_execute H conv text_of vars is_num eval).
Notation runs := (runs Standard exe 8). Notation fails := (fails Standard exe 8). Notation S0 := (S0 Standard).
Lemma SS : 1 <= START_SYMBOL Standard <= START_ACTION Standard. Proof. cbn. lia. Qed.
Lemma std_value v ty nn he ex d vx rest sk : List.length sk <= 503 -> let u := Cs ty nn 0 0 0 None 0 0 he ex d vx in
  match value_of conv ty v with
  | Some x => exists u', runs (S0 (write_val "{" "}" v ++ rest) (13 :: sk) u) (S0 rest sk u') /\ filled x u' /\ kept u u'
  | None => fails false (S0 (write_val "{" "}" v ++ rest) (13 :: sk) u)
  end.
Proof.
  apply (value_tokens conv Standard exe 8 13 14 15 16 18 20 21 1 8 6 7 29 30 31 "{" "}" SS).
  all: try reflexivity.
  1-3: intros N I; cbn [In] in I; cbn; intuition lia.
  all: intros cf l F A; try intro B; rewrite pick_ts; try (destruct A as [A|A]); try (destruct B as [B|B]); rewrite A; try (change (ts_of Standard l 0 = 1) in B); try (change (ts_of Standard l 0 = 8) in B); try (change (ts_of Standard l 0 = 6) in B); set (ts := ts_of Standard l) in *; clearbody ts; clear A; chosen.
Qed.

Ltac nt body := eapply runs_trans; [apply (run_nt Standard exe 8 SS _ body); [cbn; lia|intros cf Hcf; rewrite pick_ts|cbn [List.length] in *; lia]|]; cbn [app].
Ltac tm := eapply runs_trans; [apply (run_tm Standard exe 8 SS); [cbn; lia|reflexivity]|].
Ltac act := eapply runs_trans; [apply (run_act Standard exe 8 SS); [cbn; lia|reflexivity]|].
Definition next (t : tree value) (p : path) (ex : list (string * string * option string)) (vx : db nat) (l rest : list token) (N : nat) (sk sk' : list nat) (nn : string) (d : db value)
  (o : option (tree value * list (string * path * string))) : Prop :=
  match o with
  | Some (t', x) => exists nn' d', runs (S0 l (N :: sk) (clean nn ex d vx)) (S0 rest sk' (clean nn' (ex ++ map enc x) d' vx)) /\ sim d' (move_to t' p) /\ good_dirs U t' /\ Forall (ex_ok U) x
  | None => fails false (S0 l (N :: sk) (clean nn ex d vx))
  end.
Lemma leaf_pick n v rest cf : 8 <= cf -> pick_t Standard cf 12 1 (ts_of Standard (TStr n :: TTerm "=" :: write_val "{" "}" v ++ rest)) = Ret (Some [24; 1; 2; 13; 25]).
Proof.
  intro F. destruct v as [e|[e es]|[e es] rs].
  - apply std_leaf; [exact F|reflexivity|]. destruct e; [right|left]; reflexivity.
  - destruct e as [x|x]; [apply std_leaf_v; auto; reflexivity|]. apply std_leaf_s; [exact F|reflexivity|reflexivity|reflexivity|]. destruct es as [|[y|y] es]; [right; left|right; right|left]; reflexivity.
  - apply std_leaf_m; auto; reflexivity.
Qed.
Lemma put_value_some (t : tree value) p n x : match put_value t p n (Some x) with Some t' => n <> "" /\ t' = set t p n x | None => True end.
Proof. unfold put_value. destruct (String.eqb n "") eqn:Q; [exact Logic.I|]. split; [apply String.eqb_neq; exact Q|reflexivity]. Qed.
Lemma put_value_none (t : tree value) p n : put_value t p n (@None (Cfg_Model.value E)) = None. Proof. unfold put_value. destruct (String.eqb n ""); reflexivity. Qed.
(** AddLeaf after the value *)
Lemma leaf_end t p x u rest sk : sim (database u) (move_to t p) -> good_dirs U t -> In (nodeName u) U -> filled x u -> handleMathExpr u = false ->
  match put_value t p (nodeName u) (Some x) with
  | Some t' => exists d', runs (S0 rest (25 :: sk) u) (S0 rest sk (clean (nodeName u) (exprs u) d' (vectorStructureIdx u))) /\ sim d' (move_to t' p) /\ good_dirs U t'
  | None => fails false (S0 rest (25 :: sk) u)
  end.
Proof.
  intros S G I F Hm. pose proof (leaf_db H U inj (hd TEof rest) t p x u S I F) as X. rewrite Hm in X. pose proof (put_value_some t p (nodeName u) x) as Y. destruct (put_value t p (nodeName u) (Some x)) as [t'|].
  - destruct X as (d' & X & S'). destruct Y as [_ ->]. exists d'. split; [apply (run_act Standard exe 8 SS); [cbn; lia|exact X]|]. split; [exact S'|apply dirs_set; exact G].
  - destruct X as (u' & X). apply fail_act; [exact SS|cbn; lia|]. change (exe (25 - (START_ACTION Standard - 1))) with (add_leaf (E := E) H). rewrite X. reflexivity.
Qed.
Lemma expr_value ty e : value_of conv ty (Scalar e) = match conv ty (data e) with Some x => Some (Value_ ty 0 1 1 [x]) | None => None end.
Proof. unfold value_of. destruct e; cbn; destruct (conv ty d); reflexivity. Qed.
Definition item_goal (i : item) : Prop := forall t p nn ex d vx rest sk, List.length sk + 2 * depth i <= 501 -> sim d (move_to t p) -> good_dirs U t -> good_item i -> (forall n, In n (item_names i) -> In n U) ->
  next t p ex vx (write i ++ rest) rest 12 sk sk nn d (add conv t p i).
Lemma leaf_item n c v : item_goal (Leaf n c v).
Proof.
  intros t p nn ex d vx rest sk L S G _ W. cbn [depth] in L. assert (In n U) as I by (apply W; left; reflexivity). cbn [add]. destruct c as [ty|]; unfold next; cbn [write app].
  - assert (R : runs (S0 (TStr n :: TTerm "=" :: TTerm "(" :: TStr ty :: TTerm ")" :: write_val "{" "}" v ++ rest) (12 :: sk) (clean nn ex d vx)) (S0 (write_val "{" "}" v ++ rest) (13 :: 25 :: sk) (Cs ty n 0 0 0 None 0 0 false ex d vx))).
    { nt [24; 1; 2; 3; 26; 1; 4; 13; 25]. { apply std_cast; auto; reflexivity. } act. tm. tm. tm. act. tm. tm. apply runs_refl. }
    pose proof (std_value v ty n false ex d vx rest (25 :: sk) ltac:(cbn [List.length]; lia)) as V. cbn zeta in V. destruct (value_of conv ty v) as [x|].
    + destruct V as (u' & V & F & K1 & K2 & K3 & K4 & K5). cbn in K1, K2, K3, K4, K5. pose proof (leaf_end t p x u' rest sk ltac:(rewrite K4; exact S) G ltac:(rewrite K1; exact I) F K2) as Z. rewrite K1, K3, K5 in Z. destruct (put_value t p n (Some x)) as [t'|].
      * destruct Z as (d' & Z & S' & G'). exists n, d'. cbn [map]. rewrite app_nil_r. split; [|split; [exact S'|split; [exact G'|constructor]]]. eapply runs_trans; [exact R|]. eapply runs_trans; [exact V|exact Z].
      * eapply runs_fails; [exact R|]. eapply runs_fails; [exact V|exact Z].
    + rewrite put_value_none. eapply runs_fails; [exact R|exact V].
  - assert (R : runs (S0 (TStr n :: TTerm "=" :: write_val "{" "}" v ++ rest) (12 :: sk) (clean nn ex d vx)) (S0 (write_val "{" "}" v ++ rest) (13 :: 25 :: sk) (Cs "string" n 0 0 0 None 0 0 false ex d vx))).
    { nt [24; 1; 2; 13; 25]. { apply leaf_pick; exact Hcf. } act. tm. tm. apply runs_refl. }
    pose proof (std_value v "string" n false ex d vx rest (25 :: sk) ltac:(cbn [List.length]; lia)) as V. cbn zeta in V. destruct (value_of conv "string" v) as [x|].
    + destruct V as (u' & V & F & K1 & K2 & K3 & K4 & K5). cbn in K1, K2, K3, K4, K5. pose proof (leaf_end t p x u' rest sk ltac:(rewrite K4; exact S) G ltac:(rewrite K1; exact I) F K2) as Z. rewrite K1, K3, K5 in Z. destruct (put_value t p n (Some x)) as [t'|].
      * destruct Z as (d' & Z & S' & G'). exists n, d'. cbn [map]. rewrite app_nil_r. split; [|split; [exact S'|split; [exact G'|constructor]]]. eapply runs_trans; [exact R|]. eapply runs_trans; [exact V|exact Z].
      * eapply runs_fails; [exact R|]. eapply runs_fails; [exact V|exact Z].
    + rewrite put_value_none. eapply runs_fails; [exact R|exact V].
Qed.
Lemma expr_item n o e : item_goal (Expr n o e).
Proof.
  intros t p nn ex d vx rest sk L S G _ W. cbn [depth] in L. assert (In n U) as I by (apply W; left; reflexivity). cbn [add]. unfold next; cbn [write app].
  assert (NP : Forall (nice U) p) by (apply G, (dir_at H U d t p S)).
  set (u1 := Cs "string" n 0 0 0 None 0 0 true (ex ++ [(o, join p, None)]) d vx).
  assert (R : runs (S0 (TStr n :: TTerm "=" :: TTerm "(" :: TStr o :: TTerm "|" :: tok e :: TTerm ")" :: rest) (12 :: sk) (clean nn ex d vx)) (S0 (tok e :: TTerm ")" :: rest) (29 :: 18 :: 4 :: 25 :: sk) u1)).
  { nt [24; 1; 2; 3; 27; 1; 5; 14; 4; 25]. { apply std_expr; auto; reflexivity. } act. tm. tm. tm.
    eapply runs_trans. { apply (run_act Standard exe 8 SS); [cbn; lia|]. refine (expr_db H U inj (TStr o) t p _ _ NP). exact S. } tm. tm. nt [29; 18]. { change (token_type Standard (hd TEof (tok e :: TTerm ")" :: rest))) with (token_type Standard (tok e)). destruct e; chosen. } apply runs_refl. }
  rewrite expr_value. destruct (conv "string" (data e)) as [x|] eqn:X.
  - set (u2 := Cs "string" n 0 1 0 (Some [x]) (kind e) 0 true (ex ++ [(o, join p, None)]) d vx).
    assert (R2 : runs (S0 (tok e :: TTerm ")" :: rest) (29 :: 18 :: 4 :: 25 :: sk) u1) (S0 rest (25 :: sk) u2)).
    { eapply runs_trans. { apply (run_act Standard exe 8 SS); [cbn; lia|]. exact (add_ok conv "string" n 0 0 0 None 0 0 true (ex ++ [(o, join p, None)]) d vx e x (or_introl eq_refl) X). }
      destruct e; [nt [8]|nt [1]]; try chosen; tm; tm; apply runs_refl. }
    assert (F : filled (Value_ "string" 0 1 1 [x]) u2). { unfold filled, u2. cbn. repeat split; lia. }
    pose proof (leaf_db H U inj (hd TEof rest) t p _ u2 S I F) as Z. change (nodeName u2) with n in Z. pose proof (put_value_some t p n (Value_ "string" 0 1 1 [x])) as Y. destruct (put_value t p n _) as [t'|].
    + destruct Z as (d' & Z & S'). destruct Y as [Y ->]. exists n, d'. split.
      * eapply runs_trans; [exact R|]. eapply runs_trans; [exact R2|]. apply (run_act Standard exe 8 SS); [cbn; lia|]. cbn [handleMathExpr exprs vectorStructureIdx u2] in Z. rewrite set_leaf_app in Z. exact Z.
      * split; [exact S'|]. split; [apply dirs_set; exact G|]. constructor; [|constructor]. split; [exact NP|auto].
    + destruct Z as (u' & Z). eapply runs_fails; [exact R|]. eapply runs_fails; [exact R2|]. apply fail_act; [exact SS|cbn; lia|]. change (exe (25 - (START_ACTION Standard - 1))) with (add_leaf (E := E) H). rewrite Z. reflexivity.
  - rewrite put_value_none. eapply runs_fails; [exact R|]. apply fail_act; [exact SS|cbn; lia|]. change (exe (29 - (START_ACTION Standard - 1))) with (add_scalar (E := E) conv). cbn [hd].
    destruct (add_bad conv "string" n 0 0 0 None 0 0 true (ex ++ [(o, join p, None)]) d vx e (or_intror X)) as (u' & Z). unfold u1. rewrite Z. reflexivity.
Qed.
Lemma write_head i : exists n l, write i = TStr n :: l. Proof. destruct i as [n [c|] v|n o e|n i l]; eexists; eexists; reflexivity. Qed.
(** The items of a block after the first, and its end *)
Lemma block_items : forall l, Forall item_goal l -> forall t p nm nn ex d vx rest sk, (forall i, In i l -> List.length sk + 2 + 2 * depth i <= 501) -> List.length sk <= 500 -> sim d (move_to t (p ++ [nm])) -> good_dirs U t ->
  Forall good_item l -> (forall n, In n (flat_map item_names l) -> In n U) ->
  match add_all conv t (p ++ [nm]) l with
  | Some (t', x) => exists nn' d', runs (S0 (flat_map write l ++ TTerm "}" :: rest) (22 :: 7 :: sk) (clean nn ex d vx)) (S0 rest sk (clean nn' (ex ++ map enc x) d' vx)) /\ sim d' (move_to t' p) /\ good_dirs U t' /\ Forall (ex_ok U) x
  | None => fails false (S0 (flat_map write l ++ TTerm "}" :: rest) (22 :: 7 :: sk) (clean nn ex d vx))
  end.
Proof.
  induction l as [|i l IH]; intros A t p nm nn ex d vx rest sk L L2 S G GI W.
  - cbn [add_all flat_map app]. destruct (end_db H U inj (TTerm "}") t p nm (clean nn ex d vx) S) as (d' & X & S'). exists nn, d'. cbn [map]. rewrite app_nil_r. split; [|auto].
    nt [32]. { apply std_22e; exact Hcf. } eapply runs_trans. { apply (run_act Standard exe 8 SS); [cbn; lia|exact X]. } tm. apply runs_refl.
  - inversion A as [|? ? A1 A2]; subst. inversion GI as [|? ? G1 G2]; subst. cbn [flat_map] in W. cbn [add_all flat_map]. rewrite <- app_assoc.
    assert (R : runs (S0 (write i ++ flat_map write l ++ TTerm "}" :: rest) (22 :: 7 :: sk) (clean nn ex d vx)) (S0 (write i ++ flat_map write l ++ TTerm "}" :: rest) (12 :: 22 :: 7 :: sk) (clean nn ex d vx))).
    { destruct (write_head i) as (n & w & ->). cbn [app]. nt [12; 22]. { apply std_22; exact Hcf. } apply runs_refl. }
    pose proof (A1 t (p ++ [nm]) nn ex d vx (flat_map write l ++ TTerm "}" :: rest) (22 :: 7 :: sk) ltac:(specialize (L i (or_introl eq_refl)); cbn [List.length]; lia) S G G1 ltac:(intros n I; apply W, in_or_app; auto)) as X. unfold next in X.
    destruct (add conv t (p ++ [nm]) i) as [[t1 x]|]; [|eapply runs_fails; [exact R|exact X]]. destruct X as (nn1 & d1 & X & S1 & Gd & F1).
    specialize (IH A2 t1 p nm nn1 (ex ++ map enc x) d1 vx rest sk ltac:(intros j I; apply L; right; exact I) L2 S1 Gd G2 ltac:(intros n I; apply W, in_or_app; auto)).
    destruct (add_all conv t1 (p ++ [nm]) l) as [[t2 y]|]; [|eapply runs_fails; [exact R|]; eapply runs_fails; [exact X|exact IH]]. destruct IH as (nn2 & d2 & Y & S2 & Gd2 & F2).
    exists nn2, d2. rewrite map_app, (app_assoc ex). split; [|split; [exact S2|split; [exact Gd2|apply Forall_app; auto]]]. eapply runs_trans; [exact R|]. eapply runs_trans; [exact X|exact Y].
Qed.
Lemma good_block n i l : good_item (Block n i l) -> good_name n /\ Forall good_item (i :: l).
Proof. intros (A & B & D). split; [exact A|]. constructor; [exact B|]. clear - D. induction l as [|x l IH]; [constructor|]. destruct D. constructor; auto. Qed.
Lemma depth_block n i l : forall j, In j (i :: l) -> S (depth j) <= depth (Block n i l).
Proof. intros j [<-|I]; cbn [depth]; apply le_n_S; [clear; induction l as [|x l IH]; cbn; lia|]. induction l as [|x l IH]; [destruct I|]. cbn [fold_right]. destruct I as [<-|I]; [lia|]. specialize (IH I). lia. Qed.
Lemma block_item n i l : item_goal i -> Forall item_goal l -> item_goal (Block n i l).
Proof.
  intros Ai Al t p nn ex d vx rest sk L S G GI W. pose proof (depth_block n i l) as DB. apply good_block in GI. destruct GI as [Gn GI]. cbn [item_names] in W.
  assert (N : nice U n) by (split; [exact Gn|apply W; left; reflexivity]). assert (NP : Forall (nice U) p) by (apply G, (dir_at H U d t p S)). rewrite add_block. unfold next. cbn [write app]. unfold braces. cbn [app]. rewrite <- !app_assoc. cbn [app].
  assert (R : runs (S0 (TStr n :: TTerm "=" :: TTerm "{" :: write i ++ flat_map write l ++ TTerm "}" :: rest) (12 :: sk) (clean nn ex d vx)) (S0 (TStr n :: TTerm "=" :: TTerm "{" :: write i ++ flat_map write l ++ TTerm "}" :: rest) (28 :: 1 :: 2 :: 17 :: sk) (clean nn ex d vx))).
  { nt [28; 1; 2; 17]. { apply std_block; auto; try reflexivity; destruct i as [m [c|] v|m o e|m j k]; reflexivity. } apply runs_refl. }
  pose proof (node_db H U inj n t p (clean nn ex d vx) S N) as X. destruct (ent t (p ++ [n])) as [e|] eqn:Q.
  - destruct X as (u' & X). eapply runs_fails; [exact R|]. apply fail_act; [exact SS|cbn; lia|]. change (exe (28 - (START_ACTION Standard - 1))) with (create_node (E := E) H). cbn [hd]. rewrite X. reflexivity.
  - destruct X as (d' & X & S'). change (with_db (clean nn ex d vx) d') with (clean nn ex d' vx) in X.
    pose proof (DB i (or_introl eq_refl)) as DI.
    assert (R2 : runs (S0 (TStr n :: TTerm "=" :: TTerm "{" :: write i ++ flat_map write l ++ TTerm "}" :: rest) (28 :: 1 :: 2 :: 17 :: sk) (clean nn ex d vx)) (S0 (write i ++ flat_map write l ++ TTerm "}" :: rest) (12 :: 22 :: 7 :: sk) (clean nn ex d' vx))).
    { eapply runs_trans. { apply (run_act Standard exe 8 SS); [cbn; lia|exact X]. } tm. tm. nt [6; 12; 22; 7]. { apply std_17; exact Hcf. } tm. apply runs_refl. }
    inversion GI as [|? ? G1 G2]; subst. cbn [add_all].
    pose proof (Ai (mkdir t p n) (p ++ [n]) nn ex d' vx (flat_map write l ++ TTerm "}" :: rest) (22 :: 7 :: sk) ltac:(cbn [List.length]; lia) S' (dirs_mkdir U t p n G N NP) G1 ltac:(intros m I; apply W; right; apply in_or_app; auto)) as Y. unfold next in Y.
    destruct (add conv (mkdir t p n) (p ++ [n]) i) as [[t1 x]|]; [|eapply runs_fails; [exact R|]; eapply runs_fails; [exact R2|exact Y]]. destruct Y as (nn1 & d1 & Y & S1 & Gd & F1).
    pose proof (block_items l Al t1 p n nn1 (ex ++ map enc x) d1 vx rest sk ltac:(intros j I; specialize (DB j (or_intror I)); lia) ltac:(lia) S1 Gd G2 ltac:(intros m I; apply W; right; apply in_or_app; auto)) as Z.
    destruct (add_all conv t1 (p ++ [n]) l) as [[t2 y]|]; [|eapply runs_fails; [exact R|]; eapply runs_fails; [exact R2|]; eapply runs_fails; [exact Y|exact Z]]. destruct Z as (nn2 & d2 & Z & S2 & Gd2 & F2).
    exists nn2, d2. rewrite map_app, (app_assoc ex). split; [|split; [exact S2|split; [exact Gd2|apply Forall_app; auto]]]. eapply runs_trans; [exact R|]. eapply runs_trans; [exact R2|]. eapply runs_trans; [exact Y|exact Z].
Qed.
Lemma item_all i : item_goal i. Proof. induction i using item_ind2; [apply leaf_item|apply expr_item|apply block_item; assumption]. Qed.

(** ** The whole configuration *)
Lemma items_end : forall l t p nn ex d vx, (forall i, In i l -> depth i <= 249) -> sim d (move_to t p) -> good_dirs U t -> Forall good_item l -> (forall n, In n (flat_map item_names l) -> In n U) ->
  match add_all conv t p l with
  | Some (t', x) => exists nn' d', runs (S0 (flat_map write l) [19; 23] (clean nn ex d vx)) (mk [] 9 [23] (clean nn' (ex ++ map enc x) d' vx) false true) /\ sim d' (move_to t' p) /\ good_dirs U t' /\ Forall (ex_ok U) x
  | None => fails false (S0 (flat_map write l) [19; 23] (clean nn ex d vx))
  end.
Proof.
  induction l as [|i l IH]; intros t p nn ex d vx L S G GI W.
  - cbn [add_all flat_map]. exists nn, d. cbn [map]. rewrite app_nil_r. split; [|auto]. apply (run_eof Standard exe 8 SS); [cbn; lia|reflexivity|]. intros cf F. rewrite pick_ts. pose proof (eq_refl : ts_of Standard [] 0 = 0) as Z0. pose proof (eq_refl : ts_of Standard [] 1 = 0) as Z1. pose proof (eq_refl : ts_of Standard [] 2 = 0) as Z2. generalize dependent (ts_of Standard []). intros ts Z0 Z1 Z2. chosen.
  - inversion GI as [|? ? G1 G2]; subst. cbn [flat_map] in W. cbn [add_all flat_map].
    assert (R : runs (S0 (write i ++ flat_map write l) [19; 23] (clean nn ex d vx)) (S0 (write i ++ flat_map write l) [12; 19; 23] (clean nn ex d vx))).
    { destruct (write_head i) as (n & w & ->). cbn [app]. nt [12; 19]. { apply std_19; exact Hcf. } apply runs_refl. }
    pose proof (item_all i t p nn ex d vx (flat_map write l) [19; 23] ltac:(specialize (L i (or_introl eq_refl)); cbn [List.length]; lia) S G G1 ltac:(intros n I; apply W, in_or_app; auto)) as X. unfold next in X.
    destruct (add conv t p i) as [[t1 x]|]; [|eapply runs_fails; [exact R|exact X]]. destruct X as (nn1 & d1 & X & S1 & Gd & F1).
    specialize (IH t1 p nn1 (ex ++ map enc x) d1 vx ltac:(intros j I; apply L; right; exact I) S1 Gd G2 ltac:(intros n I; apply W, in_or_app; auto)).
    destruct (add_all conv t1 p l) as [[t2 y]|]; [|eapply runs_fails; [exact R|]; eapply runs_fails; [exact X|exact IH]]. destruct IH as (nn2 & d2 & Y & S2 & Gd2 & F2).
    exists nn2, d2. rewrite map_app, (app_assoc ex). split; [|split; [exact S2|split; [exact Gd2|apply Forall_app; auto]]]. eapply runs_trans; [exact R|]. eapply runs_trans; [exact X|exact Y].
Qed.
Theorem standard_ok l t d : (forall i, In i l -> depth i <= 249) -> sim d t -> good_dirs U t -> good_config conv text_of vars is_num eval U t l ->
  match configured conv text_of vars is_num eval t l with
  | Some t' => result Standard exe 8 (flat_map write l) (cfg_init d) true (fun u => sim (database u) t')
  | None => result Standard exe 8 (flat_map write l) (cfg_init d) false (fun _ => True)
  end.
Proof.
  intros L S G (GI & W & CX). assert (S' : sim d (move_to t (at_ t))) by (destruct t; exact S). unfold configured. destruct l as [|i l].
  - cbn. destruct (parse_ends Standard exe 8 SS [] (cfg_init d) [] (cfg_init d)) as [n X].
    { apply (run_eof Standard exe 8 SS); [cbn; lia|reflexivity|]. intros cf F. rewrite pick_ts. pose proof (eq_refl : ts_of Standard [] 0 = 0) as Z0. pose proof (eq_refl : ts_of Standard [] 1 = 0) as Z1. pose proof (eq_refl : ts_of Standard [] 2 = 0) as Z2. generalize dependent (ts_of Standard []). intros ts Z0 Z1 Z2. chosen. }
    exists n. intros rounds fuel cf A B Cc. specialize (X rounds fuel cf A B Cc). destruct (parse Standard exe rounds fuel cf [] (cfg_init d)) as [[b u]| |]; [|exact X|exact X]. destruct X as [X ->]. split; [exact X|exact S].
  - assert (R : runs (S0 (flat_map write (i :: l)) [10] (cfg_init d)) (S0 (flat_map write (i :: l)) [12; 19; 23] (clean "" [] d init))).
    { cbn [flat_map]. destruct (write_head i) as (n & w & ->). cbn [app]. nt [11; 23]. { apply std_10; exact Hcf. } nt [12; 19]. { apply std_11; exact Hcf. } apply runs_refl. }
    cbn [flat_map] in W, R. inversion GI as [|? ? G1 G2]; subst. cbn [add_all flat_map] in *.
    pose proof (item_all i t (at_ t) "" [] d init (flat_map write l) [19; 23] ltac:(specialize (L i (or_introl eq_refl)); cbn [List.length]; lia) S' G G1 ltac:(intros n I; apply W, in_or_app; auto)) as X. unfold next in X.
    destruct (add conv t (at_ t) i) as [[t1 x]|]; [|apply (parse_fails Standard exe 8 SS); eapply runs_fails; [exact R|exact X]]. destruct X as (nn1 & d1 & X & S1 & Gd & F1).
    pose proof (items_end l t1 (at_ t) nn1 ([] ++ map enc x) d1 init ltac:(intros j I; apply L; right; exact I) S1 Gd G2 ltac:(intros n I; apply W, in_or_app; auto)) as Y.
    destruct (add_all conv t1 (at_ t) l) as [[t2 y]|]; [|apply (parse_fails Standard exe 8 SS); eapply runs_fails; [exact R|]; eapply runs_fails; [exact X|exact Y]]. destruct Y as (nn2 & d2 & Y & S2 & Gd2 & F2).
    pose proof (end_ok H U inj text_of vars is_num eval TEof (clean nn2 (([] ++ map enc x) ++ map enc y) d2 init) (x ++ y) t2 (at_ t) S2 ltac:(rewrite map_app; reflexivity) ltac:(apply Forall_app; auto) CX) as Z.
    destruct (evaluate text_of vars is_num eval t2 (x ++ y)) as [t3|].
    + destruct Z as (u' & Z & S3). destruct (parse_ends Standard exe 8 SS (write i ++ flat_map write l) (cfg_init d) [] u') as [n Q].
      { eapply runs_trans; [exact R|]. eapply runs_trans; [exact X|]. eapply runs_trans; [exact Y|]. apply run_act_any; [exact SS|cbn; lia|exact Z]. }
      exists n. intros rounds fuel cf A B Cc. specialize (Q rounds fuel cf A B Cc). destruct (parse Standard exe rounds fuel cf _ (cfg_init d)) as [[b u]| |]; [|exact Q|exact Q]. destruct Q as [Q ->]. split; [exact Q|exact S3].
    + destruct Z as (u' & Z). apply (parse_fails Standard exe 8 SS). eapply runs_fails; [exact R|]. eapply runs_fails; [exact X|]. eapply runs_fails; [exact Y|]. apply fail_act_any; [exact SS|cbn; lia|]. change (exe (23 - (START_ACTION Standard - 1))) with (end_ H text_of vars is_num eval). cbn [hd]. rewrite Z. reflexivity.
Qed.
End Parse.
