(** C44: the parse of the XML syntax. *)
From Coq Require Import String Ascii.
From Verif Require Import Base Paths ConfigDB_Model ConfigDB_Spec ConfigDB_Proofs Slk_Model Slk_Proofs Cfg_Model Cfg_Spec Cfg_Values Cfg_Db Cfg_Standard.
Open Scope string_scope. Open Scope nat_scope. Open Scope list_scope.

Section Choices.
Notation P := (pick_t Xml).
Lemma xml_11 cf ts : 8 <= cf -> P cf 11 1 ts = Ret (Some [12; 24]). Proof. intros F. chosen. Qed.
Lemma xml_12 cf ts : 8 <= cf -> P cf 12 1 ts = Ret (Some [13; 20]). Proof. intros F. chosen. Qed.
Lemma xml_leaf cf ts : 8 <= cf -> ts 0 = 2 -> ts 1 = 3 -> ts 2 = 2 \/ ts 2 = 7 \/ ts 2 = 9 -> P cf 13 1 ts = Ret (Some [1; 25; 2; 3; 14; 1; 4; 2; 3; 26]). Proof. intros F A B [D|[D|D]]; chosen. Qed.
Lemma xml_cast cf ts : 8 <= cf -> ts 0 = 2 -> ts 1 = 3 -> ts 2 = 5 -> P cf 13 1 ts = Ret (Some [1; 25; 2; 3; 5; 27; 2; 6; 14; 1; 4; 2; 3; 26]). Proof. intros F A B D. chosen. Qed.
Lemma xml_block cf ts : 8 <= cf -> ts 0 = 2 -> ts 1 = 3 -> ts 2 = 1 -> P cf 13 1 ts = Ret (Some [1; 28; 2; 3; 18; 1; 4; 2; 3]). Proof. intros F A B D. chosen. Qed.
Lemma xml_18 cf ts : 8 <= cf -> P cf 18 1 ts = Ret (Some [13; 23]). Proof. intros F. chosen. Qed.
Lemma xml_23 cf ts : 8 <= cf -> ts 0 = 2 -> P cf 23 1 ts = Ret (Some [13; 23]). Proof. intros F A. chosen. Qed.
Lemma xml_23e cf ts : 8 <= cf -> ts 0 = 4 -> P cf 23 1 ts = Ret (Some [32]). Proof. intros F A. chosen. Qed.
Lemma xml_20 cf ts : 8 <= cf -> P cf 20 1 ts = Ret (Some [13; 20]). Proof. intros F. chosen. Qed.
End Choices.

Section XItemInd.
Variable P : xitem -> Prop.
Hypothesis PL : forall n c v n', P (XLeaf n c v n').
Hypothesis PB : forall n i l n', P i -> Forall P l -> P (XBlock n i l n').
Fixpoint xitem_ind2 (i : xitem) : P i :=
  match i with
  | XLeaf n c v n' => PL n c v n'
  | XBlock n i l n' => PB n i l n' (xitem_ind2 i) ((fix f (l : list xitem) : Forall P l := match l with [] => Forall_nil P | x :: r => Forall_cons x (xitem_ind2 x) (f r) end) l)
  end.
End XItemInd.

Section Parse.
Context {E : Type} (H : string -> Z) (U : list string) (conv : string -> string -> option E) (text_of : value E -> option string) (vars : string -> option (list string)) (is_num : string -> bool)
        (eval : string -> string -> list (value E) -> option (value E)).
Hypothesis inj : distinct_hashes H U.
Notation value := (value E). Notation sim := (ConfigDB_Proofs.sim (V := value) H U).
Notation exe := (xml_execute H conv text_of vars is_num eval).
Notation runs := (runs Xml exe 8). Notation fails := (fails Xml exe 8). Notation S0 := (S0 Xml).
Lemma XS : 1 <= START_SYMBOL Xml <= START_ACTION Xml. Proof. cbn. lia. Qed.
Lemma xml_value v ty nn he ex d vx rest sk : List.length sk <= 503 -> let u := Cs ty nn 0 0 0 None 0 0 he ex d vx in
  match value_of conv ty v with
  | Some x => exists u', runs (S0 (write_val "{" "}" v ++ rest) (14 :: sk) u) (S0 rest sk u') /\ filled x u' /\ kept u u'
  | None => fails false (S0 (write_val "{" "}" v ++ rest) (14 :: sk) u)
  end.
Proof.
  apply (value_tokens conv Xml exe 8 14 15 16 17 19 21 22 2 9 7 8 29 30 31 "{" "}" XS).
  all: try reflexivity.
  1-3: intros N I; cbn [In] in I; cbn; intuition lia.
  all: intros cf l F A; try intro B; rewrite pick_ts; try (destruct A as [A|A]); try (destruct B as [B|B]); rewrite A; try (change (ts_of Xml l 0 = 2) in B); try (change (ts_of Xml l 0 = 9) in B); try (change (ts_of Xml l 0 = 7) in B); set (ts := ts_of Xml l) in *; clearbody ts; clear A; chosen.
Qed.

Ltac nt body := eapply runs_trans; [apply (run_nt Xml exe 8 XS _ body); [cbn; lia|intros cf Hcf; rewrite pick_ts|cbn [List.length] in *; lia]|]; cbn [app].
Ltac tm := eapply runs_trans; [apply (run_tm Xml exe 8 XS); [cbn; lia|reflexivity]|].
Ltac act := eapply runs_trans; [apply (run_act Xml exe 8 XS); [cbn; lia|reflexivity]|].
Definition xnext (t : tree value) (p : path) (ex : list (string * string * option string)) (vx : db nat) (l rest : list token) (N : nat) (sk sk' : list nat) (nn : string) (d : db value)
  (o : option (tree value * list (string * path * string))) : Prop :=
  match o with
  | Some (t', x) => exists nn' d', runs (S0 l (N :: sk) (clean nn ex d vx)) (S0 rest sk' (clean nn' (ex ++ map enc x) d' vx)) /\ sim d' (move_to t' p) /\ good_dirs U t' /\ Forall (ex_ok U) x
  | None => fails false (S0 l (N :: sk) (clean nn ex d vx))
  end.
Lemma xleaf_end t p x u rest sk : sim (database u) (move_to t p) -> good_dirs U t -> In (nodeName u) U -> filled x u -> handleMathExpr u = false ->
  match put_value t p (nodeName u) (Some x) with
  | Some t' => exists d', runs (S0 rest (26 :: sk) u) (S0 rest sk (clean (nodeName u) (exprs u) d' (vectorStructureIdx u))) /\ sim d' (move_to t' p) /\ good_dirs U t'
  | None => fails false (S0 rest (26 :: sk) u)
  end.
Proof.
  intros S G I F Hm. pose proof (leaf_db H U inj (hd TEof rest) t p x u S I F) as X. rewrite Hm in X. pose proof (put_value_some t p (nodeName u) x) as Y. destruct (put_value t p (nodeName u) (Some x)) as [t'|].
  - destruct X as (d' & X & S'). destruct Y as [_ ->]. exists d'. split; [apply (run_act Xml exe 8 XS); [cbn; lia|exact X]|]. split; [exact S'|apply dirs_set; exact G].
  - destruct X as (u' & X). apply fail_act; [exact XS|cbn; lia|]. change (exe (26 - (START_ACTION Xml - 1))) with (add_leaf (E := E) H). rewrite X. reflexivity.
Qed.
Definition xgoal (i : xitem) : Prop := forall t p nn ex d vx rest sk, List.length sk + 5 * xdepth i <= 497 -> sim d (move_to t p) -> good_dirs U t -> good_item (of_xml i) -> (forall n, In n (item_names (of_xml i)) -> In n U) ->
  xnext t p ex vx (write_xml i ++ rest) rest 13 sk sk nn d (add conv t p (of_xml i)).
Lemma xleaf_item n c v n' : xgoal (XLeaf n c v n').
Proof.
  intros t p nn ex d vx rest sk L S G _ W. cbn [xdepth] in L. assert (In n U) as I by (apply W; left; reflexivity). cbn [of_xml add]. set (ty := match c with Some ty => ty | None => "string" end). unfold xnext.
  set (close := TTerm "<" :: TTerm "/" :: TStr n' :: TTerm ">" :: rest).
  assert (R : runs (S0 (write_xml (XLeaf n c v n') ++ rest) (13 :: sk) (clean nn ex d vx)) (S0 (write_val "{" "}" v ++ close) (14 :: 1 :: 4 :: 2 :: 3 :: 26 :: sk) (Cs ty n 0 0 0 None 0 0 false ex d vx))).
  { unfold ty. destruct c as [ty'|]; unfold write_xml, tags; cbn [app]; rewrite <- app_assoc; cbn [app]; fold close.
    - nt [1; 25; 2; 3; 5; 27; 2; 6; 14; 1; 4; 2; 3; 26]. { apply xml_cast; auto; reflexivity. } tm. act. tm. tm. tm. act. tm. tm. apply runs_refl.
    - nt [1; 25; 2; 3; 14; 1; 4; 2; 3; 26]. { apply xml_leaf; [exact Hcf|reflexivity|reflexivity|]. destruct v as [[?|?]|?|? ?]; cbn; auto. } tm. act. tm. tm. apply runs_refl. }
  pose proof (xml_value v ty n false ex d vx close (1 :: 4 :: 2 :: 3 :: 26 :: sk) ltac:(cbn [List.length]; lia)) as V. cbn zeta in V. destruct (value_of conv ty v) as [x|].
  - destruct V as (u' & V & F & K1 & K2 & K3 & K4 & K5). cbn in K1, K2, K3, K4, K5.
    assert (R3 : runs (S0 close (1 :: 4 :: 2 :: 3 :: 26 :: sk) u') (S0 rest (26 :: sk) u')) by (unfold close; tm; tm; tm; tm; apply runs_refl).
    pose proof (xleaf_end t p x u' rest sk ltac:(rewrite K4; exact S) G ltac:(rewrite K1; exact I) F K2) as Z. rewrite K1, K3, K5 in Z. destruct (put_value t p n (Some x)) as [t'|].
    + destruct Z as (d' & Z & S' & G'). exists n, d'. cbn [map]. rewrite app_nil_r. split; [|split; [exact S'|split; [exact G'|constructor]]]. eapply runs_trans; [exact R|]. eapply runs_trans; [exact V|]. eapply runs_trans; [exact R3|exact Z].
    + eapply runs_fails; [exact R|]. eapply runs_fails; [exact V|]. eapply runs_fails; [exact R3|exact Z].
  - rewrite put_value_none. eapply runs_fails; [exact R|exact V].
Qed.
Lemma xml_head i : exists n l, write_xml i = TTerm "<" :: TStr n :: TTerm ">" :: l. Proof. destruct i as [n [c|] v n'|n i l n']; eexists; eexists; reflexivity. Qed.
(** The items of a block after the first, and its end *)
Lemma xblock_items : forall l, Forall xgoal l -> forall t p nm nn ex d vx n' rest sk, (forall i, In i l -> List.length sk + 5 + 5 * xdepth i <= 497) -> List.length sk <= 497 -> sim d (move_to t (p ++ [nm])) -> good_dirs U t ->
  Forall good_item (map of_xml l) -> (forall n, In n (flat_map item_names (map of_xml l)) -> In n U) ->
  let close := TTerm "<" :: TTerm "/" :: TStr n' :: TTerm ">" :: rest in
  match add_all conv t (p ++ [nm]) (map of_xml l) with
  | Some (t', x) => exists nn' d', runs (S0 (flat_map write_xml l ++ close) (23 :: 1 :: 4 :: 2 :: 3 :: sk) (clean nn ex d vx)) (S0 rest sk (clean nn' (ex ++ map enc x) d' vx)) /\ sim d' (move_to t' p) /\ good_dirs U t' /\ Forall (ex_ok U) x
  | None => fails false (S0 (flat_map write_xml l ++ close) (23 :: 1 :: 4 :: 2 :: 3 :: sk) (clean nn ex d vx))
  end.
Proof.
  cbn zeta. induction l as [|i l IH]; intros A t p nm nn ex d vx n' rest sk L L2 S G GI W; set (close := TTerm "<" :: TTerm "/" :: TStr n' :: TTerm ">" :: rest).
  - cbn [add_all flat_map map app]. destruct (end_db H U inj (TTerm "<") t p nm (clean nn ex d vx) S) as (d' & X & S'). exists nn, d'. cbn [map]. rewrite app_nil_r. split; [|auto].
    unfold close. nt [32]. { apply xml_23e; [exact Hcf|reflexivity]. } eapply runs_trans. { apply (run_act Xml exe 8 XS); [cbn; lia|exact X]. } tm. tm. tm. tm. apply runs_refl.
  - inversion A as [|? ? A1 A2]; subst. cbn [map] in GI, W. inversion GI as [|? ? G1 G2]; subst. cbn [flat_map] in W. cbn [map add_all flat_map]. rewrite <- app_assoc.
    assert (R : runs (S0 (write_xml i ++ flat_map write_xml l ++ close) (23 :: 1 :: 4 :: 2 :: 3 :: sk) (clean nn ex d vx)) (S0 (write_xml i ++ flat_map write_xml l ++ close) (13 :: 23 :: 1 :: 4 :: 2 :: 3 :: sk) (clean nn ex d vx))).
    { destruct (xml_head i) as (n & w & ->). cbn [app]. nt [13; 23]. { apply xml_23; [exact Hcf|reflexivity]. } apply runs_refl. }
    pose proof (A1 t (p ++ [nm]) nn ex d vx (flat_map write_xml l ++ close) (23 :: 1 :: 4 :: 2 :: 3 :: sk) ltac:(specialize (L i (or_introl eq_refl)); cbn [List.length]; lia) S G G1 ltac:(intros n I; apply W, in_or_app; auto)) as X. unfold xnext in X.
    destruct (add conv t (p ++ [nm]) (of_xml i)) as [[t1 x]|]; [|eapply runs_fails; [exact R|exact X]]. destruct X as (nn1 & d1 & X & S1 & Gd & F1).
    specialize (IH A2 t1 p nm nn1 (ex ++ map enc x) d1 vx n' rest sk ltac:(intros j I; apply L; right; exact I) L2 S1 Gd G2 ltac:(intros n I; apply W, in_or_app; auto)). fold close in IH.
    destruct (add_all conv t1 (p ++ [nm]) (map of_xml l)) as [[t2 y]|]; [|eapply runs_fails; [exact R|]; eapply runs_fails; [exact X|exact IH]]. destruct IH as (nn2 & d2 & Y & S2 & Gd2 & F2).
    exists nn2, d2. rewrite map_app, (app_assoc ex). split; [|split; [exact S2|split; [exact Gd2|apply Forall_app; auto]]]. eapply runs_trans; [exact R|]. eapply runs_trans; [exact X|exact Y].
Qed.
Lemma xdepth_block n i l n' : forall j, In j (i :: l) -> S (xdepth j) <= xdepth (XBlock n i l n').
Proof. intros j [<-|I]; cbn [xdepth]; apply le_n_S; [clear; induction l as [|x l IH]; cbn; lia|]. induction l as [|x l IH]; [destruct I|]. cbn [fold_right]. destruct I as [<-|I]; [lia|]. specialize (IH I). lia. Qed.
Lemma xblock_item n i l n' : xgoal i -> Forall xgoal l -> xgoal (XBlock n i l n').
Proof.
  intros Ai Al t p nn ex d vx rest sk L S G GI W. pose proof (xdepth_block n i l n') as DB. cbn [of_xml] in GI, W |- *. apply good_block in GI. destruct GI as [Gn GI]. cbn [item_names] in W.
  assert (N : nice U n) by (split; [exact Gn|apply W; left; reflexivity]). assert (NP : Forall (nice U) p) by (apply G, (dir_at H U d t p S)). rewrite add_block. unfold xnext. cbn [write_xml]. unfold tags. cbn [app]. rewrite <- !app_assoc. cbn [app].
  set (close := TTerm "<" :: TTerm "/" :: TStr n' :: TTerm ">" :: rest).
  pose proof (DB i (or_introl eq_refl)) as DI.
  assert (R : runs (S0 (TTerm "<" :: TStr n :: TTerm ">" :: write_xml i ++ flat_map write_xml l ++ close) (13 :: sk) (clean nn ex d vx)) (S0 (TStr n :: TTerm ">" :: write_xml i ++ flat_map write_xml l ++ close) (28 :: 2 :: 3 :: 18 :: 1 :: 4 :: 2 :: 3 :: sk) (clean nn ex d vx))).
  { nt [1; 28; 2; 3; 18; 1; 4; 2; 3]. { apply xml_block; auto; try reflexivity; destruct i as [m [c|] v m'|m j k m']; reflexivity. } tm. apply runs_refl. }
  pose proof (node_db H U inj n t p (clean nn ex d vx) S N) as X. destruct (ent t (p ++ [n])) as [e|] eqn:Q.
  - destruct X as (u' & X). eapply runs_fails; [exact R|]. apply fail_act; [exact XS|cbn; lia|]. change (exe (28 - (START_ACTION Xml - 1))) with (create_node (E := E) H). cbn [hd]. rewrite X. reflexivity.
  - destruct X as (d' & X & S'). change (with_db (clean nn ex d vx) d') with (clean nn ex d' vx) in X.
    assert (R2 : runs (S0 (TStr n :: TTerm ">" :: write_xml i ++ flat_map write_xml l ++ close) (28 :: 2 :: 3 :: 18 :: 1 :: 4 :: 2 :: 3 :: sk) (clean nn ex d vx)) (S0 (write_xml i ++ flat_map write_xml l ++ close) (13 :: 23 :: 1 :: 4 :: 2 :: 3 :: sk) (clean nn ex d' vx))).
    { eapply runs_trans. { apply (run_act Xml exe 8 XS); [cbn; lia|exact X]. } tm. tm. destruct (xml_head i) as (m & w & ->). cbn [app]. nt [13; 23]. { apply xml_18; exact Hcf. } apply runs_refl. }
    inversion GI as [|? ? G1 G2]; subst. cbn [add_all].
    pose proof (Ai (mkdir t p n) (p ++ [n]) nn ex d' vx (flat_map write_xml l ++ close) (23 :: 1 :: 4 :: 2 :: 3 :: sk) ltac:(cbn [List.length]; lia) S' (dirs_mkdir U t p n G N NP) G1 ltac:(intros m I; apply W; right; apply in_or_app; auto)) as Y. unfold xnext in Y.
    destruct (add conv (mkdir t p n) (p ++ [n]) (of_xml i)) as [[t1 x]|]; [|eapply runs_fails; [exact R|]; eapply runs_fails; [exact R2|exact Y]]. destruct Y as (nn1 & d1 & Y & S1 & Gd & F1).
    pose proof (xblock_items l Al t1 p n nn1 (ex ++ map enc x) d1 vx n' rest sk ltac:(intros j I; specialize (DB j (or_intror I)); lia) ltac:(lia) S1 Gd G2 ltac:(intros m I; apply W; right; apply in_or_app; auto)) as Z. cbn zeta in Z. fold close in Z.
    destruct (add_all conv t1 (p ++ [n]) (map of_xml l)) as [[t2 y]|]; [|eapply runs_fails; [exact R|]; eapply runs_fails; [exact R2|]; eapply runs_fails; [exact Y|exact Z]]. destruct Z as (nn2 & d2 & Z & S2 & Gd2 & F2).
    exists nn2, d2. rewrite map_app, (app_assoc ex). split; [|split; [exact S2|split; [exact Gd2|apply Forall_app; auto]]]. eapply runs_trans; [exact R|]. eapply runs_trans; [exact R2|]. eapply runs_trans; [exact Y|exact Z].
Qed.
Lemma xitem_all i : xgoal i. Proof. induction i using xitem_ind2; [apply xleaf_item|apply xblock_item; assumption]. Qed.

(** ** The whole configuration *)
Lemma xitems_end : forall l t p nn ex d vx, (forall i, In i l -> xdepth i <= 99) -> sim d (move_to t p) -> good_dirs U t -> Forall good_item (map of_xml l) -> (forall n, In n (flat_map item_names (map of_xml l)) -> In n U) ->
  match add_all conv t p (map of_xml l) with
  | Some (t', x) => exists nn' d', runs (S0 (flat_map write_xml l) [20; 24] (clean nn ex d vx)) (mk [] 10 [24] (clean nn' (ex ++ map enc x) d' vx) false true) /\ sim d' (move_to t' p) /\ good_dirs U t' /\ Forall (ex_ok U) x
  | None => fails false (S0 (flat_map write_xml l) [20; 24] (clean nn ex d vx))
  end.
Proof.
  induction l as [|i l IH]; intros t p nn ex d vx L S G GI W.
  - cbn [add_all flat_map map]. exists nn, d. cbn [map]. rewrite app_nil_r. split; [|auto]. apply (run_eof Xml exe 8 XS); [cbn; lia|reflexivity|]. intros cf F. rewrite pick_ts. pose proof (eq_refl : ts_of Xml [] 0 = 0) as Z0. pose proof (eq_refl : ts_of Xml [] 1 = 0) as Z1. pose proof (eq_refl : ts_of Xml [] 2 = 0) as Z2. generalize dependent (ts_of Xml []). intros ts Z0 Z1 Z2. chosen.
  - cbn [map] in GI, W. inversion GI as [|? ? G1 G2]; subst. cbn [flat_map] in W. cbn [map add_all flat_map].
    assert (R : runs (S0 (write_xml i ++ flat_map write_xml l) [20; 24] (clean nn ex d vx)) (S0 (write_xml i ++ flat_map write_xml l) [13; 20; 24] (clean nn ex d vx))).
    { destruct (xml_head i) as (n & w & ->). cbn [app]. nt [13; 20]. { apply xml_20; exact Hcf. } apply runs_refl. }
    pose proof (xitem_all i t p nn ex d vx (flat_map write_xml l) [20; 24] ltac:(specialize (L i (or_introl eq_refl)); cbn [List.length]; lia) S G G1 ltac:(intros n I; apply W, in_or_app; auto)) as X. unfold xnext in X.
    destruct (add conv t p (of_xml i)) as [[t1 x]|]; [|eapply runs_fails; [exact R|exact X]]. destruct X as (nn1 & d1 & X & S1 & Gd & F1).
    specialize (IH t1 p nn1 (ex ++ map enc x) d1 vx ltac:(intros j I; apply L; right; exact I) S1 Gd G2 ltac:(intros n I; apply W, in_or_app; auto)).
    destruct (add_all conv t1 p (map of_xml l)) as [[t2 y]|]; [|eapply runs_fails; [exact R|]; eapply runs_fails; [exact X|exact IH]]. destruct IH as (nn2 & d2 & Y & S2 & Gd2 & F2).
    exists nn2, d2. rewrite map_app, (app_assoc ex). split; [|split; [exact S2|split; [exact Gd2|apply Forall_app; auto]]]. eapply runs_trans; [exact R|]. eapply runs_trans; [exact X|exact Y].
Qed.
Theorem xml_ok l t d : (forall i, In i l -> xdepth i <= 99) -> sim d t -> good_dirs U t -> good_config conv text_of vars is_num eval U t (map of_xml l) ->
  match configured conv text_of vars is_num eval t (map of_xml l) with
  | Some t' => result Xml exe 8 (flat_map write_xml l) (cfg_init d) true (fun u => sim (database u) t')
  | None => result Xml exe 8 (flat_map write_xml l) (cfg_init d) false (fun _ => True)
  end.
Proof.
  intros L S G (GI & W & CX). assert (S' : sim d (move_to t (at_ t))) by (destruct t; exact S). unfold configured. destruct l as [|i l].
  - cbn. destruct (parse_ends Xml exe 8 XS [] (cfg_init d) [] (cfg_init d)) as [n X].
    { apply (run_eof Xml exe 8 XS); [cbn; lia|reflexivity|]. intros cf F. rewrite pick_ts. pose proof (eq_refl : ts_of Xml [] 0 = 0) as Z0. pose proof (eq_refl : ts_of Xml [] 1 = 0) as Z1. pose proof (eq_refl : ts_of Xml [] 2 = 0) as Z2. generalize dependent (ts_of Xml []). intros ts Z0 Z1 Z2. chosen. }
    exists n. intros rounds fuel cf A B Cc. specialize (X rounds fuel cf A B Cc). destruct (parse Xml exe rounds fuel cf [] (cfg_init d)) as [[b u]| |]; [|exact X|exact X]. destruct X as [X ->]. split; [exact X|exact S].
  - assert (R : runs (S0 (flat_map write_xml (i :: l)) [11] (cfg_init d)) (S0 (flat_map write_xml (i :: l)) [13; 20; 24] (clean "" [] d init))).
    { cbn [flat_map]. destruct (xml_head i) as (n & w & ->). cbn [app]. nt [12; 24]. { apply xml_11; exact Hcf. } nt [13; 20]. { apply xml_12; exact Hcf. } apply runs_refl. }
    cbn [map] in GI, W. cbn [flat_map] in W, R. inversion GI as [|? ? G1 G2]; subst. cbn [add_all flat_map map] in *.
    pose proof (xitem_all i t (at_ t) "" [] d init (flat_map write_xml l) [20; 24] ltac:(specialize (L i (or_introl eq_refl)); cbn [List.length]; lia) S' G G1 ltac:(intros n I; apply W, in_or_app; auto)) as X. unfold xnext in X.
    destruct (add conv t (at_ t) (of_xml i)) as [[t1 x]|]; [|apply (parse_fails Xml exe 8 XS); eapply runs_fails; [exact R|exact X]]. destruct X as (nn1 & d1 & X & S1 & Gd & F1).
    pose proof (xitems_end l t1 (at_ t) nn1 ([] ++ map enc x) d1 init ltac:(intros j I; apply L; right; exact I) S1 Gd G2 ltac:(intros n I; apply W, in_or_app; auto)) as Y.
    destruct (add_all conv t1 (at_ t) (map of_xml l)) as [[t2 y]|]; [|apply (parse_fails Xml exe 8 XS); eapply runs_fails; [exact R|]; eapply runs_fails; [exact X|exact Y]]. destruct Y as (nn2 & d2 & Y & S2 & Gd2 & F2).
    pose proof (end_ok H U inj text_of vars is_num eval TEof (clean nn2 (([] ++ map enc x) ++ map enc y) d2 init) (x ++ y) t2 (at_ t) S2 ltac:(rewrite map_app; reflexivity) ltac:(apply Forall_app; auto) CX) as Z.
    destruct (evaluate text_of vars is_num eval t2 (x ++ y)) as [t3|].
    + destruct Z as (u' & Z & S3). destruct (parse_ends Xml exe 8 XS (write_xml i ++ flat_map write_xml l) (cfg_init d) [] u') as [n Q].
      { eapply runs_trans; [exact R|]. eapply runs_trans; [exact X|]. eapply runs_trans; [exact Y|]. apply run_act_any; [exact XS|cbn; lia|exact Z]. }
      exists n. intros rounds fuel cf A B Cc. specialize (Q rounds fuel cf A B Cc). destruct (parse Xml exe rounds fuel cf _ (cfg_init d)) as [[b u]| |]; [|exact Q|exact Q]. destruct Q as [Q ->]. split; [exact Q|exact S3].
    + destruct Z as (u' & Z). apply (parse_fails Xml exe 8 XS). eapply runs_fails; [exact R|]. eapply runs_fails; [exact X|]. eapply runs_fails; [exact Y|]. apply fail_act_any; [exact XS|cbn; lia|]. change (exe (24 - (START_ACTION Xml - 1))) with (end_ H text_of vars is_num eval). cbn [hd]. rewrite Z. reflexivity.
Qed.
End Parse.
