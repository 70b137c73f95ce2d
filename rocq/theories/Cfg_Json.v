(** C44: the parse of JSON. *)
From Coq Require Import String Ascii DecimalString.
From Verif Require Import Base Paths ConfigDB_Model ConfigDB_Spec ConfigDB_Proofs Slk_Model Slk_Proofs Cfg_Model Cfg_Spec Cfg_Values Cfg_Db Cfg_Standard.
Open Scope string_scope. Open Scope nat_scope. Open Scope list_scope.

Section Choices.
Notation P := (pick_t Json).
Lemma json_11 cf ts k : 8 <= cf -> k = 1 \/ k = 7 -> P cf 11 k ts = Ret (Some [12; 29]). Proof. intros F [-> | ->]; chosen. Qed.
Lemma json_12 cf ts k : 8 <= cf -> k = 1 \/ k = 7 -> P cf 12 k ts = Ret (Some [13; 23]). Proof. intros F [-> | ->]; chosen. Qed.
Lemma json_leaf cf ts : 8 <= cf -> ts 0 = 2 -> ts 1 = 1 \/ ts 1 = 9 -> P cf 13 1 ts = Ret (Some [30; 1; 2; 14; 31]). Proof. intros F A [D|D]; chosen. Qed.
Lemma json_leaf_v cf ts : 8 <= cf -> ts 0 = 2 -> ts 1 = 5 -> ts 2 = 1 \/ ts 2 = 5 \/ ts 2 = 9 -> P cf 13 1 ts = Ret (Some [30; 1; 2; 14; 31]). Proof. intros F A B [D|[D|D]]; chosen. Qed.
Lemma json_cast cf ts : 8 <= cf -> ts 0 = 2 -> ts 1 = 3 -> P cf 13 1 ts = Ret (Some [30; 1; 2; 3; 32; 1; 4; 14; 31]). Proof. intros F A B. chosen. Qed.
Lemma json_block cf ts : 8 <= cf -> ts 0 = 2 -> ts 1 = 7 -> P cf 13 1 ts = Ret (Some [33; 1; 2; 19]). Proof. intros F A B. chosen. Qed.
Lemma json_blocks cf ts : 8 <= cf -> ts 0 = 2 -> ts 1 = 5 -> ts 2 = 7 -> P cf 13 1 ts = Ret (Some [34; 1; 2; 16]). Proof. intros F A B D. chosen. Qed.
Lemma json_items cf ts : 8 <= cf -> P cf 13 7 ts = Ret (Some [21]). Proof. intros F. chosen. Qed.
Lemma json_16 cf ts : 8 <= cf -> P cf 16 5 ts = Ret (Some [5; 20; 24; 6]). Proof. intros F. chosen. Qed.
Lemma json_19 cf ts : 8 <= cf -> P cf 19 7 ts = Ret (Some [7; 13; 27; 8]). Proof. intros F. chosen. Qed.
Lemma json_20 cf ts : 8 <= cf -> P cf 20 7 ts = Ret (Some [40; 19]). Proof. intros F. chosen. Qed.
Lemma json_21 cf ts : 8 <= cf -> P cf 21 7 ts = Ret (Some [7; 13; 28; 8]). Proof. intros F. chosen. Qed.
Lemma json_23 cf ts k : 8 <= cf -> k = 1 \/ k = 7 -> P cf 23 k ts = Ret (Some [13; 23]). Proof. intros F [-> | ->]; chosen. Qed.
Lemma json_24 cf ts : 8 <= cf -> P cf 24 7 ts = Ret (Some [20; 24]). Proof. intros F. chosen. Qed.
Lemma json_24e cf ts : 8 <= cf -> P cf 24 6 ts = Ret (Some [36]). Proof. intros F. chosen. Qed.
Lemma json_more cf ts k N : 8 <= cf -> k = 1 \/ k = 7 -> N = 27 \/ N = 28 -> P cf N k ts = Ret (Some [13; N]). Proof. intros F [-> | ->] [-> | ->]; chosen. Qed.
Lemma json_27e cf ts : 8 <= cf -> P cf 27 8 ts = Ret (Some [39]). Proof. intros F. chosen. Qed.
Lemma json_28e cf ts : 8 <= cf -> P cf 28 8 ts = Ret (Some []). Proof. intros F. chosen. Qed.
End Choices.

Section JInd.
Variables (P : jitem -> Prop) (Q : jblock -> Prop).
Hypothesis PL : forall n c v, P (JLeaf n c v).
Hypothesis PB : forall n b, Q b -> P (JBlock n b).
Hypothesis PV : forall n b l, Q b -> Forall Q l -> P (JBlocks n b l).
Hypothesis PI : forall b, Q b -> P (JItems b).
Hypothesis QB : forall i l, P i -> Forall P l -> Q (JB i l).
Fixpoint jitem_ind2 (i : jitem) : P i :=
  match i with
  | JLeaf n c v => PL n c v
  | JBlock n b => PB n b (jblock_ind2 b)
  | JBlocks n b l => PV n b l (jblock_ind2 b) ((fix f (l : list jblock) : Forall Q l := match l with [] => Forall_nil Q | x :: r => Forall_cons x (jblock_ind2 x) (f r) end) l)
  | JItems b => PI b (jblock_ind2 b)
  end
with jblock_ind2 (b : jblock) : Q b :=
  match b with JB i l => QB i l (jitem_ind2 i) ((fix f (l : list jitem) : Forall P l := match l with [] => Forall_nil P | x :: r => Forall_cons x (jitem_ind2 x) (f r) end) l) end.
End JInd.
Lemma of_json_some : forall i, of_json i <> [].
Proof.
  apply (jitem_ind2 _ (fun b => of_jblock b <> [])).
  - discriminate.
  - intros n b B. cbn [of_json]. destruct (of_jblock b); [congruence|discriminate].
  - intros n b l B _. cbn [of_json numbered]. destruct (of_jblock b); [congruence|discriminate].
  - intros b B. exact B.
  - intros i l A _. cbn [of_jblock]. destruct (of_json i); [congruence|discriminate].
Qed.
Lemma of_jblock_some b : of_jblock b <> []. Proof. destruct b as [i l]. cbn [of_jblock]. pose proof (of_json_some i). destruct (of_json i); [congruence|discriminate]. Qed.

Section Parse.
Context {E : Type} (H : string -> Z) (U : list string) (conv : string -> string -> option E) (text_of : value E -> option string) (vars : string -> option (list string)) (is_num : string -> bool)
        (eval : string -> string -> list (value E) -> option (value E)).
Hypothesis inj : distinct_hashes H U.
Hypothesis idx : In "Idx" U.
Notation value := (value E). Notation sim := (ConfigDB_Proofs.sim (V := value) H U). Notation simv := (ConfigDB_Proofs.sim (V := nat) H U).
Notation exe := (json_execute H conv text_of vars is_num eval).
Notation runs := (runs Json exe 8). Notation fails := (fails Json exe 8). Notation S0 := (S0 Json).
Lemma JS : 1 <= START_SYMBOL Json <= START_ACTION Json. Proof. cbn. lia. Qed.
Lemma json_value v ty nn he ex d vx rest sk : List.length sk <= 503 -> let u := Cs ty nn 0 0 0 None 0 0 he ex d vx in
  match value_of conv ty v with
  | Some x => exists u', runs (S0 (write_val "[" "]" v ++ rest) (14 :: sk) u) (S0 rest sk u') /\ filled x u' /\ kept u u'
  | None => fails false (S0 (write_val "[" "]" v ++ rest) (14 :: sk) u)
  end.
Proof.
  apply (value_tokens conv Json exe 8 14 15 17 18 22 25 26 1 9 5 6 35 37 38 "[" "]" JS).
  all: try reflexivity.
  1-3: intros N I; cbn [In] in I; cbn; intuition lia.
  all: intros cf l F A; try intro B; rewrite pick_ts; try (destruct A as [A|A]); try (destruct B as [B|B]); rewrite A; try (change (ts_of Json l 0 = 1) in B); try (change (ts_of Json l 0 = 9) in B); try (change (ts_of Json l 0 = 5) in B); set (ts := ts_of Json l) in *; clearbody ts; clear A; chosen.
Qed.

(** ** The indices of the vectors of blocks *)
Definition quiet (tv : tree nat) : Prop := forall n, ent tv (at_ tv ++ [n]) <> None -> n = "Idx".
Definition same (tv tv' : tree nat) : Prop := at_ tv' = at_ tv /\ forall p, ent tv' p = ent tv p.
Lemma vector_db n vx tv (u : cst E) : simv vx tv -> quiet tv -> nice U n -> n <> "Idx" -> vectorStructureIdx u = vx ->
  exists vx', create_node_v H (TStr n) u = Ret (with_vec u vx', false) /\ simv vx' (set (move_to (mkdir tv (at_ tv) n) (at_ tv ++ [n])) (at_ tv ++ [n]) "Idx" 0).
Proof.
  intros S Q [G I] N Y. unfold create_node_v, call. rewrite Y. cbn [tdata].
  assert (Z : ent tv (at_ tv ++ [n]) = None) by (destruct (ent tv (at_ tv ++ [n])) eqn:X; [elim N; apply Q; congruence|reflexivity]).
  destruct (step_ok H U inj vx tv (SCreateRelative [n]) S) as (d & X & S'); [split; [discriminate|repeat constructor; apply G]|intros m [<-|[]]; exact I| |].
  { intros a b v Ea A B. destruct a as [|? [|]]; [congruence| |discriminate]. injection Ea as -> <-. congruence. }
  cbn [sstep ConfigDB_Spec.call join] in X, S'. unfold ConfigDB_Spec.mk in X, S'. rewrite Z in X, S'. cbn [fst snd mkdirs] in X, S'. rewrite X. cbn [bind].
  destruct (step_ok H U inj d _ (SWrite "Idx" 0) S' Logic.I ltac:(intros m [<-|[]]; exact idx) Logic.I) as (d2 & X2 & S2). cbn [sstep ConfigDB_Spec.call String.eqb fst snd at_ move_to] in X2, S2. rewrite X2. cbn [bind andb negb]. exists d2. split; [reflexivity|exact S2].
Qed.
Lemma element_db tk t p q n k tv (u : cst E) : sim (database u) (move_to t p) -> simv (vectorStructureIdx u) tv -> at_ tv = q ++ [n] -> ent tv ((q ++ [n]) ++ ["Idx"]) = Some (Val k) -> nice U (element n k) ->
  match ent t (p ++ [element n k]) with
  | Some _ => exists u', create_node_ve H tk u = Ret (u', true)
  | None => exists d' vx', create_node_ve H tk u = Ret (with_vec (with_db u d') vx', false) /\ sim d' (move_to (mkdir t p (element n k)) (p ++ [element n k])) /\ simv vx' (set tv (q ++ [n]) "Idx" (S k))
  end.
Proof.
  intros S V A R N. unfold create_node_ve, read.
  destruct (step_ok H U inj _ tv (SRead "Idx") V Logic.I ltac:(intros m [<-|[]]; exact idx) Logic.I) as (v1 & X & _). cbn [sstep ConfigDB_Spec.call fst] in X. rewrite A, R in X. rewrite X. cbn [bind]. clear X v1.
  destruct (step_ok H U inj _ tv SGetName V Logic.I ltac:(intros m []) Logic.I) as (v1 & X & _). cbn [sstep ConfigDB_Spec.call fst] in X. rewrite A, rev_app_distr in X. cbn [rev app] in X. rewrite X. clear X v1.
  fold (element n k). pose proof (node_db H U inj (element n k) t p u S N) as X. unfold create_node, must in X. cbn [tdata] in X.
  destruct (step_ok H U inj _ tv (SWrite "Idx" (Datatypes.S k)) V Logic.I ltac:(intros m [<-|[]]; exact idx) Logic.I) as (v1 & Y & V'). cbn [sstep ConfigDB_Spec.call String.eqb fst snd] in Y, V'. rewrite A in V'.
  unfold call in X |- *. rewrite Y. destruct (ent t (p ++ [element n k])).
  - destruct X as (u' & X). destruct (step H (database u) _) as [[[b| | |] d]|]; try discriminate. cbn [bind] in X |- *. destruct b; [discriminate|]. eexists. reflexivity.
  - destruct X as (d' & X & S'). destruct (step H (database u) _) as [[[b| | |] d]|]; try discriminate. cbn [bind] in X |- *. destruct b; [|discriminate]. assert (d = d') by (injection X; intros; subst; reflexivity). subst d. cbn. exists d', v1. split; [reflexivity|]. split; [exact S'|exact V'].
Qed.
Lemma vector_end_db tk q n tv (u : cst E) : simv (vectorStructureIdx u) tv -> at_ tv = q ++ [n] -> ent tv (q ++ [n]) <> None -> In n U ->
  exists vx', end_vector_b H tk u = Ret (with_vec u vx', false) /\ simv vx' (del (move_to tv q) q n).
Proof.
  intros V A X I. unfold end_vector_b.
  destruct (step_ok H U inj _ tv SGetName V Logic.I ltac:(intros m []) Logic.I) as (v1 & Y & _). cbn [sstep ConfigDB_Spec.call fst] in Y. rewrite A, rev_app_distr in Y. cbn [rev app] in Y. rewrite Y. clear Y v1.
  destruct (step_ok H U inj _ tv (SMoveToAncestor 1) V Logic.I ltac:(intros m []) Logic.I) as (v1 & Y & V1). cbn [sstep ConfigDB_Spec.call] in Y, V1. rewrite A, app_length in Y, V1. cbn [List.length] in Y, V1. replace ((1 <=? 1) && (1 <=? List.length q + 1)) with true in Y, V1 by (symmetry; apply andb_true_iff; split; apply Nat.leb_le; lia). cbn [fst snd] in Y, V1.
  replace (List.length q + 1 - 1) with (List.length q) in V1 by lia. rewrite firstn_app, Nat.sub_diag, firstn_all in V1. cbn [firstn] in V1. rewrite app_nil_r in V1. unfold call. rewrite Y. cbn [bind].
  destruct (step_ok H U inj v1 (move_to tv q) (SDelete n) V1 Logic.I ltac:(intros m [<-|[]]; exact I) Logic.I) as (v2 & Z & V2). cbn [sstep ConfigDB_Spec.call at_ move_to ent] in Z, V2. destruct (ent tv (q ++ [n])) as [e|]; [|congruence]. cbn [fst snd] in Z, V2. rewrite Z. cbn [bind]. exists v2. split; [reflexivity|exact V2].
Qed.

Ltac nt body := eapply runs_trans; [apply (run_nt Json exe 8 JS _ body); [cbn; lia|intros cf Hcf; rewrite pick_ts|cbn [List.length] in *; lia]|]; cbn [app].
Ltac tm := eapply runs_trans; [apply (run_tm Json exe 8 JS); [cbn; lia|reflexivity]|].
Ltac act := eapply runs_trans; [apply (run_act Json exe 8 JS); [cbn; lia|reflexivity]|].
(** From symbols [s1] on [l] to symbols [s2] on [rest], with the outcome [o] of the specification, in directory [p'] at the end *)
Definition jnext (p' : path) ex vx (tv : tree nat) (l rest : list token) (s1 s2 : list nat) (nn : string) (d : db value) (o : option (tree value * list (string * path * string))) : Prop :=
  match o with
  | Some (t', x) => exists nn' d' vx' tv', runs (S0 l s1 (clean nn ex d vx)) (S0 rest s2 (clean nn' (ex ++ map enc x) d' vx')) /\ sim d' (move_to t' p') /\ good_dirs U t' /\ Forall (ex_ok U) x /\ simv vx' tv' /\ same tv tv'
  | None => fails false (S0 l s1 (clean nn ex d vx))
  end.
Lemma jleaf_end t p x u rest sk : sim (database u) (move_to t p) -> good_dirs U t -> In (nodeName u) U -> filled x u -> handleMathExpr u = false ->
  match put_value t p (nodeName u) (Some x) with
  | Some t' => exists d', runs (S0 rest (31 :: sk) u) (S0 rest sk (clean (nodeName u) (exprs u) d' (vectorStructureIdx u))) /\ sim d' (move_to t' p) /\ good_dirs U t'
  | None => fails false (S0 rest (31 :: sk) u)
  end.
Proof.
  intros S G I F Hm. pose proof (leaf_db H U inj (hd TEof rest) t p x u S I F) as X. rewrite Hm in X. pose proof (put_value_some t p (nodeName u) x) as Y. destruct (put_value t p (nodeName u) (Some x)) as [t'|].
  - destruct X as (d' & X & S'). destruct Y as [_ ->]. exists d'. split; [apply (run_act Json exe 8 JS); [cbn; lia|exact X]|]. split; [exact S'|apply dirs_set; exact G].
  - destruct X as (u' & X). apply fail_act; [exact JS|cbn; lia|]. change (exe (31 - (START_ACTION Json - 1))) with (add_leaf (E := E) H). rewrite X. reflexivity.
Qed.
Definition known (l : list item) (vn : list string) : Prop := Forall good_item l /\ (forall n, In n (flat_map item_names l) -> In n U) /\ (forall n, In n vn -> nice U n /\ n <> "Idx").
Definition jgoal (i : jitem) : Prop := forall t p nn ex d vx tv rest sk, List.length sk + 4 * jdepth i <= 498 -> sim d (move_to t p) -> good_dirs U t -> simv vx tv -> quiet tv -> known (of_json i) (vector_names i) ->
  jnext p ex vx tv (write_json i ++ rest) rest (13 :: sk) sk nn d (add_all conv t p (of_json i)).
(** A block after its name: from N19 (the directory has been made and is left) or from N21. *)
Definition jbgoal (b : jblock) : Prop := forall t p nn ex d vx tv rest sk, List.length sk + 4 * jbdepth b <= 498 - 2 -> sim d (move_to t p) -> good_dirs U t -> simv vx tv -> quiet tv -> known (of_jblock b) (block_vector_names b) ->
  jnext p ex vx tv (write_jblock b ++ rest) rest (21 :: sk) sk nn d (add_all conv t p (of_jblock b)) /\
  forall p0 m, p = p0 ++ [m] -> jnext p0 ex vx tv (write_jblock b ++ rest) rest (19 :: sk) sk nn d (add_all conv t p (of_jblock b)).
Lemma known_app a b v w : known (a ++ b) (v ++ w) -> known a v /\ known b w.
Proof. intros (A & B & D). apply Forall_app in A. rewrite flat_map_app in B. split; (split; [tauto|]); (split; [intros n I; apply B, in_or_app; auto|intros n I; apply D, in_or_app; auto]). Qed.
Lemma add_all_app a : forall b t p, add_all conv t p (a ++ b) = match add_all conv t p a with None => None | Some (t1, x) => match add_all conv t1 p b with None => None | Some (t2, y) => Some (t2, x ++ y) end end.
Proof.
  induction a as [|i a IH]; intros b t p; cbn [app add_all]; [destruct (add_all conv t p b) as [[? ?]|]; reflexivity|]. destruct (add conv t p i) as [[t1 x]|]; [|reflexivity]. rewrite IH. destruct (add_all conv t1 p a) as [[t2 y]|]; [|reflexivity]. destruct (add_all conv t2 p b) as [[t3 z]|]; [|reflexivity]. rewrite app_assoc. reflexivity.
Qed.
Lemma same_quiet tv tv' : same tv tv' -> quiet tv -> quiet tv'. Proof. intros [A B] Q n X. rewrite A, B in X. apply Q. exact X. Qed.
Lemma same_trans a b c : same a b -> same b c -> same a c. Proof. intros [A B] [X Y]. split; [congruence|]. intro p. rewrite Y. apply B. Qed.
Lemma same_refl a : same a a. Proof. split; auto. Qed.

Lemma jleaf_item n c v : jgoal (JLeaf n c v).
Proof.
  intros t p nn ex d vx tv rest sk L S G V Q (_ & W & _). cbn [jdepth] in L. assert (In n U) as I by (apply W; left; reflexivity). cbn [of_json add_all add]. set (ty := match c with Some ty => ty | None => "string" end).
  assert (R : runs (S0 (write_json (JLeaf n c v) ++ rest) (13 :: sk) (clean nn ex d vx)) (S0 (write_val "[" "]" v ++ rest) (14 :: 31 :: sk) (Cs ty n 0 0 0 None 0 0 false ex d vx))).
  { unfold ty. destruct c as [ty'|]; cbn [write_json app].
    - nt [30; 1; 2; 3; 32; 1; 4; 14; 31]. { apply json_cast; auto; reflexivity. } act. tm. tm. tm. act. tm. tm. apply runs_refl.
    - nt [30; 1; 2; 14; 31]. { destruct v as [[?|?]|[[?|?] ?]|[[?|?] ?] ?]; first [apply json_leaf; cbn; auto; fail|apply json_leaf_v; cbn; auto]. } act. tm. tm. apply runs_refl. }
  pose proof (json_value v ty n false ex d vx rest (31 :: sk) ltac:(cbn [List.length]; lia)) as X. cbn zeta in X. destruct (value_of conv ty v) as [x|].
  - destruct X as (u' & X & F & K1 & K2 & K3 & K4 & K5). cbn in K1, K2, K3, K4, K5. pose proof (jleaf_end t p x u' rest sk ltac:(rewrite K4; exact S) G ltac:(rewrite K1; exact I) F K2) as Z. rewrite K1, K3, K5 in Z. destruct (put_value t p n (Some x)) as [t'|].
    + destruct Z as (d' & Z & S' & G'). exists n, d', vx, tv. cbn [app map]. rewrite app_nil_r. split; [|split; [exact S'|split; [exact G'|split; [constructor|split; [exact V|apply same_refl]]]]]. eapply runs_trans; [exact R|]. eapply runs_trans; [exact X|exact Z].
    + eapply runs_fails; [exact R|]. eapply runs_fails; [exact X|exact Z].
  - rewrite put_value_none. eapply runs_fails; [exact R|exact X].
Qed.
Lemma json_head i : exists k l, write_json i = k :: l /\ (token_type Json k = 1 \/ token_type Json k = 7).
Proof. destruct i as [n [c|] v|n b|n b l|[i l]]; eexists; eexists; (split; [reflexivity|]); auto. Qed.
(** The items of a block after the first *)
Lemma jitems_more : forall l, Forall jgoal l -> forall N t p nn ex d vx tv rest sk, N = 27 \/ N = 28 -> (forall i, In i l -> List.length sk + 1 + 4 * jdepth i <= 498) -> List.length sk <= 500 -> sim d (move_to t p) -> good_dirs U t -> simv vx tv -> quiet tv ->
  known (flat_map of_json l) (flat_map vector_names l) ->
  jnext p ex vx tv (flat_map write_json l ++ TTerm "}" :: rest) (TTerm "}" :: rest) (N :: sk) (N :: sk) nn d (add_all conv t p (flat_map of_json l)).
Proof.
  induction l as [|i l IH]; intros A N t p nn ex d vx tv rest sk HN L L2 S G V Q K.
  - cbn [flat_map app add_all]. exists nn, d, vx, tv. cbn [map]. rewrite app_nil_r. split; [apply runs_refl|]. split; [exact S|]. split; [exact G|]. split; [constructor|]. split; [exact V|apply same_refl].
  - inversion A as [|? ? A1 A2]; subst. cbn [flat_map] in K |- *. apply known_app in K. destruct K as [K1 K2]. rewrite add_all_app, <- app_assoc.
    assert (R : runs (S0 (write_json i ++ flat_map write_json l ++ TTerm "}" :: rest) (N :: sk) (clean nn ex d vx)) (S0 (write_json i ++ flat_map write_json l ++ TTerm "}" :: rest) (13 :: N :: sk) (clean nn ex d vx))).
    { destruct (json_head i) as (k & w & -> & T). cbn [app]. eapply runs_trans; [apply (run_nt Json exe 8 JS N [13; N]); [destruct HN; subst; cbn; lia|intros cf Hcf; rewrite pick_ts; apply json_more; assumption|cbn [List.length]; lia]|]. apply runs_refl. }
    pose proof (A1 t p nn ex d vx tv (flat_map write_json l ++ TTerm "}" :: rest) (N :: sk) ltac:(specialize (L i (or_introl eq_refl)); cbn [List.length]; lia) S G V Q K1) as X. unfold jnext in X.
    destruct (add_all conv t p (of_json i)) as [[t1 x]|]; [|eapply runs_fails; [exact R|exact X]]. destruct X as (nn1 & d1 & vx1 & tv1 & X & S1 & G1 & F1 & V1 & M1).
    specialize (IH A2 N t1 p nn1 (ex ++ map enc x) d1 vx1 tv1 rest sk HN ltac:(intros j I; apply L; right; exact I) L2 S1 G1 V1 (same_quiet _ _ M1 Q) K2). unfold jnext in IH.
    destruct (add_all conv t1 p (flat_map of_json l)) as [[t2 y]|]; [|eapply runs_fails; [exact R|]; eapply runs_fails; [exact X|exact IH]]. destruct IH as (nn2 & d2 & vx2 & tv2 & Y & S2 & G2 & F2 & V2 & M2).
    exists nn2, d2, vx2, tv2. rewrite map_app, (app_assoc ex). split; [|split; [exact S2|split; [exact G2|split; [apply Forall_app; auto|split; [exact V2|exact (same_trans _ _ _ M1 M2)]]]]]. eapply runs_trans; [exact R|]. eapply runs_trans; [exact X|exact Y].
Qed.
Lemma jbdepth_in i l : forall j, In j (i :: l) -> jdepth j <= jbdepth (JB i l).
Proof. intros j [<-|I]; cbn [jbdepth]; [clear; induction l as [|x l IH]; cbn; lia|]. induction l as [|x l IH]; [destruct I|]. cbn [fold_right]. destruct I as [<-|I]; [lia|]. specialize (IH I). lia. Qed.
Lemma jblock_all i l : jgoal i -> Forall jgoal l -> jbgoal (JB i l).
Proof.
  intros A Al t p nn ex d vx tv rest sk L S G V Q K. pose proof (jbdepth_in i l) as DB. pose proof (DB i (or_introl eq_refl)) as DI. cbn [of_jblock block_vector_names] in K |- *. apply known_app in K. destruct K as [K1 K2]. cbn [write_jblock]. unfold braces. cbn [app]. rewrite <- !app_assoc. cbn [app].
  assert (B : forall N0 N, (N0 = 19 /\ N = 27 \/ N0 = 21 /\ N = 28) ->
    jnext p ex vx tv (TTerm "{" :: write_json i ++ flat_map write_json l ++ TTerm "}" :: rest) (TTerm "}" :: rest) (N0 :: sk) (N :: 8 :: sk) nn d (add_all conv t p (of_json i ++ flat_map of_json l))).
  { intros N0 N HN. rewrite add_all_app.
    assert (R : runs (S0 (TTerm "{" :: write_json i ++ flat_map write_json l ++ TTerm "}" :: rest) (N0 :: sk) (clean nn ex d vx)) (S0 (write_json i ++ flat_map write_json l ++ TTerm "}" :: rest) (13 :: N :: 8 :: sk) (clean nn ex d vx))).
    { eapply runs_trans; [apply (run_nt Json exe 8 JS N0 [7; 13; N; 8]); [destruct HN as [[-> ->]|[-> ->]]; cbn; lia|intros cf Hcf; rewrite pick_ts; destruct HN as [[-> ->]|[-> ->]]; [apply json_19|apply json_21]; exact Hcf|cbn [List.length]; lia]|]. cbn [app]. tm. apply runs_refl. }
    pose proof (A t p nn ex d vx tv (flat_map write_json l ++ TTerm "}" :: rest) (N :: 8 :: sk) ltac:(cbn [List.length]; lia) S G V Q K1) as X. unfold jnext in X.
    destruct (add_all conv t p (of_json i)) as [[t1 x]|]; [|eapply runs_fails; [exact R|exact X]]. destruct X as (nn1 & d1 & vx1 & tv1 & X & S1 & G1 & F1 & V1 & M1).
    pose proof (jitems_more l Al N t1 p nn1 (ex ++ map enc x) d1 vx1 tv1 rest (8 :: sk) ltac:(clear - HN; intuition) ltac:(intros j I; specialize (DB j (or_intror I)); cbn [List.length]; lia) ltac:(cbn [List.length]; lia) S1 G1 V1 (same_quiet _ _ M1 Q) K2) as Y. unfold jnext in Y.
    destruct (add_all conv t1 p (flat_map of_json l)) as [[t2 y]|]; [|eapply runs_fails; [exact R|]; eapply runs_fails; [exact X|exact Y]]. destruct Y as (nn2 & d2 & vx2 & tv2 & Y & S2 & G2 & F2 & V2 & M2).
    exists nn2, d2, vx2, tv2. rewrite map_app, (app_assoc ex). split; [|split; [exact S2|split; [exact G2|split; [apply Forall_app; auto|split; [exact V2|exact (same_trans _ _ _ M1 M2)]]]]]. eapply runs_trans; [exact R|]. eapply runs_trans; [exact X|exact Y]. }
  split.
  - specialize (B 21 28 ltac:(auto)). unfold jnext in *. destruct (add_all conv t p _) as [[t1 x]|]; [|exact B]. destruct B as (nn1 & d1 & vx1 & tv1 & X & R). exists nn1, d1, vx1, tv1. split; [|exact R]. eapply runs_trans; [exact X|]. nt (@nil nat). { apply json_28e. exact Hcf. } tm. apply runs_refl.
  - intros p0 m ->. specialize (B 19 27 ltac:(auto)). unfold jnext in *. destruct (add_all conv t _ _) as [[t1 x]|]; [|exact B]. destruct B as (nn1 & d1 & vx1 & tv1 & X & S1 & R).
    destruct (end_db H U inj (TTerm "}") t1 p0 m (clean nn1 (ex ++ map enc x) d1 vx1) S1) as (d2 & Y & S2). exists nn1, d2, vx1, tv1. split; [|split; [exact S2|exact R]]. eapply runs_trans; [exact X|]. nt [39]. { apply json_27e. exact Hcf. }
    eapply runs_trans. { apply (run_act Json exe 8 JS); [cbn; lia|exact Y]. } tm. apply runs_refl.
Qed.

(** Named blocks and vectors of blocks *)
Lemma add_block_list t p n l : l <> [] -> add_all conv t p (block n l) = match ent t (p ++ [n]) with Some _ => None | None => add_all conv (mkdir t p n) (p ++ [n]) l end.
Proof. intro N. destruct l as [|i l]; [congruence|]. cbn [block]. assert (X : add_all conv t p [Block n i l] = match add conv t p (Block n i l) with Some (t1, x) => Some (t1, x ++ []) | None => None end) by reflexivity. rewrite X, add_block. clear X. destruct (ent t (p ++ [n])); [reflexivity|]. destruct (add_all conv (mkdir t p n) (p ++ [n]) (i :: l)) as [[t1 x]|]; [|reflexivity]. rewrite app_nil_r. reflexivity. Qed.
Lemma known_block n l vn : l <> [] -> known (block n l) vn -> nice U n /\ known l vn.
Proof.
  intros N (A & B & D). destruct l as [|i l]; [congruence|]. cbn [block] in *. inversion A as [|? ? A1 _]; subst. apply good_block in A1. destruct A1 as [Gn GI]. cbn [flat_map item_names app] in B. rewrite app_nil_r in B.
  split; [split; [exact Gn|apply B; left; reflexivity]|]. split; [exact GI|]. split; [|exact D]. intros m I. apply B. right. exact I.
Qed.
Lemma jblock_item n b : jbgoal b -> jgoal (JBlock n b).
Proof.
  intros A t p nn ex d vx tv rest sk L S G V Q K. cbn [jdepth] in L. cbn [of_json vector_names] in K |- *. apply known_block in K; [|apply of_jblock_some]. destruct K as [N K]. rewrite add_block_list by apply of_jblock_some. cbn [write_json app].
  assert (NP : Forall (nice U) p) by (apply G, (dir_at H U d t p S)).
  assert (R : runs (S0 (TStr n :: TTerm ":" :: write_jblock b ++ rest) (13 :: sk) (clean nn ex d vx)) (S0 (TStr n :: TTerm ":" :: write_jblock b ++ rest) (33 :: 1 :: 2 :: 19 :: sk) (clean nn ex d vx))).
  { nt [33; 1; 2; 19]. { destruct b as [i l]. apply json_block; auto; reflexivity. } apply runs_refl. }
  pose proof (node_db H U inj n t p (clean nn ex d vx) S N) as X. destruct (ent t (p ++ [n])) as [e|] eqn:Y.
  - destruct X as (u' & X). eapply runs_fails; [exact R|]. apply fail_act; [exact JS|cbn; lia|]. change (exe (33 - (START_ACTION Json - 1))) with (create_node (E := E) H). cbn [hd]. rewrite X. reflexivity.
  - destruct X as (d' & X & S'). change (with_db (clean nn ex d vx) d') with (clean nn ex d' vx) in X.
    destruct (A (mkdir t p n) (p ++ [n]) nn ex d' vx tv rest sk ltac:(lia) S' (dirs_mkdir U t p n G N NP) V Q K) as [_ B]. specialize (B p n eq_refl). unfold jnext in *.
    assert (R2 : runs (S0 (TStr n :: TTerm ":" :: write_jblock b ++ rest) (33 :: 1 :: 2 :: 19 :: sk) (clean nn ex d vx)) (S0 (write_jblock b ++ rest) (19 :: sk) (clean nn ex d' vx))).
    { eapply runs_trans. { apply (run_act Json exe 8 JS); [cbn; lia|exact X]. } tm. tm. apply runs_refl. }
    destruct (add_all conv (mkdir t p n) (p ++ [n]) (of_jblock b)) as [[t1 x]|]; [|eapply runs_fails; [exact R|]; eapply runs_fails; [exact R2|exact B]].
    destruct B as (nn1 & d1 & vx1 & tv1 & X1 & B). exists nn1, d1, vx1, tv1. split; [|exact B]. eapply runs_trans; [exact R|]. eapply runs_trans; [exact R2|exact X1].
Qed.
Lemma jitems_item b : jbgoal b -> jgoal (JItems b).
Proof.
  intros A t p nn ex d vx tv rest sk L S G V Q K. cbn [jdepth] in L. cbn [of_json vector_names] in K |- *. destruct (A t p nn ex d vx tv rest sk ltac:(lia) S G V Q K) as [B _]. unfold jnext in *.
  assert (R : runs (S0 (write_json (JItems b) ++ rest) (13 :: sk) (clean nn ex d vx)) (S0 (write_jblock b ++ rest) (21 :: sk) (clean nn ex d vx))). { destruct b as [i l]. cbn [write_json write_jblock]. unfold braces. cbn [app]. nt [21]. { apply json_items. exact Hcf. } apply runs_refl. }
  destruct (add_all conv t p (of_jblock b)) as [[t1 x]|]; [|eapply runs_fails; [exact R|exact B]]. destruct B as (nn1 & d1 & vx1 & tv1 & X1 & B). exists nn1, d1, vx1, tv1. split; [|exact B]. eapply runs_trans; [exact R|exact X1].
Qed.
(** The index of a vector while its elements are read: [tv0] is the tree before the vector. *)
Definition in_vector (tv0 : tree nat) (n : string) (k : nat) (tv : tree nat) : Prop :=
  at_ tv = at_ tv0 ++ [n] /\ ent tv (at_ tv0 ++ [n]) = Some Dir /\ ent tv ((at_ tv0 ++ [n]) ++ ["Idx"]) = Some (Val k) /\ quiet tv /\ forall p, (forall r, p <> (at_ tv0 ++ [n]) ++ r) -> ent tv p = ent tv0 p.
Lemma in_vector_next tv0 n k tv : in_vector tv0 n k tv -> in_vector tv0 n (S k) (set tv (at_ tv0 ++ [n]) "Idx" (S k)).
Proof.
  unfold in_vector. intros (A & B & D & Q & F). set (q := at_ tv0 ++ [n]) in *. split; [exact A|]. split; [|split; [|split]].
  - destruct (ent_set_cases tv q "Idx" (S k) q) as [(r & X & _)|[_ X]]; [|rewrite X; exact B]. exfalso. rewrite <- (app_nil_r q) in X at 1. apply app_inv_head in X. discriminate.
  - destruct (ent_set_cases tv q "Idx" (S k) (q ++ ["Idx"])) as [(r & X & Y)|[X _]]; [|elim (X []); reflexivity]. apply app_inv_head in X. injection X as <-. exact Y.
  - intros m X. cbn [at_ set] in X. rewrite A in X. destruct (ent_set_cases tv q "Idx" (S k) (q ++ [m])) as [(r & Y & _)|[_ Y]]; [apply app_inv_head in Y; congruence|]. apply Q. rewrite A. congruence.
  - intros p X. destruct (ent_set_cases tv q "Idx" (S k) p) as [(r & Y & _)|[_ Y]]; [elim (X ("Idx" :: r)); exact Y|]. rewrite Y. apply F. exact X.
Qed.
Lemma in_vector_start tv n vx : simv vx tv -> ent tv (at_ tv ++ [n]) = None -> in_vector tv n 0 (set (move_to (mkdir tv (at_ tv) n) (at_ tv ++ [n])) (at_ tv ++ [n]) "Idx" 0).
Proof.
  unfold in_vector. intros S Z. set (q := at_ tv ++ [n]) in *. assert (M : forall p, ent (mkdir tv (at_ tv) n) p = if path_eqb q p then Some Dir else ent tv p). { intro p. unfold mkdir. fold q. rewrite Z. reflexivity. }
  assert (BL : forall r, r <> [] -> ent tv (q ++ r) = None). { intros r R. destruct S as [R0 _]. rewrite (r_ent _ _ _ _ _ R0) in Z |- *. rewrite lk_app. destruct (lk (hp vx) 0 q) as [[?|? ?]|]; [discriminate|discriminate|reflexivity]. }
  set (t1 := move_to (mkdir tv (at_ tv) n) q). assert (M1 : forall p, ent t1 p = if path_eqb q p then Some Dir else ent tv p) by exact M.
  split; [reflexivity|]. split; [|split; [|split]].
  - destruct (ent_set_cases t1 q "Idx" 0 q) as [(r & X & _)|[_ X]]; [exfalso; rewrite <- (app_nil_r q) in X at 1; apply app_inv_head in X; discriminate|]. rewrite X, M1, path_eqb_refl. reflexivity.
  - destruct (ent_set_cases t1 q "Idx" 0 (q ++ ["Idx"])) as [(r & X & Y)|[X _]]; [|elim (X []); reflexivity]. apply app_inv_head in X. injection X as <-. exact Y.
  - intros m X. change (at_ (set t1 q "Idx" 0)) with q in X. destruct (ent_set_cases t1 q "Idx" 0 (q ++ [m])) as [(r & Y & _)|[_ Y]]; [apply app_inv_head in Y; congruence|]. rewrite Y, M1 in X. destruct (path_eqb q (q ++ [m])) eqn:T; [|rewrite (BL [m]) in X by discriminate; congruence].
    apply path_eqb_spec in T. exfalso. rewrite <- (app_nil_r q) in T at 1. apply app_inv_head in T. discriminate.
  - intros p X. destruct (ent_set_cases t1 q "Idx" 0 p) as [(r & Y & _)|[_ Y]]; [elim (X ("Idx" :: r)); exact Y|]. rewrite Y, M1. destruct (path_eqb q p) eqn:T; [|reflexivity]. apply path_eqb_spec in T. elim (X []). rewrite app_nil_r. congruence.
Qed.
Lemma in_vector_same tv0 n k tv tv' : in_vector tv0 n k tv -> same tv tv' -> in_vector tv0 n k tv'.
Proof. intros (A & B & D & Q & F) M. pose proof (same_quiet _ _ M Q) as Q'. destruct M as [M1 M2]. split; [congruence|]. split; [rewrite M2; exact B|]. split; [rewrite M2; exact D|]. split; [exact Q'|]. intros p X. rewrite M2. apply F. exact X. Qed.
Lemma in_vector_end tv0 n k tv vx : simv vx tv0 -> ent tv0 (at_ tv0 ++ [n]) = None -> in_vector tv0 n k tv -> same tv0 (del (move_to tv (at_ tv0)) (at_ tv0) n).
Proof.
  intros S Z (A & B & D & Q & F). split; [reflexivity|]. intro p. cbn [ent del move_to]. destruct (strip (at_ tv0 ++ [n]) p) as [r|] eqn:X.
  - apply strip_spec in X. subst p. symmetry. destruct S as [R0 _]. rewrite (r_ent _ _ _ _ _ R0) in Z |- *. rewrite lk_app. destruct (lk (hp vx) 0 (at_ tv0 ++ [n])) as [[?|? ?]|]; [discriminate|discriminate|reflexivity].
  - apply F. intros r Y. apply strip_none with (r := r) in X. contradiction.
Qed.
(** One element, from CreateNodeVE *)
Lemma jelement b n k t p nn ex d vx tv0 tv rest sk : jbgoal b -> List.length sk + 4 * jbdepth b <= 496 -> sim d (move_to t p) -> good_dirs U t -> simv vx tv -> in_vector tv0 n k tv -> known (block (element n k) (of_jblock b)) (block_vector_names b) ->
  match add_all conv t p (block (element n k) (of_jblock b)) with
  | Some (t', x) => exists nn' d' vx' tv', runs (S0 (write_jblock b ++ rest) (20 :: sk) (clean nn ex d vx)) (S0 rest sk (clean nn' (ex ++ map enc x) d' vx')) /\ sim d' (move_to t' p) /\ good_dirs U t' /\ Forall (ex_ok U) x /\ simv vx' tv' /\ in_vector tv0 n (S k) tv'
  | None => fails false (S0 (write_jblock b ++ rest) (20 :: sk) (clean nn ex d vx))
  end.
Proof.
  intros A L S G V IV K. apply known_block in K; [|apply of_jblock_some]. destruct K as [N K]. rewrite add_block_list by apply of_jblock_some. assert (NP : Forall (nice U) p) by (apply G, (dir_at H U d t p S)).
  assert (R : runs (S0 (write_jblock b ++ rest) (20 :: sk) (clean nn ex d vx)) (S0 (write_jblock b ++ rest) (40 :: 19 :: sk) (clean nn ex d vx))). { destruct b as [i l]. cbn [write_jblock]. unfold braces. cbn [app]. nt [40; 19]. { apply json_20. exact Hcf. } apply runs_refl. }
  pose proof IV as (I1 & I2 & I3 & I4 & I5).
  pose proof (element_db (hd TEof (write_jblock b ++ rest)) t p (at_ tv0) n k tv (clean nn ex d vx) S V I1 I3 N) as X. destruct (ent t (p ++ [element n k])) as [e|] eqn:Y.
  - destruct X as (u' & X). eapply runs_fails; [exact R|]. apply fail_act; [exact JS|cbn; lia|]. change (exe (40 - (START_ACTION Json - 1))) with (create_node_ve (E := E) H). rewrite X. reflexivity.
  - destruct X as (d' & vx' & X & S' & V'). change (with_vec (with_db (clean nn ex d vx) d') vx') with (clean nn ex d' vx') in X. apply in_vector_next in IV. pose proof IV as (_ & _ & _ & Q' & _).
    destruct (A (mkdir t p (element n k)) (p ++ [element n k]) nn ex d' vx' _ rest sk ltac:(lia) S' (dirs_mkdir U t p _ G N NP) V' Q' K) as [_ B]. specialize (B p _ eq_refl). unfold jnext in *.
    assert (R2 : runs (S0 (write_jblock b ++ rest) (40 :: 19 :: sk) (clean nn ex d vx)) (S0 (write_jblock b ++ rest) (19 :: sk) (clean nn ex d' vx'))) by (apply (run_act Json exe 8 JS); [cbn; lia|exact X]).
    destruct (add_all conv (mkdir t p (element n k)) (p ++ [element n k]) (of_jblock b)) as [[t1 x]|]; [|eapply runs_fails; [exact R|]; eapply runs_fails; [exact R2|exact B]].
    destruct B as (nn1 & d1 & vx1 & tv1 & X1 & S1 & G1 & F1 & V1 & M1). exists nn1, d1, vx1, tv1. split; [|split; [exact S1|split; [exact G1|split; [exact F1|split; [exact V1|exact (in_vector_same _ _ _ _ _ IV M1)]]]]]. eapply runs_trans; [exact R|]. eapply runs_trans; [exact R2|exact X1].
Qed.
Lemma jelements n : In n U -> forall l, Forall jbgoal l -> forall k t p nn ex d vx vx0 tv0 tv rest sk, (forall b, In b l -> List.length sk + 2 + 4 * jbdepth b <= 496) -> List.length sk <= 500 -> sim d (move_to t p) -> good_dirs U t -> simv vx0 tv0 -> ent tv0 (at_ tv0 ++ [n]) = None ->
  simv vx tv -> in_vector tv0 n k tv -> known (numbered n k (map of_jblock l)) (flat_map block_vector_names l) ->
  jnext p ex vx tv0 (flat_map write_jblock l ++ TTerm "]" :: rest) rest (24 :: 6 :: sk) sk nn d (add_all conv t p (numbered n k (map of_jblock l))).
Proof.
  intros IN. induction l as [|b l IH]; intros A k t p nn ex d vx vx0 tv0 tv rest sk L L2 S G V0 Z V IV K.
  - cbn [flat_map app add_all map numbered]. pose proof IV as (I1 & I2 & _). destruct (vector_end_db (TTerm "]") (at_ tv0) n tv (clean nn ex d vx) V I1 ltac:(congruence) IN) as (vx' & X & V').
    change (with_vec (clean nn ex d vx) vx') with (clean nn ex d vx') in X. exists nn, d, vx', (del (move_to tv (at_ tv0)) (at_ tv0) n). cbn [map]. rewrite app_nil_r. split; [|split; [exact S|split; [exact G|split; [constructor|split; [exact V'|exact (in_vector_end _ _ _ _ _ V0 Z IV)]]]]].
    nt [36]. { apply json_24e. exact Hcf. } eapply runs_trans. { apply (run_act Json exe 8 JS); [cbn; lia|exact X]. } tm. apply runs_refl.
  - inversion A as [|? ? A1 A2]; subst. cbn [map numbered flat_map] in K |- *. apply known_app in K. destruct K as [K1 K2]. rewrite add_all_app, <- app_assoc.
    assert (R : runs (S0 (write_jblock b ++ flat_map write_jblock l ++ TTerm "]" :: rest) (24 :: 6 :: sk) (clean nn ex d vx)) (S0 (write_jblock b ++ flat_map write_jblock l ++ TTerm "]" :: rest) (20 :: 24 :: 6 :: sk) (clean nn ex d vx))).
    { destruct b as [i l']. cbn [write_jblock]. unfold braces. cbn [app]. nt [20; 24]. { apply json_24. exact Hcf. } apply runs_refl. }
    pose proof (jelement b n k t p nn ex d vx tv0 tv (flat_map write_jblock l ++ TTerm "]" :: rest) (24 :: 6 :: sk) A1 ltac:(specialize (L b (or_introl eq_refl)); cbn [List.length]; lia) S G V IV K1) as X.
    unfold jnext. destruct (add_all conv t p (block (element n k) (of_jblock b))) as [[t1 x]|]; [|eapply runs_fails; [exact R|exact X]]. destruct X as (nn1 & d1 & vx1 & tv1 & X & S1 & G1 & F1 & V1 & IV1).
    specialize (IH A2 (Datatypes.S k) t1 p nn1 (ex ++ map enc x) d1 vx1 vx0 tv0 tv1 rest sk ltac:(intros c I; apply L; right; exact I) L2 S1 G1 V0 Z V1 IV1 K2). unfold jnext in IH.
    destruct (add_all conv t1 p (numbered n (Datatypes.S k) (map of_jblock l))) as [[t2 y]|]; [|eapply runs_fails; [exact R|]; eapply runs_fails; [exact X|exact IH]]. destruct IH as (nn2 & d2 & vx2 & tv2 & Y & S2 & G2 & F2 & V2 & M2).
    exists nn2, d2, vx2, tv2. rewrite map_app, (app_assoc ex). split; [|split; [exact S2|split; [exact G2|split; [apply Forall_app; auto|split; [exact V2|exact M2]]]]]. eapply runs_trans; [exact R|]. eapply runs_trans; [exact X|exact Y].
Qed.
Lemma jdepth_blocks n b l : forall c, In c (b :: l) -> S (jbdepth c) <= jdepth (JBlocks n b l).
Proof. intros j [<-|I]; cbn [jdepth]; apply le_n_S; [clear; induction l as [|x l IH]; cbn; lia|]. induction l as [|x l IH]; [destruct I|]. cbn [fold_right]. destruct I as [<-|I]; [lia|]. specialize (IH I). lia. Qed.
Lemma jblocks_item n b l : jbgoal b -> Forall jbgoal l -> jgoal (JBlocks n b l).
Proof.
  intros A Al t p nn ex d vx tv rest sk L S G V Q K. pose proof (jdepth_blocks n b l) as DB. pose proof (DB b (or_introl eq_refl)) as DI. cbn [of_json vector_names] in K |- *.
  assert (N : nice U n /\ n <> "Idx"). { destruct K as (_ & _ & K). apply K. left. reflexivity. } destruct N as [N NI].
  assert (K' : known (numbered n 0 (of_jblock b :: map of_jblock l)) (block_vector_names b ++ flat_map block_vector_names l)). { destruct K as (K1 & K2 & K3). split; [exact K1|]. split; [exact K2|]. intros m I. apply K3. right. exact I. } clear K.
  assert (Z : ent tv (at_ tv ++ [n]) = None) by (destruct (ent tv (at_ tv ++ [n])) eqn:X; [elim NI; apply Q; congruence|reflexivity]).
  cbn [write_json]. unfold braces. cbn [app]. rewrite <- !app_assoc. cbn [app]. set (more := flat_map write_jblock l ++ TTerm "]" :: rest).
  destruct (vector_db n vx tv (clean nn ex d vx) V Q N NI eq_refl) as (vx' & X & V'). change (with_vec (clean nn ex d vx) vx') with (clean nn ex d vx') in X. pose proof (in_vector_start tv n vx V Z) as IV.
  assert (R : runs (S0 (TStr n :: TTerm ":" :: TTerm "[" :: write_jblock b ++ more) (13 :: sk) (clean nn ex d vx)) (S0 (write_jblock b ++ more) (20 :: 24 :: 6 :: sk) (clean nn ex d vx'))).
  { nt [34; 1; 2; 16]. { destruct b as [i l']. apply json_blocks; auto; reflexivity. } eapply runs_trans. { apply (run_act Json exe 8 JS); [cbn; lia|exact X]. } tm. tm. nt [5; 20; 24; 6]. { apply json_16. exact Hcf. } tm. apply runs_refl. }
  cbn [numbered] in K' |- *. apply known_app in K'. destruct K' as [K1 K2]. rewrite add_all_app.
  pose proof (jelement b n 0 t p nn ex d vx' tv _ more (24 :: 6 :: sk) A ltac:(cbn [List.length]; lia) S G V' IV K1) as Y. unfold jnext.
  destruct (add_all conv t p (block (element n 0) (of_jblock b))) as [[t1 x]|]; [|eapply runs_fails; [exact R|exact Y]]. destruct Y as (nn1 & d1 & vx1 & tv1 & Y & S1 & G1 & F1 & V1 & IV1).
  pose proof (jelements n (proj2 N) l Al 1 t1 p nn1 (ex ++ map enc x) d1 vx1 vx tv tv1 rest sk ltac:(intros c I; specialize (DB c (or_intror I)); lia) ltac:(lia) S1 G1 V Z V1 IV1 K2) as W. unfold jnext in W. fold more in W.
  destruct (add_all conv t1 p (numbered n 1 (map of_jblock l))) as [[t2 y]|]; [|eapply runs_fails; [exact R|]; eapply runs_fails; [exact Y|exact W]]. destruct W as (nn2 & d2 & vx2 & tv2 & W & S2 & G2 & F2 & V2 & M2).
  exists nn2, d2, vx2, tv2. rewrite map_app, (app_assoc ex). split; [|split; [exact S2|split; [exact G2|split; [apply Forall_app; auto|split; [exact V2|exact M2]]]]]. eapply runs_trans; [exact R|]. eapply runs_trans; [exact Y|exact W].
Qed.
Lemma jitem_all i : jgoal i.
Proof. revert i. apply (jitem_ind2 jgoal jbgoal); [apply jleaf_item|apply jblock_item|apply jblocks_item|apply jitems_item|apply jblock_all]. Qed.

(** ** The whole configuration *)
Lemma jitems_end : forall l t p nn ex d vx tv, (forall i, In i l -> jdepth i <= 124) -> sim d (move_to t p) -> good_dirs U t -> simv vx tv -> quiet tv -> known (flat_map of_json l) (flat_map vector_names l) ->
  match add_all conv t p (flat_map of_json l) with
  | Some (t', x) => exists nn' d' vx', runs (S0 (flat_map write_json l) [23; 29] (clean nn ex d vx)) (mk [] 10 [29] (clean nn' (ex ++ map enc x) d' vx') false true) /\ sim d' (move_to t' p) /\ good_dirs U t' /\ Forall (ex_ok U) x
  | None => fails false (S0 (flat_map write_json l) [23; 29] (clean nn ex d vx))
  end.
Proof.
  induction l as [|i l IH]; intros t p nn ex d vx tv L S G V Q K.
  - cbn [add_all flat_map]. exists nn, d, vx. cbn [map]. rewrite app_nil_r. split; [|auto]. apply (run_eof Json exe 8 JS); [cbn; lia|reflexivity|]. intros cf F. rewrite pick_ts. pose proof (eq_refl : ts_of Json [] 0 = 0) as Z0. pose proof (eq_refl : ts_of Json [] 1 = 0) as Z1. pose proof (eq_refl : ts_of Json [] 2 = 0) as Z2. generalize dependent (ts_of Json []). intros ts Z0 Z1 Z2. chosen.
  - cbn [flat_map] in K |- *. apply known_app in K. destruct K as [K1 K2]. rewrite add_all_app.
    assert (R : runs (S0 (write_json i ++ flat_map write_json l) [23; 29] (clean nn ex d vx)) (S0 (write_json i ++ flat_map write_json l) [13; 23; 29] (clean nn ex d vx))).
    { destruct (json_head i) as (k & w & -> & T). cbn [app]. nt [13; 23]. { apply json_23; assumption. } apply runs_refl. }
    pose proof (jitem_all i t p nn ex d vx tv (flat_map write_json l) [23; 29] ltac:(specialize (L i (or_introl eq_refl)); cbn [List.length]; lia) S G V Q K1) as X. unfold jnext in X.
    destruct (add_all conv t p (of_json i)) as [[t1 x]|]; [|eapply runs_fails; [exact R|exact X]]. destruct X as (nn1 & d1 & vx1 & tv1 & X & S1 & Gd & F1 & V1 & M1).
    specialize (IH t1 p nn1 (ex ++ map enc x) d1 vx1 tv1 ltac:(intros j I; apply L; right; exact I) S1 Gd V1 (same_quiet _ _ M1 Q) K2).
    destruct (add_all conv t1 p (flat_map of_json l)) as [[t2 y]|]; [|eapply runs_fails; [exact R|]; eapply runs_fails; [exact X|exact IH]]. destruct IH as (nn2 & d2 & vx2 & Y & S2 & Gd2 & F2).
    exists nn2, d2, vx2. rewrite map_app, (app_assoc ex). split; [|split; [exact S2|split; [exact Gd2|apply Forall_app; auto]]]. eapply runs_trans; [exact R|]. eapply runs_trans; [exact X|exact Y].
Qed.
Theorem json_ok l t d : (forall i, In i l -> jdepth i <= 124) -> (forall n, In n (flat_map vector_names l) -> nice U n /\ n <> "Idx") -> sim d t -> good_dirs U t -> good_config conv text_of vars is_num eval U t (flat_map of_json l) ->
  match configured conv text_of vars is_num eval t (flat_map of_json l) with
  | Some t' => result Json exe 8 (flat_map write_json l) (cfg_init d) true (fun u => sim (database u) t')
  | None => result Json exe 8 (flat_map write_json l) (cfg_init d) false (fun _ => True)
  end.
Proof.
  intros L VN S G (GI & W & CX). assert (S' : sim d (move_to t (at_ t))) by (destruct t; exact S). assert (K : known (flat_map of_json l) (flat_map vector_names l)) by (split; [exact GI|split; [exact W|exact VN]]). clear GI W VN. unfold configured. destruct l as [|i l].
  - cbn. destruct (parse_ends Json exe 8 JS [] (cfg_init d) [] (cfg_init d)) as [n X].
    { apply (run_eof Json exe 8 JS); [cbn; lia|reflexivity|]. intros cf F. rewrite pick_ts. pose proof (eq_refl : ts_of Json [] 0 = 0) as Z0. pose proof (eq_refl : ts_of Json [] 1 = 0) as Z1. pose proof (eq_refl : ts_of Json [] 2 = 0) as Z2. generalize dependent (ts_of Json []). intros ts Z0 Z1 Z2. chosen. }
    exists n. intros rounds fuel cf A B Cc. specialize (X rounds fuel cf A B Cc). destruct (parse Json exe rounds fuel cf [] (cfg_init d)) as [[b u]| |]; [|exact X|exact X]. destruct X as [X ->]. split; [exact X|exact S].
  - assert (NE : match flat_map of_json (i :: l) with [] => false | _ => true end = true) by (cbn [flat_map]; pose proof (of_json_some i); destruct (of_json i); [congruence|reflexivity]).
    assert (R : runs (S0 (flat_map write_json (i :: l)) [11] (cfg_init d)) (S0 (flat_map write_json (i :: l)) [13; 23; 29] (clean "" [] d init))).
    { cbn [flat_map]. destruct (json_head i) as (k & w & -> & T). cbn [app]. nt [12; 29]. { apply json_11; assumption. } nt [13; 23]. { apply json_12; assumption. } apply runs_refl. }
    cbn [flat_map] in K, R, CX, NE |- *. apply known_app in K. destruct K as [K1 K2].
    assert (Q0 : quiet (empty (V := nat))) by (intros n X; elim X; reflexivity). rewrite add_all_app in CX |- *.
    pose proof (jitem_all i t (at_ t) "" [] d init empty (flat_map write_json l) [23; 29] ltac:(specialize (L i (or_introl eq_refl)); cbn [List.length]; lia) S' G (sim_init H U) Q0 K1) as X. unfold jnext in X.
    destruct (add_all conv t (at_ t) (of_json i)) as [[t1 x]|]; [|apply (parse_fails Json exe 8 JS); eapply runs_fails; [exact R|exact X]]. destruct X as (nn1 & d1 & vx1 & tv1 & X & S1 & Gd & F1 & V1 & M1).
    pose proof (jitems_end l t1 (at_ t) nn1 ([] ++ map enc x) d1 vx1 tv1 ltac:(intros j I; apply L; right; exact I) S1 Gd V1 (same_quiet _ _ M1 Q0) K2) as Y.
    destruct (add_all conv t1 (at_ t) (flat_map of_json l)) as [[t2 y]|]; [|apply (parse_fails Json exe 8 JS); eapply runs_fails; [exact R|]; eapply runs_fails; [exact X|exact Y]]. destruct Y as (nn2 & d2 & vx2 & Y & S2 & Gd2 & F2).
    pose proof (end_ok H U inj text_of vars is_num eval TEof (clean nn2 (([] ++ map enc x) ++ map enc y) d2 vx2) (x ++ y) t2 (at_ t) S2 ltac:(rewrite map_app; reflexivity) ltac:(apply Forall_app; auto) CX) as Z.
    destruct (evaluate text_of vars is_num eval t2 (x ++ y)) as [t3|].
    + destruct Z as (u' & Z & S3). destruct (parse_ends Json exe 8 JS (write_json i ++ flat_map write_json l) (cfg_init d) [] u') as [n QQ].
      { eapply runs_trans; [exact R|]. eapply runs_trans; [exact X|]. eapply runs_trans; [exact Y|]. apply run_act_any; [exact JS|cbn; lia|exact Z]. }
      destruct (of_json i ++ flat_map of_json l) as [|it its] eqn:NN; [discriminate NE|].
      exists n. intros rounds fuel cf A B Cc. specialize (QQ rounds fuel cf A B Cc). destruct (parse Json exe rounds fuel cf _ (cfg_init d)) as [[b u]| |]; [|exact QQ|exact QQ]. destruct QQ as [QQ ->]. split; [exact QQ|exact S3].
    + destruct Z as (u' & Z). apply (parse_fails Json exe 8 JS). eapply runs_fails; [exact R|]. eapply runs_fails; [exact X|]. eapply runs_fails; [exact Y|]. apply fail_act_any; [exact JS|cbn; lia|]. change (exe (29 - (START_ACTION Json - 1))) with (end_ H text_of vars is_num eval). cbn [hd]. rewrite Z. reflexivity.
Qed.
End Parse.
