(** C44: what the configuration parsers make of a configuration. *)
From Coq Require Import String Ascii.
From Verif Require Import Base Paths ConfigDB_Model ConfigDB_Spec ConfigDB_Proofs ConfigDB_Props Slk_Model Slk_Proofs Cfg_Model Cfg_Spec Cfg_Values Cfg_Db Cfg_Standard Cfg_Xml Cfg_Json Cfg_Sound Cfg_SoundXml Cfg_SoundJson.
Open Scope string_scope. Open Scope nat_scope. Open Scope list_scope.

(** Parse returns [b] and leaves the state of the parser such that [P]; its loops end. *)
Definition parse_returns {A} (T : tables) (execute : nat -> token -> A -> out (A * bool)) (l : list token) (u : A) (b : bool) (P : A -> Prop) : Prop :=
  exists n, forall rounds fuel look, 1 <= rounds -> n <= fuel -> 8 <= look -> match parse T execute rounds fuel look l u with Ret (b', u') => b' = b /\ P u' | _ => False end.

(** A database that has any history, then the configuration, then any other history: Parse returns whether the configuration has a meaning, and if so every
    operation afterwards returns what it returns on the tree with the configuration in it. Missing: names with equal hashes, blocks whose names have dots,
    expressions with an undotted variable after a dotted one, blocks nested more than 249 deep (see the refutations); the conversion of texts to values and
    the evaluation of expressions are parameters. *)
Theorem C44_standard_partial : forall (E : Type) (H : string -> Z) conv text_of vars is_num eval (U : list string) (before after : list (sop (value E))) (config : list item),
  distinct_hashes H U -> Forall good_paths before -> Forall good_paths after -> (forall n, In n (flat_map used (before ++ after)) -> In n U) -> all_clear empty before ->
  (forall i, In i config -> depth i <= 249) -> good_config conv text_of vars is_num eval U (snd (srun empty before)) config ->
  exists d, exec H init (map ConfigDB_Spec.call before) = Some (fst (srun empty before), d) /\
  let execute := standard_execute H conv text_of vars is_num eval in let tokens := flat_map write config in
  match configured conv text_of vars is_num eval (snd (srun empty before)) config with
  | Some t => parse_returns Standard execute tokens (cfg_init d) true (fun u => all_clear t after -> exists d', exec H (database u) (map ConfigDB_Spec.call after) = Some (fst (srun t after), d'))
  | None => parse_returns Standard execute tokens (cfg_init d) false (fun _ => True)
  end.
Proof.
  intros E H conv text_of vars is_num eval U before after config inj GB GA W AC L GC. rewrite flat_map_app in W.
  assert (WB : forall n, In n (flat_map used before) -> In n U) by (intros n I; apply W, in_or_app; auto). assert (WA : forall n, In n (flat_map used after) -> In n U) by (intros n I; apply W, in_or_app; auto).
  destruct (exec_ok H U inj before init empty (sim_init H U) GB WB AC) as (d & X & S). exists d. split; [exact X|].
  pose proof (dirs_run H U inj before init empty (sim_init H U) (dirs_empty U) GB WB AC) as G.
  pose proof (standard_ok H U conv text_of vars is_num eval inj config _ d L S G GC) as R. cbn zeta. destruct (configured conv text_of vars is_num eval (snd (srun empty before)) config) as [t|]; [|exact R].
  destruct R as [n R]. exists n. intros rounds fuel look A B D. specialize (R rounds fuel look A B D). destruct (parse _ _ _ _ _ _ _) as [[b u]| |]; [|exact R|exact R]. destruct R as [R1 R2]. split; [exact R1|]. intro C.
  destruct (exec_ok H U inj after (database u) t R2 GA WA C) as (d' & Y & _). exists d'. exact Y.
Qed.
Print Assumptions C44_standard_partial.

(** Conversely, for every sequence of tokens: if Parse returns true then they are a configuration, up to the end of the input or to a character that is no terminal of
    the syntax (see C44_rest_refuted). Missing: more than 220 braces open at the same time (see C44_depth_refuted). *)
Theorem C44_standard_sound_partial : forall (E : Type) (H : string -> Z) conv text_of vars is_num eval (d : db (value E)) tokens rounds fuel look u,
  (forall t, In t tokens -> lexed t) -> braces_within 220 0 tokens -> parse Standard (standard_execute H conv text_of vars is_num eval) rounds fuel look tokens (cfg_init d) = Ret (true, u) ->
  exists config rest, tokens = flat_map write config ++ rest /\ stops rest.
Proof. intros E H conv text_of vars is_num eval d tokens rounds fuel look u A D X. exact (parse_sound H conv text_of vars is_num eval look tokens (cfg_init d) rounds fuel u A D eq_refl X). Qed.
Print Assumptions C44_standard_sound_partial.

(** The same for XML; blocks nested at most 99 deep. The names in the end tags are not looked at (see the refutation). *)
Theorem C44_xml_partial : forall (E : Type) (H : string -> Z) conv text_of vars is_num eval (U : list string) (before after : list (sop (value E))) (config : list xitem),
  distinct_hashes H U -> Forall good_paths before -> Forall good_paths after -> (forall n, In n (flat_map used (before ++ after)) -> In n U) -> all_clear empty before ->
  (forall i, In i config -> xdepth i <= 99) -> good_config conv text_of vars is_num eval U (snd (srun empty before)) (map of_xml config) ->
  exists d, exec H init (map ConfigDB_Spec.call before) = Some (fst (srun empty before), d) /\
  let execute := xml_execute H conv text_of vars is_num eval in let tokens := flat_map write_xml config in
  match configured conv text_of vars is_num eval (snd (srun empty before)) (map of_xml config) with
  | Some t => parse_returns Xml execute tokens (cfg_init d) true (fun u => all_clear t after -> exists d', exec H (database u) (map ConfigDB_Spec.call after) = Some (fst (srun t after), d'))
  | None => parse_returns Xml execute tokens (cfg_init d) false (fun _ => True)
  end.
Proof.
  intros E H conv text_of vars is_num eval U before after config inj GB GA W AC L GC. rewrite flat_map_app in W.
  assert (WB : forall n, In n (flat_map used before) -> In n U) by (intros n I; apply W, in_or_app; auto). assert (WA : forall n, In n (flat_map used after) -> In n U) by (intros n I; apply W, in_or_app; auto).
  destruct (exec_ok H U inj before init empty (sim_init H U) GB WB AC) as (d & X & S). exists d. split; [exact X|].
  pose proof (dirs_run H U inj before init empty (sim_init H U) (dirs_empty U) GB WB AC) as G.
  pose proof (xml_ok H U conv text_of vars is_num eval inj config _ d L S G GC) as R. cbn zeta. destruct (configured conv text_of vars is_num eval (snd (srun empty before)) (map of_xml config)) as [t|]; [|exact R].
  destruct R as [n R]. exists n. intros rounds fuel look A B D. specialize (R rounds fuel look A B D). destruct (parse _ _ _ _ _ _ _) as [[b u]| |]; [|exact R|exact R]. destruct R as [R1 R2]. split; [exact R1|]. intro C.
  destruct (exec_ok H U inj after (database u) t R2 GA WA C) as (d' & Y & _). exists d'. exact Y.
Qed.
Print Assumptions C44_xml_partial.

(** The same for JSON; blocks and vectors of blocks nested at most 124 deep, no vector of blocks named Idx (see the refutation). *)
Theorem C44_json_partial : forall (E : Type) (H : string -> Z) conv text_of vars is_num eval (U : list string) (before after : list (sop (value E))) (config : list jitem),
  distinct_hashes H U -> In "Idx" U -> Forall good_paths before -> Forall good_paths after -> (forall n, In n (flat_map used (before ++ after)) -> In n U) -> all_clear empty before ->
  (forall i, In i config -> jdepth i <= 124) -> (forall n, In n (flat_map vector_names config) -> (good_name n /\ In n U) /\ n <> "Idx") ->
  good_config conv text_of vars is_num eval U (snd (srun empty before)) (flat_map of_json config) ->
  exists d, exec H init (map ConfigDB_Spec.call before) = Some (fst (srun empty before), d) /\
  let execute := json_execute H conv text_of vars is_num eval in let tokens := flat_map write_json config in
  match configured conv text_of vars is_num eval (snd (srun empty before)) (flat_map of_json config) with
  | Some t => parse_returns Json execute tokens (cfg_init d) true (fun u => all_clear t after -> exists d', exec H (database u) (map ConfigDB_Spec.call after) = Some (fst (srun t after), d'))
  | None => parse_returns Json execute tokens (cfg_init d) false (fun _ => True)
  end.
Proof.
  intros E H conv text_of vars is_num eval U before after config inj idx GB GA W AC L VN GC. rewrite flat_map_app in W.
  assert (WB : forall n, In n (flat_map used before) -> In n U) by (intros n I; apply W, in_or_app; auto). assert (WA : forall n, In n (flat_map used after) -> In n U) by (intros n I; apply W, in_or_app; auto).
  destruct (exec_ok H U inj before init empty (sim_init H U) GB WB AC) as (d & X & S). exists d. split; [exact X|].
  pose proof (dirs_run H U inj before init empty (sim_init H U) (dirs_empty U) GB WB AC) as G.
  pose proof (json_ok H U conv text_of vars is_num eval inj idx config _ d L VN S G GC) as R. cbn zeta. destruct (configured conv text_of vars is_num eval (snd (srun empty before)) (flat_map of_json config)) as [t|]; [|exact R].
  destruct R as [n R]. exists n. intros rounds fuel look A B D. specialize (R rounds fuel look A B D). destruct (parse _ _ _ _ _ _ _) as [[b u]| |]; [|exact R|exact R]. destruct R as [R1 R2]. split; [exact R1|]. intro C.
  destruct (exec_ok H U inj after (database u) t R2 GA WA C) as (d' & Y & _). exists d'. exact Y.
Qed.
Print Assumptions C44_json_partial.

(** Conversely for XML, with at most 85 tags open at the same time: if Parse returns true then the tokens are a configuration, up to the end or to a character that is no terminal. *)
Theorem C44_xml_sound_partial : forall (E : Type) (H : string -> Z) conv text_of vars is_num eval (d : db (value E)) tokens rounds fuel look u,
  (forall t, In t tokens -> lexed t) -> tags_within 85 0 tokens -> parse Xml (xml_execute H conv text_of vars is_num eval) rounds fuel look tokens (cfg_init d) = Ret (true, u) ->
  exists config rest, tokens = flat_map write_xml config ++ rest /\ xml_stops rest.
Proof. intros E H conv text_of vars is_num eval d tokens rounds fuel look u A D X. exact (xml_sound H conv text_of vars is_num eval look tokens (cfg_init d) rounds fuel u A D X). Qed.
Print Assumptions C44_xml_sound_partial.

(** Conversely for JSON, with at most 220 braces and brackets open at the same time. *)
Theorem C44_json_sound_partial : forall (E : Type) (H : string -> Z) conv text_of vars is_num eval (d : db (value E)) tokens rounds fuel look u,
  (forall t, In t tokens -> lexed t) -> brackets_within 220 0 tokens -> parse Json (json_execute H conv text_of vars is_num eval) rounds fuel look tokens (cfg_init d) = Ret (true, u) ->
  exists config rest, tokens = flat_map write_json config ++ rest /\ json_stops rest.
Proof. intros E H conv text_of vars is_num eval d tokens rounds fuel look u A D X. exact (json_sound H conv text_of vars is_num eval look tokens (cfg_init d) rounds fuel u A D eq_refl X). Qed.
Print Assumptions C44_json_sound_partial.

(** ** Examples: the elements are texts; an expression is the list of its variables, separated by blanks, and its value is the texts of them. *)
Definition a_conv (ty d : string) : option string := if String.eqb ty "void" then None else Some d.
Definition a_text (v : value string) : option string := match velems v with [d] => Some d | _ => None end.
Definition blank : ascii := ascii_of_nat 32.
Fixpoint a_words (s : string) : list string :=
  match s with EmptyString => [""] | String c r => if Ascii.eqb c blank then "" :: a_words r else match a_words r with n :: p => String c n :: p | [] => [String c ""] end end.
Definition a_vars (s : string) : option (list string) := Some (a_words s).
Definition a_num (s : string) : bool := negb (String.eqb s "string").
Definition a_eval (ty e : string) (l : list (value string)) : option (value string) := Some (Value_ ty 0 1 1 [String.concat "+" (flat_map velems l)]).
Definition a_standard := standard_execute name_hash a_conv a_text a_vars a_num a_eval.
Definition a_xml := xml_execute name_hash a_conv a_text a_vars a_num a_eval.
Definition a_json := json_execute name_hash a_conv a_text a_vars a_num a_eval.
(** A = { x = 1 B = { v = {1 2 3} m = {{1 2} {3 4}} } y = (uint32) 7 }  e = (uint32|"A.x A.y") *)
Definition a_config : list item :=
  [Block "A" (Leaf "x" None (Scalar (Num "1"))) [Block "B" (Leaf "v" None (Vector (Num "1", [Num "2"; Num "3"]))) [Leaf "m" None (Matrix (Num "1", [Num "2"]) [(Num "3", [Num "4"])])]; Leaf "y" (Some "uint32") (Scalar (Num "7"))];
   Expr "e" "uint32" (Str "A.x A.y")].
Definition a_before : list (sop (value string)) := [SCreateAbsolute ["C"]; SWrite "k" (Value_ "string" 0 1 1 ["old"]); SMoveToRoot].
Definition a_after : list (sop (value string)) := [SRead "e"; SMoveAbsolute ["A"; "B"]; SGetNumberOfChildren; SRead "v"; SRead "m"; SMoveAbsolute ["C"]; SRead "k"; SMoveAbsolute ["A"]; SRead "y"].
Definition a_names := ["A"; "x"; "B"; "v"; "m"; "y"; "e"; "C"; "k"].
Lemma a_hashes : distinct_hashes name_hash a_names.
Proof.
  assert (X : forallb (fun a => forallb (fun b => negb (Z.eqb (name_hash a) (name_hash b)) || String.eqb a b) a_names) a_names = true) by (vm_compute; reflexivity).
  intros a b Ia Ib Q. rewrite forallb_forall in X. specialize (X a Ia). rewrite forallb_forall in X. specialize (X b Ib). apply orb_true_iff in X. destruct X as [X|X]; [|apply String.eqb_eq; exact X].
  apply negb_true_iff, Z.eqb_neq in X. contradiction.
Qed.
Ltac in_list := repeat first [left; reflexivity|right].
Example C44_example : distinct_hashes name_hash a_names /\ Forall good_paths a_before /\ Forall good_paths a_after /\ (forall n, In n (flat_map used (a_before ++ a_after)) -> In n a_names) /\ all_clear empty a_before /\
  (forall i, In i a_config -> depth i <= 249) /\ good_config a_conv a_text a_vars a_num a_eval a_names (snd (srun empty a_before)) a_config /\
  match configured a_conv a_text a_vars a_num a_eval (snd (srun empty a_before)) a_config with
  | Some t => all_clear t a_after /\ fst (srun t a_after) =
      [Value (Some (Value_ "uint32" 0 1 1 ["1+7"])); Ok true; Number 2; Value (Some (Value_ "string" 1 3 1 ["1"; "2"; "3"])); Value (Some (Value_ "string" 2 2 2 ["1"; "2"; "3"; "4"])); Ok true;
       Value (Some (Value_ "string" 0 1 1 ["old"])); Ok true; Value (Some (Value_ "uint32" 0 1 1 ["7"]))]
  | None => False
  end.
Proof.
  split; [exact a_hashes|]. split; [|split; [|split; [|split; [|split; [|split]]]]].
  - repeat constructor; try discriminate; apply no_dot_b; reflexivity.
  - repeat constructor; try discriminate; apply no_dot_b; reflexivity.
  - intros n I. cbn in I. unfold a_names. repeat (destruct I as [<-|I]; [in_list|]). destruct I.
  - unfold a_before. repeat (split; [first [exact Logic.I | intros a b v _ _ _; destruct a; discriminate]|]). exact Logic.I.
  - intros i I. cbn in I. repeat (destruct I as [<-|I]; [cbn; lia|]). destruct I.
  - split; [|split].
    + repeat constructor; try discriminate; apply no_dot_b; reflexivity.
    + intros n I. cbn in I. unfold a_names. repeat (destruct I as [<-|I]; [in_list|]). destruct I.
    + vm_compute add_all. cbn iota. split; [|vm_compute; exact Logic.I]. vm_compute leaf_at. cbn. split.
      * intros v [<-|[<-|[]]]; (split; [repeat constructor; try discriminate; apply no_dot_b; reflexivity|]); intros n I; cbn in I; unfold a_names; repeat (destruct I as [<-|I]; [in_list|]); destruct I.
      * exists [], ["A.x"; "A.y"]. split; [reflexivity|]. split; [intros v []|]. intros v [<-|[<-|[]]]; cbn; lia.
  - vm_compute configured. cbn iota. split; [unfold a_after; repeat (split; [first [exact Logic.I | intros a b v _ _ _; destruct a; discriminate]|]); exact Logic.I|vm_compute; reflexivity].
Qed.
(** The same items in XML *)
Definition a_xconfig : list xitem :=
  [XBlock "A" (XLeaf "x" None (Scalar (Num "1")) "x") [XBlock "B" (XLeaf "v" None (Vector (Num "1", [Num "2"; Num "3"])) "v") [XLeaf "m" None (Matrix (Num "1", [Num "2"]) [(Num "3", [Num "4"])]) "m"] "B"; XLeaf "y" (Some "uint32") (Scalar (Num "7")) "y"] "A"].
Example C44_xml_example : map of_xml a_xconfig = firstn 1 a_config /\ (forall i, In i a_xconfig -> xdepth i <= 99) /\
  good_config a_conv a_text a_vars a_num a_eval a_names (snd (srun empty a_before)) (map of_xml a_xconfig) /\ configured a_conv a_text a_vars a_num a_eval (snd (srun empty a_before)) (map of_xml a_xconfig) <> None.
Proof.
  split; [reflexivity|]. split; [intros i [<-|[]]; cbn; lia|]. split; [|vm_compute; discriminate]. split; [|split].
  - repeat constructor; try discriminate; apply no_dot_b; reflexivity.
  - intros n I. cbn in I. unfold a_names. repeat (destruct I as [<-|I]; [in_list|]). destruct I.
  - vm_compute. exact Logic.I.
Qed.
(** { "v": [ { "x": 1 } { "x": [1 2] "w": [ { "y": 3 } ] } ] } *)
Definition a_jconfig : list jitem :=
  [JItems (JB (JBlocks "v" (JB (JLeaf "x" None (Scalar (Num "1"))) []) [JB (JLeaf "x" None (Vector (Num "1", [Num "2"]))) [JBlocks "w" (JB (JLeaf "y" None (Scalar (Num "3"))) []) []]]) [])].
Definition a_jnames := ["Idx"; "v"; "v[0]"; "v[1]"; "x"; "w"; "w[0]"; "y"; "C"; "k"].
Example C44_json_example : distinct_hashes name_hash a_jnames /\ (forall i, In i a_jconfig -> jdepth i <= 124) /\ (forall n, In n (flat_map vector_names a_jconfig) -> (good_name n /\ In n a_jnames) /\ n <> "Idx") /\
  good_config a_conv a_text a_vars a_num a_eval a_jnames (snd (srun empty a_before)) (flat_map of_json a_jconfig) /\
  match configured a_conv a_text a_vars a_num a_eval (snd (srun empty a_before)) (flat_map of_json a_jconfig) with
  | Some t => fst (srun t [SMoveAbsolute ["v[1]"]; SRead "x"; SMoveRelative ["w[0]"]; SRead "y"]) = [Ok true; Value (Some (Value_ "string" 1 2 1 ["1"; "2"])); Ok true; Value (Some (Value_ "string" 0 1 1 ["3"]))]
  | None => False
  end.
Proof.
  assert (X : forallb (fun a => forallb (fun b => negb (Z.eqb (name_hash a) (name_hash b)) || String.eqb a b) a_jnames) a_jnames = true) by (vm_compute; reflexivity).
  split; [|split; [|split; [|split]]].
  - intros a b Ia Ib Q. rewrite forallb_forall in X. specialize (X a Ia). rewrite forallb_forall in X. specialize (X b Ib). apply orb_true_iff in X. destruct X as [X|X]; [|apply String.eqb_eq; exact X]. apply negb_true_iff, Z.eqb_neq in X. contradiction.
  - intros i [<-|[]]. cbn. lia.
  - intros n I. cbn in I. destruct I as [<-|[<-|[]]]; (split; [split; [split; [discriminate|apply no_dot_b; reflexivity]|unfold a_jnames; in_list]|discriminate]).
  - split; [|split; [|vm_compute; exact Logic.I]].
    + clear X. cbn. repeat constructor; try discriminate; apply no_dot_b; reflexivity.
    + intros n I. cbn in I. unfold a_jnames. repeat (destruct I as [<-|I]; [in_list|]). destruct I.
  - vm_compute. reflexivity.
Qed.

(** ** What is not so. [outcome]: what Parse returns on an empty database and what the operations after it return. *)
Definition outcome (T : tables) (execute : nat -> token -> cst string -> out (cst string * bool)) (l : list token) (after : list (op (value string))) : out (bool * option (list (ans (value string)))) :=
  bind (parse T execute 2 3000 8 l (cfg_init init)) (fun '(b, u) => Ret (b, match exec name_hash (database u) after with Some (r, _) => Some r | None => None end)).
Definition text d : ans (value string) := Value (Some (Value_ "string" 0 1 1 [d])).
(** The configuration above, then a character that is no terminal; without its last token it is refused. *)
Example C44_standard_sound_example : let tokens := flat_map write a_config ++ [TTerm "<"; TStr "y"] in
  (forall t, In t tokens -> lexed t) /\ braces_within 220 0 tokens /\ match outcome Standard a_standard tokens [] with Ret (b, _) => b = true | _ => False end /\ stops [TTerm "<"; TStr "y"] /\
  match outcome Standard a_standard (removelast (flat_map write a_config)) [] with Ret (b, _) => b = false | _ => False end.
Proof.
  split; [intros t I; cbn in I; repeat (destruct I as [<-|I]; [first [exact Logic.I|reflexivity]|]); destruct I|]. split; [cbn; repeat (split; [lia|]); exact Logic.I|]. split; [vm_compute; reflexivity|]. split; [|vm_compute; reflexivity].
  cbn. intuition discriminate.
Qed.
(** The same for XML and JSON *)
Example C44_xml_sound_example : let tokens := flat_map write_xml a_xconfig ++ [TTerm "="] in
  (forall t, In t tokens -> lexed t) /\ tags_within 85 0 tokens /\ match outcome Xml a_xml tokens [] with Ret (b, _) => b = true | _ => False end /\ xml_stops [TTerm "="] /\
  match outcome Xml a_xml (removelast (flat_map write_xml a_xconfig)) [] with Ret (b, _) => b = false | _ => False end.
Proof.
  split; [intros t I; cbn in I; repeat (destruct I as [<-|I]; [first [exact Logic.I|reflexivity]|]); destruct I|]. split; [cbn; repeat (split; [lia|]); exact Logic.I|]. split; [vm_compute; reflexivity|]. split; [|vm_compute; reflexivity].
  cbn. intuition discriminate.
Qed.
Example C44_json_sound_example : let tokens := flat_map write_json a_jconfig ++ [TTerm "="] in
  (forall t, In t tokens -> lexed t) /\ brackets_within 220 0 tokens /\ match outcome Json a_json tokens [] with Ret (b, _) => b = true | _ => False end /\ json_stops [TTerm "="] /\
  match outcome Json a_json (removelast (flat_map write_json a_jconfig)) [] with Ret (b, _) => b = false | _ => False end.
Proof.
  split; [intros t I; cbn in I; repeat (destruct I as [<-|I]; [first [exact Logic.I|reflexivity]|]); destruct I|]. split; [cbn; repeat (split; [lia|]); exact Logic.I|]. split; [vm_compute; reflexivity|]. split; [|vm_compute; reflexivity].
  cbn. intuition discriminate.
Qed.
(** The name in an end tag: <A>1</B> is accepted. *)
Theorem C44_end_tag_refuted : outcome Xml a_xml [TTerm "<"; TStr "A"; TTerm ">"; TNum "1"; TTerm "<"; TTerm "/"; TStr "B"; TTerm ">"] [Read "A"] = Ret (true, Some [text "1"]).
Proof. vm_compute. reflexivity. Qed.
(** A document that ends in a start tag: Parse never returns. *)
Lemma forever : forall look level, 1 <= level -> resolve Xml look [TTerm "<"; TStr "A"] 26 level = NoFuel.
Proof.
  induction look as [|k IH]; intros level L; [reflexivity|]. cbn [resolve]. change (26 <? START_CONFLICT Xml) with false. cbn iota. change (get (Conflict_row Xml) (26 - (START_CONFLICT Xml - 1))) with (get (Conflict_row Xml) 4).
  replace (peek Xml [TTerm "<"; TStr "A"] level) with 0. { vm_compute (get (Conflict_row Xml) 4). cbn [bind]. rewrite Nat.add_0_r. match goal with |- bind ?x _ = _ => let y := eval vm_compute in x in change x with y end. cbn [bind]. apply IH. lia. }
  destruct level as [|[|n]]; [lia|reflexivity|]. unfold peek. cbn [nth]. destruct n; reflexivity.
Qed.
Theorem C44_look_ahead_refuted : forall rounds fuel look, parse Xml a_xml (S rounds) fuel look [TTerm "<"; TStr "A"] (cfg_init (E := string) init) = NoFuel.
Proof.
  intros rounds fuel look. unfold parse. cbn [parses err eof orb]. change (push (START_SYMBOL Xml) []) with [11].
  assert (X : loop Xml a_xml fuel look (mk [TTerm "<"; TStr "A"] 1 [11] (cfg_init (E := string) init) false false) = NoFuel).
  { destruct fuel as [|[|[|f]]]; try reflexivity.
    - destruct look; reflexivity.
    - destruct look as [|[|look]]; reflexivity.
    - destruct look as [|look]; [reflexivity|].
      assert (Y : resolve Xml (S look) [TTerm "<"; TStr "A"] 23 0 = NoFuel) by (exact (forever look 1 (le_n 1))).
      assert (Z : iter Xml a_xml (S look) 13 (mk [TTerm "<"; TStr "A"] 1 [20; 24] (cfg_init (E := string) init) false false) = NoFuel).
      { change (bind (resolve Xml (S look) [TTerm "<"; TStr "A"] 23 0) (expand Xml (mk [TTerm "<"; TStr "A"] 1 [20; 24] (cfg_init (E := string) init) false false) 13) = NoFuel). rewrite Y. reflexivity. }
      change (bind (iter Xml a_xml (S look) 13 (mk [TTerm "<"; TStr "A"] 1 [20; 24] (cfg_init (E := string) init) false false)) (loop Xml a_xml f (S look)) = NoFuel). rewrite Z. reflexivity. }
  unfold current. cbn [inp hd usr]. change (token_type Xml (TTerm "<")) with 1. rewrite X. reflexivity.
Qed.
Print Assumptions C44_look_ahead_refuted.
(** Blocks nested too deep: the configuration is refused, though it is fine one level less deep. *)
Fixpoint nested (n : nat) (i : item) : item := match n with O => i | S k => Block "A" (nested k i) [] end.
Theorem C44_depth_refuted : outcome Standard a_standard (write (nested 252 (Leaf "x" None (Scalar (Num "1"))))) [] = Ret (true, Some []) /\
  outcome Standard a_standard (write (nested 253 (Leaf "x" None (Scalar (Num "1"))))) [] = Ret (false, Some []).
Proof. split; vm_compute; reflexivity. Qed.
(** 250 deep an expression is written over the value before it: y = "2" x = (uint32|"y") leaves no x. *)
Theorem C44_depth_name_refuted :
  match outcome Standard a_standard (flat_map write [Leaf "y" None (Scalar (Str "2")); nested 250 (Expr "x" "uint32" (Str "y"))]) (repeat (MoveRelative "A") 250 ++ [Read "x"; Read "y"]) with
  | Ret (b, Some l) => b = true /\ skipn 250 l = [Value None; Value (Some (Value_ "uint32" 0 1 1 ["2"]))]
  | _ => False
  end.
Proof. vm_compute. auto. Qed.
(** A block with a dotted name: what comes after it is put in the block. A.B = { x = 1 }  y = 2 *)
Theorem C44_dotted_block_refuted : outcome Standard a_standard (flat_map write [Block "A.B" (Leaf "x" None (Scalar (Num "1"))) []; Leaf "y" None (Scalar (Num "2"))]) [Read "y"; MoveAbsolute "A"; Read "y"] =
  Ret (true, Some [Value None; Ok true; text "2"]).
Proof. vm_compute. reflexivity. Qed.
(** A block whose dotted name goes through a value: undefined behaviour. x = 1  x.y.z = { w = 2 } *)
Theorem C44_block_through_value_refuted : outcome Standard a_standard (flat_map write [Leaf "x" None (Scalar (Num "1")); Block "x.y.z" (Leaf "w" None (Scalar (Num "2"))) []]) [] = Undef.
Proof. vm_compute. reflexivity. Qed.
(** A variable without a dot after one with a dot is looked for in the node of that one: with A = { x = 1 y = 2 } y = 3 the expression "A.x y" has the values 1 and 2, while
    "y A.x" has 3 and 1. *)
Theorem C44_variable_refuted :
  let cfg e := flat_map write [Block "A" (Leaf "x" None (Scalar (Num "1"))) [Leaf "y" None (Scalar (Num "2"))]; Leaf "y" None (Scalar (Num "3")); Expr "z" "uint32" (Str e)] in
  outcome Standard a_standard (cfg "A.x y") [Read "z"] = Ret (true, Some [Value (Some (Value_ "uint32" 0 1 1 ["1+2"]))]) /\ outcome Standard a_standard (cfg "y A.x") [Read "z"] = Ret (true, Some [Value (Some (Value_ "uint32" 0 1 1 ["3+1"]))]).
Proof. split; vm_compute; reflexivity. Qed.
(** A terminal of another syntax ends the configuration: Parse returns true and ignores the rest. x = 1 < y = 2 *)
Theorem C44_rest_refuted : outcome Standard a_standard (write (Leaf "x" None (Scalar (Num "1"))) ++ [TTerm "<"] ++ write (Leaf "y" None (Scalar (Num "2")))) [Read "x"; Read "y"] = Ret (true, Some [text "1"; Value None]).
Proof. vm_compute. reflexivity. Qed.
(** An empty block or an empty vector is refused. *)
Theorem C44_empty_refuted : outcome Standard a_standard [TStr "x"; TTerm "="; TTerm "{"; TTerm "}"] [] = Ret (false, Some []).
Proof. vm_compute. reflexivity. Qed.
(** A configuration without items leaves the cursor where it is, any other one moves it to the root. *)
Theorem C44_cursor_refuted : exists d : db (value string), exec name_hash init [CreateAbsolute "A"] = Some ([Ok true], d) /\
  forall rounds fuel look, 1 <= rounds -> 2 <= fuel -> 8 <= look -> exists u, parse Standard a_standard rounds fuel look [] (cfg_init d) = Ret (true, u) /\ exec name_hash (database u) [GetName] = Some ([Name (Some "A")], d).
Proof.
  eexists. split; [vm_compute; reflexivity|]. intros rounds fuel look A B C. eexists. split.
  - replace rounds with (S (rounds - 1)) by lia. replace fuel with (S (S (fuel - 2))) by lia. replace look with (S (S (S (S (S (S (S (S (look - 8))))))))) by lia. destruct (rounds - 1); vm_compute; reflexivity.
  - vm_compute. reflexivity.
Qed.
(** JSON: a vector of blocks named Idx in a vector of blocks is refused, with any other name it is not. *)
Theorem C44_json_idx_refuted :
  let cfg n := [TTerm "{"; TStr "v"; TTerm ":"; TTerm "["; TTerm "{"; TStr n; TTerm ":"; TTerm "["; TTerm "{"; TStr "x"; TTerm ":"; TNum "1"; TTerm "}"; TTerm "]"; TTerm "}"; TTerm "]"; TTerm "}"] in
  outcome Json a_json (cfg "w") [MoveAbsolute "v[0].w[0]"; Read "x"] = Ret (true, Some [Ok true; text "1"]) /\ outcome Json a_json (cfg "Idx") [] = Ret (false, Some []).
Proof. split; vm_compute; reflexivity. Qed.
