(** C47: what is printed of a database can be parsed, and is the same database with every element as its text. *)
From Coq Require Import String Ascii.
From Verif Require Import Base Paths IntText_Spec ConfigDB_Model ConfigDB_Spec ConfigDB_Proofs ConfigDB_Props Lex_Model Lex_Spec Reads Slk_Model Txt_Model Txt_Props Fmt_Model Fmt_Spec Fmt_Proofs Fmt_Props
  Cfg_Model Cfg_Spec Cfg_Db Cfg_Standard Cfg_Props Prt_Model Prt_Spec Prt_Values Prt_Trees Prt_Proofs.
Open Scope string_scope. Open Scope nat_scope. Open Scope list_scope.

(** ** Pieces of text *)
Lemma indent_put literal level : exists s, indent literal level = put s /\ Forall (fun c => c = 32%Z) s.
Proof. induction level as [|k (s & A & B)]; [exists []; split; [reflexivity|constructor]|]. cbn [indent]. rewrite A. exists ([32; 32; 32; 32]%Z ++ s). split; [reflexivity|]. apply Forall_app. split; [repeat constructor|exact B]. Qed.
Definition as_name : conversion := Conversion [] [] None L_s.
Lemma with_name_put literal a b n : Forall (fun c => c <> 37%Z) a -> Forall (fun c => c <> 37%Z) b -> short n -> printf literal (a ++ chars "%s" ++ b) [AScalar (SString literal (chars n))] = put (a ++ chars n ++ b).
Proof.
  intros A B S. pose proof (C46_printf_partial literal (map Literal a ++ [Convert as_name] ++ map Literal b) [AScalar (SString literal (chars n))]) as P.
  assert (L : forall x, format_text (map Literal x) = x) by (intros x; induction x as [|c x IH]; [reflexivity|]; cbn; f_equal; exact IH).
  assert (T : format_text (map Literal a ++ [Convert as_name] ++ map Literal b) = a ++ chars "%s" ++ b) by (unfold format_text; rewrite !flat_map_app; fold (format_text (map Literal a)); fold (format_text (map Literal b)); rewrite !L; reflexivity).
  rewrite T in P. assert (GP : forall x, Forall (fun c => c <> 37%Z) x -> Forall good_piece (map Literal x)) by (intros x X; induction X; constructor; auto).
  assert (GC : good_conversion as_name) by (split; [constructor|]; split; [reflexivity|]; split; [discriminate|exact Logic.I]).
  assert (F : fit (map Literal a ++ [Convert as_name] ++ map Literal b) [AScalar (SString literal (chars n))]).
  { clear -S. induction a as [|c a IH]; cbn [map app fit]; [|exact IH]. split; [|induction b as [|c b IH]; [exact Logic.I|exact IH]]. unfold arg_fits, scalar_fits. change (is_info as_name) with false. change (is_hex as_name) with false. cbn iota. split; [exact S|]. discriminate. }
  specialize (P ltac:(apply Forall_app; split; [apply GP, A|]; constructor; [exact GC|apply GP, B]) F). destruct (printf literal (a ++ chars "%s" ++ b) _) as [[out r]|]; [|contradiction]. destruct P as [-> Y]. unfold put. f_equal. f_equal.
  clear -Y. revert out Y. induction a as [|c a IH]; intros out Y; cbn [map app] in Y; inversion Y; subst; [|cbn [app]; f_equal; apply IH; assumption].
  assert (X : o = chars n) by (match goal with X : arg_shown _ _ o |- _ => cbn in X; rewrite app_nil_r in X; exact X end). subst o. cbn [app]. f_equal.
  clear Y. match goal with X : says (map Literal b) [] ?o |- _ => revert o X end. induction b as [|c b IHb]; intros o X; inversion X; subst; [reflexivity|f_equal; auto].
Qed.
Definition in_standard : fd := Eval vm_compute in match initialise_from_string (chars "!") with Some (f, _) => f | None => fd_default end.
Definition in_json : fd := Eval vm_compute in match initialise_from_string (chars "J!") with Some (f, _) => f | None => fd_default end.
Lemma standard_format : initialise_from_string (chars "!") = Some (in_standard, []). Proof. vm_compute. reflexivity. Qed.
Lemma json_format : initialise_from_string (chars "J!") = Some (in_json, []). Proof. vm_compute. reflexivity. Qed.
Lemma text_space literal : text literal " " = put [32%Z]. Proof. reflexivity. Qed.
Lemma nlr_put literal : nlr literal = put [13; 10]%Z. Proof. reflexivity. Qed.
Lemma then_put x y : andthen (put x) (put y) = put (x ++ y). Proof. reflexivity. Qed.
Lemma name_ne n : good_name n -> chars n <> []. Proof. intros [N _] X. apply N. destruct n as [|c n]; [reflexivity|discriminate]. Qed.

(** ** MARTe's own syntax *)
Section Standard.
Context (isnum : list Z -> bool) (literal : Z).
Notation G := (standard_grammar isnum).
Notation f := in_standard.
Lemma std_sep c : In c [10; 13; 9; 44; 32]%Z -> is_sep G c. Proof. intros I. exact I. Qed.
Lemma std_term c : In c [61; 123; 125]%Z -> is_term G c. Proof. intros I. cbn in I. repeat (destruct I as [<-|I]; [vm_compute; tauto|]). contradiction. Qed.
Lemma std_digit c : (48 <= c <= 57)%Z \/ c = 45%Z -> ordinary G c.
Proof.
  intros R. assert (K : forall x, In x [0; 34; 92; 47; 10; 13; 9; 44; 32; 61; 123; 125; 40; 41; 124]%Z -> c <> x) by (intros x I ->; cbn [In] in I; lia).
  split; [apply K; cbn; tauto|]. split; [apply K; cbn; tauto|]. split; [apply K; cbn; tauto|]. split; [apply K; cbn; tauto|]. split; intros I; [|vm_compute in I]; [cbn in I; repeat (destruct I as [I|I]; [exact (K c ltac:(rewrite <- I; cbn; tauto) eq_refl)|]); exact I|].
  repeat (destruct I as [I|I]; [exact (K c ltac:(rewrite <- I; cbn; tauto) eq_refl)|]). exact I.
Qed.
Hypothesis all_numbers : forall w z, decimal_text w z -> isnum w = true.
Definition std_ok (x : value scalar) (v : val) : Prop := same_value x v /\ exists out, printf literal (chars "%#!") [to_arg x] = Some (out, true) /\ emits_stop G out (write_val "{" "}" v).
Lemma std_value x : printable_value x -> exists v, std_ok x v.
Proof.
  intros P. destruct (value_emits G literal x (standard_grammar_simple isnum) (std_sep 32%Z ltac:(cbn; tauto)) std_digit all_numbers (std_term 123%Z ltac:(cbn; tauto)) (std_term 125%Z ltac:(cbn; tauto)) P) as (v & out & A & B & C).
  exists v. split; [exact A|]. eauto.
Qed.
Lemma seps_of s : Forall (fun c => c = 32%Z) s -> Forall (is_sep G) s. Proof. apply Forall_impl. intros c ->. apply std_sep. cbn. tauto. Qed.
Lemma std_crlf : emits G [13; 10]%Z []. Proof. apply emits_seps. repeat (constructor; [apply std_sep; cbn; tauto|]). constructor. Qed.
Lemma name_emits n : word_name G n -> emits G (chars n ++ chars " =") [TStr n; TTerm "="].
Proof.
  intros (GN & _ & F & N) r k R. rewrite <- app_assoc. change ([TStr n; TTerm "="] ++ k) with (TStr n :: TTerm (text_of [61%Z]) :: k). rewrite <- (text_of_chars n) at 2.
  apply reads_word; [apply standard_grammar_simple|apply name_ne, GN|exact F|exact N| |].
  - apply stop_sep, std_sep. cbn. tauto.
  - apply reads_sep; [apply std_sep; cbn; tauto|]. apply reads_term; [apply std_term; cbn; tauto|exact R].
Qed.
Lemma std_leaf level last n x v : word_name G n -> std_ok x v -> exists out, leaf_out literal f level last n x = put out /\ emits G out (write (Leaf n None v)).
Proof.
  intros N (_ & o & P & M). destruct (indent_put literal level) as (s & A & B). unfold leaf_out. rewrite A, text_space, P, nlr_put. change (Some (o, true)) with (put o).
  change (open_assignment literal f n) with (put (chars n ++ chars " =")). change (close_assignment literal f n) with (put []). change (item_separator f) with (put []). destruct last; rewrite !then_put, !app_nil_r.
  all: eexists; split; [reflexivity|]; cbn [write]; rewrite <- !app_assoc; change (TStr n :: TTerm "=" :: write_val "{" "}" v) with ([] ++ [TStr n; TTerm "="] ++ [] ++ write_val "{" "}" v); apply emits_app; [apply emits_seps, seps_of, B|];
    rewrite app_assoc; apply emits_app; [apply name_emits, N|]; apply emits_app; [apply emits_seps; constructor; [apply std_sep; cbn; tauto|constructor]|];
    change [13; 10]%Z with ([13] ++ [10])%Z; rewrite app_assoc; rewrite <- (app_nil_r (write_val "{" "}" v)); apply emits_app; [apply emits_stop_sep; [apply std_sep; cbn; tauto|exact M]|apply emits_seps; constructor; [apply std_sep; cbn; tauto|constructor]].
Qed.
Definition std_opening (n : string) : list token := [TStr n; TTerm "="; TTerm "{"].
Lemma std_open level n : word_name G n -> exists out, open_out literal f level n = put out /\ emits G out (std_opening n).
Proof.
  intros N. destruct (indent_put literal level) as (s & A & B). unfold open_out. rewrite A, nlr_put. change (open_block literal f n) with (printf literal ([] ++ chars "%s" ++ chars " = {") [AScalar (SString literal (chars n))]).
  rewrite with_name_put; [|constructor|repeat (constructor; [discriminate|]); constructor|apply N]. rewrite !then_put. eexists. split; [reflexivity|]. cbn [app]. rewrite <- !app_assoc.
  change (std_opening n) with ([] ++ [TStr n; TTerm "="] ++ [] ++ [TTerm (text_of [123%Z])] ++ []). apply emits_app; [apply emits_seps, seps_of, B|]. change (chars " = {" ++ [13; 10]%Z) with (chars " =" ++ [32]%Z ++ [123]%Z ++ [13; 10]%Z). rewrite app_assoc.
  apply emits_app; [apply name_emits, N|]. apply emits_app; [apply emits_seps; constructor; [apply std_sep; cbn; tauto|constructor]|]. apply emits_app; [apply emits_term, std_term; cbn; tauto|apply std_crlf].
Qed.
Lemma std_close level last n : word_name G n -> exists out, close_out literal f level last n = put out /\ emits G out [TTerm "}"].
Proof.
  intros N. destruct (indent_put literal level) as (s & A & B). unfold close_out. rewrite A, nlr_put. change (close_block literal f n) with (put [125%Z]). change (item_separator f) with (put []).
  destruct last; rewrite !then_put, !app_nil_r; eexists; (split; [reflexivity|]); rewrite <- !app_assoc; change [TTerm "}"] with ([] ++ [TTerm (text_of [125%Z])] ++ []); (apply emits_app; [apply emits_seps, seps_of, B|]);
    (apply emits_app; [apply emits_term, std_term; cbn; tauto|apply std_crlf]).
Qed.
Lemma std_block n i l : write (Block n i l) = std_opening n ++ flat_map write (i :: l) ++ [TTerm "}"]. Proof. reflexivity. Qed.
End Standard.

(** ** The items of a database that can be printed *)
Section Items.
Context (U : list string) (t : tree (value scalar)) (ok : value scalar -> val -> Prop) (name : string -> Prop).
Hypothesis good : forall n, name n -> good_name n.
Hypothesis ordered : orderly U t.
Lemma item_names_ok i : forall p, (forall q, ent t (p ++ iname i :: q) = Some Dir -> Forall name (names t (p ++ iname i :: q))) -> good_name (iname i) -> In (iname i) U -> spelt ok t p i -> good_item i /\ forall n, In n (item_names i) -> In n U.
Proof.
  induction i as [n c v|n o e|n i l IH1 IH2] using item_ind2; intros p A B C S.
  - split; [exact Logic.I|]. intros m [<-|[]]. exact C.
  - contradiction.
  - apply spelt_block in S. destruct S as (S1 & S2 & S3). cbn [iname] in *. assert (F : Forall (fun i => good_item i /\ forall m, In m (item_names i) -> In m U) (i :: l)).
    { pose proof (A [] S1) as AN. rewrite S2 in AN. destruct (ordered _ S1) as [_ IU]. rewrite S2 in IU. rewrite Forall_forall in S3, AN. assert (IH : Forall (fun i => forall p, (forall q, ent t (p ++ iname i :: q) = Some Dir -> Forall name (names t (p ++ iname i :: q))) -> good_name (iname i) -> In (iname i) U -> spelt ok t p i -> good_item i /\ forall n, In n (item_names i) -> In n U) (i :: l)) by (constructor; assumption).
      rewrite Forall_forall in IH |- *. intros j J. apply (IH j J (p ++ [n])); [|apply good, AN, in_map, J|apply IU, in_map, J|apply S3, J]. intros q. rewrite <- app_assoc. apply (A (iname j :: q)). }
    inversion F as [|? ? [F1 F2] F3]; subst. split.
    + cbn [good_item]. split; [exact B|]. split; [exact F1|]. clear -F3. induction F3 as [|j l [X _] F IH]; [exact Logic.I|split; assumption].
    + intros m [<-|I]; [exact C|]. apply in_app_or in I. destruct I as [I|I]; [apply F2, I|]. apply in_flat_map in I. destruct I as (j & J & I). rewrite Forall_forall in F3. destruct (F3 j J) as [_ X]. apply X, I.
Qed.
End Items.

(** What the parsed tree is: the items added to an empty database *)
Lemma read_back {E} (conv : string -> string -> option E) (ok : value scalar -> val -> Prop) (name : string -> Prop) U (t : tree (value scalar)) (items : list item) :
  (forall x v, ok x v -> same_value x v) -> (forall s, conv "string" s <> None) -> (forall n, name n -> good_name n) -> closed t -> orderly U t -> (forall q, ent t (at_ t ++ q) = Some Dir -> Forall name (names t (at_ t ++ q))) ->
  ent t (at_ t) = Some Dir -> names t (at_ t) = map iname items -> Forall (spelt ok t (at_ t)) items ->
  exists t1, add_all conv empty [] items = Some (t1, []) /\ forall t2, ent t2 = ent t1 -> names t2 = names t1 -> at_ t2 = [] -> written conv t t2.
Proof.
  intros SV TOT good CL OR AN D NM SP. set (base := at_ t) in *.
  (* only the names below the current node matter: the rest of the tree is left out *)
  set (ts := Tr (fun q => ent t (base ++ q)) (fun q => names t (base ++ q)) []).
  assert (OS : orderly U ts) by (intros q Q; apply (OR (base ++ q) Q)).
  assert (NS : forall q n, ent ts q = Some Dir -> In n (names ts q) -> n <> "") by (intros q n Q I; specialize (AN q Q); rewrite Forall_forall in AN; apply (good n), AN, I).
  assert (SS : forall i p, spelt ok t (base ++ p) i -> spelt ok ts p i).
  { induction i as [n c v|n o e|n i l IH1 IH2] using item_ind2; intros p S.
    - destruct c; [contradiction|]. destruct S as (x & X & Y). exists x. split; [cbn [ts ent]; rewrite app_assoc; exact X|exact Y].
    - contradiction.
    - apply spelt_block in S. apply spelt_block. rewrite <- app_assoc in S. destruct S as (A & B & C). split; [exact A|]. split; [exact B|]. assert (IH : Forall (fun i => forall p, spelt ok t (base ++ p) i -> spelt ok ts p i) (i :: l)) by (constructor; assumption).
      rewrite Forall_forall in IH, C |- *. intros j J. apply (IH j J), C, J. }
  assert (SP' : Forall (spelt ok ts []) items) by (eapply Forall_impl; [|exact SP]; intros i S; apply SS; rewrite app_nil_r; exact S).
  assert (CE : closed (@empty (value E))).
  { split; [intros p n N; exfalso; apply N; destruct p; reflexivity|intros p n _ []]. }
  destruct (OR base D) as [ND _]. rewrite NM in ND.
  destruct (add_list ok conv ts NS items) with (t := @empty (value E)) (p := @nil string) (ps := @nil string) as (t1 & A & B & C1 & C2 & C3 & C4); auto.
  { apply Forall_forall. intros i _. apply (add_item ok conv) with (U := U); auto. intros x v O. destruct (parsed_value conv x v TOT (SV x v O)) as (x' & X & _). eauto. }
  { intros n I. apply (NS [] n); cbn [ts ent names]; rewrite app_nil_r; [exact D|rewrite NM; exact I]. }
  exists t1. split; [exact A|]. intros t2 E2 N2 A2. split; [exact A2|]. intros q. fold base. rewrite E2, N2.
  apply (same_tree ok (ok' conv) (written_value conv) t t1) with (p' := []) (l := items); auto.
  - intros x x' v O O'. destruct (parsed_value conv x v TOT (SV x v O)) as (x'' & X & Y). unfold ok' in O'. congruence.
  - destruct (C4 []) as [-> _]; [intros n r _ Q; discriminate|reflexivity].
Qed.

(** More fuel changes nothing. *)
Lemma more_children H literal f level deeper deeper' : (forall d r, deeper d = Some r -> deeper' d = Some r) -> forall m i d r, children H literal f level deeper m i d = Some r -> children H literal f level deeper' m i d = Some r.
Proof.
  intros M. assert (EM : forall o d k k' r, emit o d k = Some r -> (forall r, k = Some r -> k' = Some r) -> emit o d k' = Some r).
  { intros [[x []]|] d k k' r Y K; cbn [emit] in *; auto. destruct k as [[[y b] e]|]; [|discriminate]. rewrite (K _ eq_refl). exact Y. }
  induction m as [|m IH]; intros i d r X; cbn [children] in *; [exact X|]. unfold child in *. destruct (step H d (GetChildName i)) as [[[| | |[nm|]] ?]|]; try discriminate. destruct (step H d (Read nm)) as [[[|[v|]| |] ?]|]; try discriminate.
  - repeat (eapply EM; [eassumption|clear X; intros ? X]). apply IH, X.
  - destruct (step H d (MoveRelative nm)) as [[[[]| | |] e1]|]; try discriminate; [|apply IH, X]. repeat (eapply EM; [eassumption|clear X; intros ? X]). destruct (deeper e1) as [[[x []] e2]|] eqn:DE; [|rewrite (M _ _ DE); exact X|discriminate].
    rewrite (M _ _ DE). destruct (step H e2 (MoveToAncestor 1)) as [[[[]| | |] e3]|]; try discriminate; [|exact X]. repeat (eapply EM; [eassumption|clear X; intros ? X]). apply IH, X.
Qed.
Lemma more_fuel H literal f k k' : k <= k' -> forall level d r, print_structured H literal k f level d = Some r -> print_structured H literal k' f level d = Some r.
Proof.
  revert k'. induction k as [|k IH]; intros k' L level d r X; [discriminate|]. destruct k' as [|k']; [lia|]. cbn [print_structured] in *. destruct (step H d GetNumberOfChildren) as [[[| |n|] d1]|]; try discriminate.
  eapply more_children; [|exact X]. intros d' r'. apply IH. lia.
Qed.

(** ** MARTe's own syntax. [isnum] recognises the numbers in a text, [conv] converts a text to a string: neither may refuse what is printed. *)
Theorem C47_standard_partial : forall (E : Type) (H : string -> Z) (conv : string -> string -> option E) textof vars is_num eval isnum literal (U : list string) (before after : list (sop (value scalar))) (after' : list (sop (value E))),
  distinct_hashes H U -> Forall good_paths before -> Forall good_paths after -> Forall good_paths after' -> (forall n, In n (flat_map used (before ++ after)) \/ In n (flat_map used after') -> In n U) -> all_clear empty before ->
  (forall w z, decimal_text w z -> isnum w = true) -> (forall s, conv "string" s <> None) ->
  let t := snd (srun empty before) in
  printable_tree (word_name (standard_grammar isnum)) printable_value 249 t ->
  exists d text d', exec H init (map ConfigDB_Spec.call before) = Some (fst (srun empty before), d) /\
    (forall fuel, 250 <= fuel -> print_database H literal fuel "!" d = Some (text, true, d')) /\
    (all_clear t after -> exists d2, exec H d' (map ConfigDB_Spec.call after) = Some (fst (srun t after), d2)) /\
    exists t', written conv t t' /\
      text_returns (standard_grammar isnum) Standard (standard_execute H conv textof vars is_num eval) text (cfg_init init) true (fun u => all_clear t' after' -> exists d2, exec H (database u) (map ConfigDB_Spec.call after') = Some (fst (srun t' after'), d2)).
Proof.
  intros E H conv textof vars is_num eval isnum literal U before after after' inj GB GA GA' W AC NUM TOT t PT.
  destruct (exec_ok H U inj before init empty (sim_init H U) GB) as (d & X & S); [intros n I; apply W; left; rewrite flat_map_app; apply in_or_app; left; exact I|exact AC|]. fold t in S.
  destruct S as [R L]. destruct (rel_closed H U (hp d) (nxt d) t R) as [CL OR]. assert (D : ent t (at_ t) = Some Dir) by (rewrite (r_ent H U _ _ t R), L; reflexivity).
  set (ok := std_ok isnum literal). set (G := standard_grammar isnum).
  assert (AN : forall q, ent t (at_ t ++ q) = Some Dir -> Forall (word_name G) (names t (at_ t ++ q))) by (intros q Q; pose proof (PT q) as P; rewrite Q in P; apply P).
  destruct (describe ok t (249 + List.length (at_ t)) CL 249 (at_ t)) as (items & NM & SP & DP); [lia| |exact D|].
  { intros r. pose proof (PT r) as P. destruct (ent t (at_ t ++ r)) as [[|x]|]; [|apply std_value; [exact NUM|exact P]|exact Logic.I]. rewrite app_length. split; [apply P|lia]. }
  assert (DP' : forall i, In i items -> depth i <= 249) by (intros i I; specialize (DP i I); lia).
  assert (ME : move_to t (at_ t ++ []) = t) by (rewrite app_nil_r; destruct t; reflexivity).
  assert (good : forall n, word_name G n -> good_name n) by (intros n N; apply N).
  assert (PR : forall fuel, 250 <= fuel -> exists text d', print_structured H literal fuel in_standard 0 d = Some (text, true, d') /\ sim H U d' t /\ emits G text (flat_map write items)).
  { intros fuel F. destruct (print_ok H U inj literal G in_standard ok (word_name G) write std_opening [TTerm "}"] (fun level last n x v => std_leaf isnum literal level last n x v) (std_open isnum literal) (std_close isnum literal) std_block good t OR (at_ t) AN fuel 0 [] items d) as (text & d' & P1 & P2 & P3).
    - rewrite app_nil_r. exact D.
    - rewrite ME. split; assumption.
    - rewrite app_nil_r. exact NM.
    - rewrite app_nil_r. exact SP.
    - intros i I. specialize (DP' i I). lia.
    - lia.
    - rewrite ME in P2. eauto. }
  destruct (PR 250 ltac:(lia)) as (text & d' & P1 & P2 & P3). exists d, text, d'. split; [exact X|]. split; [|split].
  - intros fuel F. unfold print_database. rewrite standard_format. exact (more_fuel H literal in_standard 250 fuel F 0 d _ P1).
  - intros A. destruct (exec_ok H U inj after d' t P2 GA) as (d2 & Y & _); [intros n I; apply W; left; rewrite flat_map_app; apply in_or_app; right; exact I|exact A|]. eauto.
  - destruct (read_back conv ok (word_name G) U t items) as (t1 & B1 & B2); auto; [intros x v O; apply O|].
    assert (CF : configured conv textof vars is_num eval empty items = Some (match items with [] => t1 | _ => move_to t1 [] end)) by (unfold configured; cbn [at_ empty]; rewrite B1; reflexivity).
    assert (A1 : at_ (match items with [] => t1 | _ => move_to t1 [] end) = []) by (destruct items; [cbn in B1; injection B1 as <-; reflexivity|reflexivity]).
    exists (match items with [] => t1 | _ => move_to t1 [] end). split; [apply B2; [destruct items; reflexivity|destruct items; reflexivity|exact A1]|].
    assert (GI : Forall (fun i => good_item i /\ forall n, In n (item_names i) -> In n U) items).
    { pose proof (AN [] ltac:(rewrite app_nil_r; exact D)) as A0. rewrite app_nil_r, NM in A0. destruct (OR _ D) as [_ IU]. rewrite NM in IU. rewrite Forall_forall in A0, SP |- *. intros i I.
      apply (item_names_ok U t ok (word_name G) good OR i (at_ t)); [intros q; apply AN|apply good, A0, in_map, I|apply IU, in_map, I|apply SP, I]. }
    destruct (C44_standard_text_partial E H conv textof vars is_num eval isnum U [] after' items text inj ltac:(constructor) GA') as (d0 & Y0 & Y); auto.
    + exact Logic.I.
    + split; [eapply Forall_impl; [|exact GI]; intros i [Q _]; exact Q|]. split.
      * intros n I. apply in_flat_map in I. destruct I as (i & I & J). rewrite Forall_forall in GI. apply (GI i I), J.
      * cbn [srun snd at_ empty]. rewrite B1. exact Logic.I.
    + pose proof (P3 [] [] (reads_nil G)) as Q. rewrite !app_nil_r in Q. exact (Q 1%Z).
    + cbn [map exec] in Y0. injection Y0 as <-. cbn zeta in Y. cbn [srun snd] in Y. rewrite CF in Y. exact Y.
Qed.
Print Assumptions C47_standard_partial.

(** ** JSON. The values are written as in MARTe's own syntax, which JSON has in common only for scalars. *)
Fixpoint to_json (i : item) : jitem :=
  match i with Leaf n c v => JLeaf n c v | Expr n _ e => JLeaf n None (Scalar e) | Block n i l => JBlock n (JB (to_json i) (map to_json l)) end.
Section Json.
Context (isnum : list Z -> bool) (literal : Z).
Notation G := (json_grammar isnum).
Notation f := in_json.
Lemma json_sep c : In c [10; 13; 9; 44; 32]%Z -> is_sep G c. Proof. intros I. exact I. Qed.
Lemma json_term c : In c [58; 123; 125]%Z -> is_term G c. Proof. intros I. cbn in I. repeat (destruct I as [<-|I]; [vm_compute; tauto|]). contradiction. Qed.
Lemma json_digit c : (48 <= c <= 57)%Z \/ c = 45%Z -> ordinary G c.
Proof.
  intros R. assert (K : forall x, In x [0; 34; 92; 47; 10; 13; 9; 44; 32; 58; 123; 125; 91; 93]%Z -> c <> x) by (intros x I ->; cbn [In] in I; lia).
  split; [apply K; cbn; tauto|]. split; [apply K; cbn; tauto|]. split; [apply K; cbn; tauto|]. split; [apply K; cbn; tauto|]. split; intros I; [|vm_compute in I]; [cbn in I; repeat (destruct I as [I|I]; [exact (K c ltac:(rewrite <- I; cbn; tauto) eq_refl)|]); exact I|].
  repeat (destruct I as [I|I]; [exact (K c ltac:(rewrite <- I; cbn; tauto) eq_refl)|]). exact I.
Qed.
Hypothesis all_numbers : forall w z, decimal_text w z -> isnum w = true.
Definition json_ok (x : value scalar) (v : val) : Prop := same_value x v /\ exists e out, v = Scalar e /\ printf literal (chars "%#!") [to_arg x] = Some (out, true) /\ emits_stop G out [tok e].
Lemma json_value x : printable_value x -> vdims x = 0 -> exists v, json_ok x v.
Proof. intros P D. destruct (scalar_value_emits G literal x (json_grammar_simple isnum) json_digit all_numbers P D) as (e & out & A & B & C). exists (Scalar e). split; [exact A|]. eauto. Qed.
Lemma json_seps s : Forall (fun c => c = 32%Z) s -> Forall (is_sep G) s. Proof. apply Forall_impl. intros c ->. apply json_sep. cbn. tauto. Qed.
Lemma json_end s : Forall (fun c => In c [10; 13; 9; 44; 32]%Z) s -> emits G s []. Proof. intros F. apply emits_seps. eapply Forall_impl; [|exact F]. exact json_sep. Qed.
Lemma json_name_emits n : quoted_name n -> emits G ([34]%Z ++ chars n ++ [34]%Z ++ [58]%Z) [TStr n; TTerm ":"].
Proof.
  intros (_ & _ & F) r k R. rewrite <- !app_assoc. cbn [app]. change (TStr n :: TTerm ":" :: k) with (TStr n :: TTerm (text_of [58%Z]) :: k). rewrite <- (text_of_chars n) at 2. apply reads_quoted; [exact F|]. apply reads_term; [apply json_term; cbn; tauto|exact R].
Qed.
Lemma json_leaf level last n x v : quoted_name n -> json_ok x v -> exists out, leaf_out literal f level last n x = put out /\ emits G out (write_json (to_json (Leaf n None v))).
Proof.
  intros N (_ & e & o & -> & P & M). destruct (indent_put literal level) as (s & A & B). unfold leaf_out. rewrite A, text_space, P, nlr_put. change (Some (o, true)) with (put o).
  change (open_assignment literal f n) with (put ([34]%Z ++ chars n ++ [34]%Z ++ [58]%Z)). change (close_assignment literal f n) with (put []). change (item_separator f) with (put [44]%Z).
  assert (K : forall c e', In c [10; 13; 9; 44; 32]%Z -> Forall (fun c => In c [10; 13; 9; 44; 32]%Z) e' -> emits G (s ++ ([34]%Z ++ chars n ++ [34]%Z ++ [58]%Z) ++ [32]%Z ++ (o ++ [c]) ++ e') (write_json (to_json (Leaf n None (Scalar e))))).
  { intros c e' C F. cbn [to_json write_json write_val]. change (TStr n :: TTerm ":" :: [tok e]) with ([] ++ [TStr n; TTerm ":"] ++ [] ++ [tok e] ++ []). apply emits_app; [apply emits_seps, json_seps, B|]. apply emits_app; [apply json_name_emits, N|].
    apply emits_app; [apply json_end; repeat constructor; cbn; tauto|]. apply emits_app; [apply emits_stop_sep; [apply json_sep, C|exact M]|apply json_end, F]. }
  destruct last; rewrite !then_put; eexists; (split; [reflexivity|]); rewrite <- !app_assoc.
  - specialize (K 13%Z [10]%Z ltac:(cbn; tauto) ltac:(repeat constructor; cbn; tauto)). rewrite <- !app_assoc in K. exact K.
  - specialize (K 44%Z [13; 10]%Z ltac:(cbn; tauto) ltac:(repeat constructor; cbn; tauto)). rewrite <- !app_assoc in K. exact K.
Qed.
Definition json_opening (n : string) : list token := [TStr n; TTerm ":"; TTerm "{"].
Lemma json_open level n : quoted_name n -> exists out, open_out literal f level n = put out /\ emits G out (json_opening n).
Proof.
  intros N. destruct (indent_put literal level) as (s & A & B). unfold open_out. rewrite A, nlr_put. change (open_block literal f n) with (printf literal ([34]%Z ++ chars "%s" ++ [34; 58; 32; 123]%Z) [AScalar (SString literal (chars n))]).
  rewrite with_name_put; [|repeat (constructor; [discriminate|]); constructor|repeat (constructor; [discriminate|]); constructor|apply N]. rewrite !then_put. eexists. split; [reflexivity|].
  change (json_opening n) with ([] ++ [TStr n; TTerm ":"] ++ [] ++ [TTerm (text_of [123%Z])] ++ []). rewrite <- !app_assoc. change ([34; 58; 32; 123]%Z ++ [13; 10]%Z) with ([34]%Z ++ [58]%Z ++ [32]%Z ++ [123]%Z ++ [13; 10]%Z).
  apply emits_app; [apply emits_seps, json_seps, B|]. pose proof (json_name_emits n N) as J. intros r k R. specialize (J ([32]%Z ++ [123]%Z ++ [13; 10]%Z ++ r) (TTerm (text_of [123%Z]) :: k)).
  rewrite <- !app_assoc in *. apply J. apply reads_sep; [apply json_sep; cbn; tauto|]. apply reads_term; [apply json_term; cbn; tauto|]. apply (json_end [13; 10]%Z); [repeat constructor; cbn; tauto|exact R].
Qed.
Lemma json_close level last n : quoted_name n -> exists out, close_out literal f level last n = put out /\ emits G out [TTerm "}"].
Proof.
  intros N. destruct (indent_put literal level) as (s & A & B). unfold close_out. rewrite A, nlr_put. change (close_block literal f n) with (put [125%Z]). change (item_separator f) with (put [44%Z]).
  destruct last; rewrite !then_put; eexists; (split; [reflexivity|]); rewrite <- !app_assoc; change [TTerm "}"] with ([] ++ [TTerm (text_of [125%Z])] ++ []); (apply emits_app; [apply emits_seps, json_seps, B|]);
    (apply emits_app; [apply emits_term, json_term; cbn; tauto|apply json_end; repeat constructor; cbn; tauto]).
Qed.
Lemma json_block n i l : write_json (to_json (Block n i l)) = json_opening n ++ flat_map (fun i => write_json (to_json i)) (i :: l) ++ [TTerm "}"].
Proof. assert (K : flat_map write_json (map to_json l) = flat_map (fun i => write_json (to_json i)) l) by (induction l as [|j l IH]; [reflexivity|]; cbn [map flat_map]; rewrite IH; reflexivity). cbn [to_json write_json write_jblock flat_map]. rewrite K. reflexivity. Qed.
End Json.
(** The items of the JSON text *)
Section ToJson.
Context {V : Type} (ok : V -> val -> Prop) (t : tree V).
Lemma json_items i : forall p, spelt ok t p i -> of_json (to_json i) = [i] /\ vector_names (to_json i) = [] /\ jdepth (to_json i) = depth i.
Proof.
  induction i as [n c v|n o e|n i l IH1 IH2] using item_ind2; intros p S; [auto|contradiction|]. apply spelt_block in S. destruct S as (_ & _ & S). inversion S as [|? ? S1 S2]; subst. destruct (IH1 _ S1) as (A & B & C).
  assert (L : flat_map of_json (map to_json l) = l /\ flat_map vector_names (map to_json l) = [] /\ forall k, fold_right (fun i m => Nat.max (jdepth i) m) k (map to_json l) = fold_right (fun i m => Nat.max (depth i) m) k l).
  { clear -IH2 S2. induction IH2 as [|j l J F IH]; [auto|]. inversion S2; subst. destruct (J (p ++ [n])) as (X & Y & Z); [assumption|]. destruct IH as (X' & Y' & Z'); [assumption|]. cbn [map flat_map fold_right]. rewrite X, Y, X', Y', Z. split; [reflexivity|]. split; [reflexivity|]. intros k. rewrite Z'. reflexivity. }
  destruct L as (L1 & L2 & L3). cbn [to_json of_json of_jblock vector_names block_vector_names jdepth jbdepth depth]. rewrite A, L1, B, L2, C, L3. auto.
Qed.
Lemma json_list p l : Forall (spelt ok t p) l -> flat_map of_json (map to_json l) = l /\ flat_map vector_names (map to_json l) = [] /\ (forall i, In i (map to_json l) -> exists j, In j l /\ jdepth i = depth j) /\ flat_map write_json (map to_json l) = flat_map (fun i => write_json (to_json i)) l.
Proof.
  induction 1 as [|i l S F (A & B & C & D)]; [repeat split; intros i []|]. destruct (json_items i p S) as (X & Y & Z). cbn [map flat_map]. rewrite X, Y, A, B, D. split; [reflexivity|]. split; [reflexivity|]. split; [|reflexivity].
  intros j [<-|J]; [exists i; split; [left; reflexivity|exact Z]|]. destruct (C j J) as (k & K & Q). exists k. split; [right; exact K|exact Q].
Qed.
End ToJson.
Theorem C47_json_partial : forall (E : Type) (H : string -> Z) (conv : string -> string -> option E) textof vars is_num eval isnum literal (U : list string) (before after : list (sop (value scalar))) (after' : list (sop (value E))),
  distinct_hashes H U -> In "Idx" U -> Forall good_paths before -> Forall good_paths after -> Forall good_paths after' -> (forall n, In n (flat_map used (before ++ after)) \/ In n (flat_map used after') -> In n U) -> all_clear empty before ->
  (forall w z, decimal_text w z -> isnum w = true) -> (forall s, conv "string" s <> None) ->
  let t := snd (srun empty before) in
  printable_tree quoted_name (fun x => printable_value x /\ vdims x = 0) 124 t ->
  exists d text d', exec H init (map ConfigDB_Spec.call before) = Some (fst (srun empty before), d) /\
    (forall fuel, 125 <= fuel -> print_database H literal fuel "J!" d = Some (text, true, d')) /\
    (all_clear t after -> exists d2, exec H d' (map ConfigDB_Spec.call after) = Some (fst (srun t after), d2)) /\
    exists t', written conv t t' /\
      text_returns (json_grammar isnum) Json (json_execute H conv textof vars is_num eval) text (cfg_init init) true (fun u => all_clear t' after' -> exists d2, exec H (database u) (map ConfigDB_Spec.call after') = Some (fst (srun t' after'), d2)).
Proof.
  intros E H conv textof vars is_num eval isnum literal U before after after' inj IX GB GA GA' W AC NUM TOT t PT.
  destruct (exec_ok H U inj before init empty (sim_init H U) GB) as (d & X & S); [intros n I; apply W; left; rewrite flat_map_app; apply in_or_app; left; exact I|exact AC|]. fold t in S.
  destruct S as [R L]. destruct (rel_closed H U (hp d) (nxt d) t R) as [CL OR]. assert (D : ent t (at_ t) = Some Dir) by (rewrite (r_ent H U _ _ t R), L; reflexivity).
  set (ok := json_ok isnum literal). set (G := json_grammar isnum).
  assert (AN : forall q, ent t (at_ t ++ q) = Some Dir -> Forall quoted_name (names t (at_ t ++ q))) by (intros q Q; pose proof (PT q) as P; rewrite Q in P; apply P).
  destruct (describe ok t (124 + List.length (at_ t)) CL 124 (at_ t)) as (items & NM & SP & DP); [lia| |exact D|].
  { intros r. pose proof (PT r) as P. destruct (ent t (at_ t ++ r)) as [[|x]|]; [|apply json_value; [exact NUM|apply P|apply P]|exact Logic.I]. rewrite app_length. split; [apply P|lia]. }
  assert (DP' : forall i, In i items -> depth i <= 124) by (intros i I; specialize (DP i I); lia).
  assert (ME : move_to t (at_ t ++ []) = t) by (rewrite app_nil_r; destruct t; reflexivity).
  assert (good : forall n, quoted_name n -> good_name n) by (intros n N; apply N).
  destruct (json_list ok t (at_ t) items SP) as (J1 & J2 & J3 & J4).
  destruct (print_ok H U inj literal G in_json ok quoted_name (fun i => write_json (to_json i)) json_opening [TTerm "}"] (fun level last n x v => json_leaf isnum literal level last n x v) (json_open isnum literal) (json_close isnum literal) json_block good t OR (at_ t) AN 125 0 [] items d) as (text & d' & P1 & P2 & P3).
  { rewrite app_nil_r. exact D. } { rewrite ME. split; assumption. } { rewrite app_nil_r. exact NM. } { rewrite app_nil_r. exact SP. } { intros i I. specialize (DP' i I). lia. } { lia. }
  rewrite ME in P2. rewrite <- J4 in P3. exists d, text, d'. split; [exact X|]. split; [|split].
  - intros fuel F. unfold print_database. rewrite json_format. exact (more_fuel H literal in_json 125 fuel F 0 d _ P1).
  - intros A. destruct (exec_ok H U inj after d' t P2 GA) as (d2 & Y & _); [intros n I; apply W; left; rewrite flat_map_app; apply in_or_app; right; exact I|exact A|]. eauto.
  - destruct (read_back conv ok quoted_name U t items) as (t1 & B1 & B2); auto; [intros x v O; apply O|].
    assert (CF : configured conv textof vars is_num eval empty items = Some (match items with [] => t1 | _ => move_to t1 [] end)) by (unfold configured; cbn [at_ empty]; rewrite B1; reflexivity).
    assert (A1 : at_ (match items with [] => t1 | _ => move_to t1 [] end) = []) by (destruct items; [cbn in B1; injection B1 as <-; reflexivity|reflexivity]).
    exists (match items with [] => t1 | _ => move_to t1 [] end). split; [apply B2; [destruct items; reflexivity|destruct items; reflexivity|exact A1]|].
    assert (GI : Forall (fun i => good_item i /\ forall n, In n (item_names i) -> In n U) items).
    { pose proof (AN [] ltac:(rewrite app_nil_r; exact D)) as A0. rewrite app_nil_r, NM in A0. destruct (OR _ D) as [_ IU]. rewrite NM in IU. rewrite Forall_forall in A0, SP |- *. intros i I.
      apply (item_names_ok U t ok quoted_name good OR i (at_ t)); [intros q; apply AN|apply good, A0, in_map, I|apply IU, in_map, I|apply SP, I]. }
    destruct (C44_json_text_partial E H conv textof vars is_num eval isnum U [] after' (map to_json items) text inj IX ltac:(constructor) GA') as (d0 & Y0 & Y).
    + intros n I. apply W. right. exact I.
    + exact Logic.I.
    + intros i I. destruct (J3 i I) as (j & J & ->). apply DP', J.
    + rewrite J2. intros n [].
    + rewrite J1. split; [eapply Forall_impl; [|exact GI]; intros i [Q _]; exact Q|]. split.
      * intros n I. apply in_flat_map in I. destruct I as (i & I & J). rewrite Forall_forall in GI. apply (GI i I), J.
      * cbn [srun snd at_ empty]. rewrite B1. exact Logic.I.
    + pose proof (P3 [] [] (reads_nil G)) as Q. rewrite !app_nil_r in Q. exact (Q 1%Z).
    + cbn [map exec] in Y0. injection Y0 as <-. cbn zeta in Y. cbn [srun snd] in Y. rewrite J1, CF in Y. exact Y.
Qed.
Print Assumptions C47_json_partial.

(** ** A database that meets the hypotheses *)
Lemma printable_from {V} (val : V -> Prop) (name : string -> Prop) (t : tree V) : closed t -> forall q p l k, ent t p = Some Dir -> names t p = map iname l -> Forall (spelt (fun x _ => val x) t p) l -> Forall name (flat_map item_names l) -> (forall i, In i l -> depth i <= k) ->
  match ent t (p ++ q) with Some Dir => (q <> [] -> names t (p ++ q) <> []) /\ List.length q <= k /\ Forall name (names t (p ++ q)) | Some (Val v) => val v | None => True end.
Proof.
  intros C. assert (HD : forall i, In (iname i) (item_names i)) by (intros [ | | ]; left; reflexivity). induction q as [|n q IH]; intros p l k D N F A B.
  - rewrite app_nil_r, D, N. split; [congruence|]. split; [cbn; lia|]. rewrite Forall_forall in A |- *. intros n I. apply in_names in I. destruct I as (i & I & <-). apply A, in_flat_map. eauto.
  - assert (X : ent t (p ++ [n]) = None \/ exists i, In i l /\ iname i = n).
    { destruct (in_dec string_dec n (map iname l)) as [I|I]; [right; apply in_names; exact I|left]. apply not_dir; auto; congruence. }
    destruct X as [X|(i & I & <-)].
    + destruct q as [|m q]; [rewrite X; exact Logic.I|]. change (n :: m :: q) with ([n] ++ m :: q). rewrite app_assoc, closed_none; [exact Logic.I|exact C|congruence|discriminate].
    + rewrite Forall_forall in F. specialize (F i I). specialize (B i I). destruct i as [n c v|n o e|n i l']; cbn [iname] in *.
      * destruct c; [contradiction|]. destruct F as (x & X & Y). destruct q as [|m q]; [rewrite X; exact Y|]. change (n :: m :: q) with ([n] ++ m :: q). rewrite app_assoc, closed_none; [exact Logic.I|exact C|congruence|discriminate].
      * contradiction.
      * apply spelt_block in F. destruct F as (A1 & A2 & A3). cbn [depth] in B. destruct k as [|k]; [lia|]. specialize (IH (p ++ [n]) (i :: l') k A1 A2 A3).
        rewrite <- !app_assoc in IH. cbn [app] in IH. assert (F1 : Forall name (flat_map item_names (i :: l'))).
        { rewrite Forall_forall in A |- *. intros m M. apply A, in_flat_map. exists (Block n i l'). split; [exact I|]. right. exact M. }
        assert (F2 : forall j, In j (i :: l') -> depth j <= k).
        { intros j J. assert (K : depth j <= fold_right (fun i m => Nat.max (depth i) m) (depth i) l'); [|lia]. clear -J. destruct J as [<-|J]; induction l' as [|z l' IH]; cbn [fold_right]; try lia; try contradiction. destruct J as [<-|J]; [lia|]. specialize (IH J). lia. }
        specialize (IH F1 F2). destruct (ent t (p ++ n :: q)) as [[|]|]; [|exact IH|exact Logic.I]. destruct IH as (I1 & I2 & I3). split; [intros _; destruct q; [rewrite A2; discriminate|apply I1; discriminate]|]. split; [cbn [List.length]; lia|exact I3].
Qed.
Lemma good_letter c : c <> dot -> good_name (String c "").
Proof. intros N. split; [discriminate|]. intros [|a x] y Q; cbn in Q; [injection Q as Q _; exact (N Q)|]. injection Q as _ Q. destruct x; discriminate. Qed.
Definition p_int (z : Z) : scalar := SInt (ITy 32 true) z.
Definition p_before : list (sop (value scalar)) :=
  [SCreateAbsolute ["A"; "B"]; SWrite "v" (Value_ "int32" 1 3 1 [p_int 1; p_int (-20); p_int 3]); SWrite "m" (Value_ "string" 2 2 1 [SString 0 (chars "a b"); SString 0 (chars "c")]);
   SMoveAbsolute ["A"]; SWrite "x" (Value_ "int32" 0 1 1 [p_int 7]); SMoveToRoot; SWrite "y" (Value_ "bool" 0 1 1 [SBool true])].
Definition p_items : list item :=
  let z := Scalar (Num "") in [Block "A" (Block "B" (Leaf "v" None z) [Leaf "m" None z]) [Leaf "x" None z]; Leaf "y" None z].
Definition p_names := ["A"; "B"; "v"; "m"; "x"; "y"].
Lemma p_hashes : distinct_hashes name_hash p_names.
Proof.
  assert (X : forallb (fun a => forallb (fun b => negb (Z.eqb (name_hash a) (name_hash b)) || String.eqb a b) p_names) p_names = true) by (vm_compute; reflexivity).
  intros a b A B E. rewrite forallb_forall in X. specialize (X a A). rewrite forallb_forall in X. specialize (X b B). rewrite E, Z.eqb_refl in X. apply String.eqb_eq. exact X.
Qed.
Definition p_isnum (w : list Z) : bool := forallb (fun c => (48 <=? c)%Z && (c <=? 57)%Z || Z.eqb c 45) w.
Definition p_G := standard_grammar p_isnum.
Definition nl_ : list Z := [13; 10]%Z.
Example C47_example :
  (forall w z, decimal_text w z -> p_isnum w = true) /\ (forall s, a_conv "string" s <> None) /\
  Forall good_paths p_before /\ (forall n, In n (flat_map used p_before) -> In n p_names) /\ all_clear empty p_before /\
  printable_tree (word_name p_G) printable_value 249 (snd (srun empty p_before)) /\
  match exec name_hash init (map ConfigDB_Spec.call p_before) with
  | Some (_, d) => match print_database name_hash 0 250 "!" d with
                   | Some (text, b, _) => b = true /\ text = chars "A = {" ++ nl_ ++ chars "    B = {" ++ nl_ ++ chars "        v = { 1 -20 3 } " ++ nl_ ++ chars "        m = { { ""a b"" ""c"" } } " ++ nl_ ++ chars "    }" ++ nl_ ++ chars "    x = 7" ++ nl_ ++ chars "}" ++ nl_ ++ chars "y = ""true""" ++ nl_
                   | None => False
                   end
  | None => False
  end.
Proof.
  assert (GP : Forall good_paths p_before).
  { repeat (apply Forall_cons; [first [exact Logic.I|split; [discriminate|repeat (apply Forall_cons; [apply good_letter; discriminate|]); apply Forall_nil]]|]); apply Forall_nil. }
  assert (GU : forall n, In n (flat_map used p_before) -> In n p_names) by (intros n I; cbn in I |- *; tauto).
  assert (GC : all_clear empty p_before).
  { repeat split; try exact Logic.I. intros a b v Q NA NB. destruct a as [|x [|y a]]; [congruence| |]; destruct b; try congruence; [discriminate|destruct a; discriminate]. }
  split; [|split; [discriminate|]].
  { intros w z D. apply decimal_chars in D. destruct D as (_ & F & _). apply forallb_forall. intros c I. rewrite Forall_forall in F. specialize (F c I). destruct F as [[F1 F2]| ->]; [|reflexivity]. apply Z.leb_le in F1, F2. rewrite F1, F2. reflexivity. }
  split; [exact GP|]. split; [exact GU|]. split; [exact GC|]. split; [|vm_compute; auto].
  destruct (exec_ok name_hash p_names p_hashes p_before init empty (sim_init name_hash p_names) GP GU GC) as (d & _ & R & _). apply rel_closed in R. destruct R as [CL _].
  intros q. apply (printable_from printable_value (word_name p_G) (snd (srun empty p_before)) CL q (at_ (snd (srun empty p_before))) p_items 249).
  - vm_compute. reflexivity.
  - vm_compute. reflexivity.
  - assert (PV : forall dims cols rows ty l, dims <= 2 -> 1 <= cols -> 1 <= rows -> List.length l = rows * cols -> (dims = 0 -> cols = 1) -> (dims <= 1 -> rows = 1) -> Forall printable_scalar l -> (forallb is_number l || forallb (fun s => negb (is_number s)) l) = true -> printable_value (Value_ ty dims cols rows l)).
    { intros. unfold printable_value. cbn [vdims vcols vrows velems]. tauto. }
    assert (PI : forall z, ((- 2147483648 <=? z) && (z <=? 2147483647))%Z = true -> printable_scalar (p_int z)).
    { intros z B. apply andb_true_iff in B. destruct B as [B1 B2]. apply Z.leb_le in B1, B2. split; [right; right; left; reflexivity|]. split; assumption. }
    assert (PS : forall s, forallb (fun c => negb (Z.eqb c 0 || Z.eqb c 34 || Z.eqb c 92)) (chars s) && (Z.of_nat (List.length (chars s)) <? 2 ^ 32 - 2)%Z = true -> printable_scalar (SString 0 (chars s))).
    { intros s B. apply andb_true_iff in B. destruct B as [B1 B2]. apply Z.ltb_lt in B2. split; [|exact B2]. apply Forall_forall. intros c I. rewrite forallb_forall in B1. specialize (B1 c I). apply negb_true_iff in B1. apply orb_false_iff in B1. destruct B1 as [B1 B3]. apply orb_false_iff in B1. destruct B1 as [B1 B4].
      apply Z.eqb_neq in B1, B3, B4. split; [exact B1|]. split; assumption. }
    cbv beta zeta delta [p_items]. constructor; [|constructor; [|constructor]].
    + apply spelt_block. split; [vm_compute; reflexivity|]. split; [vm_compute; reflexivity|]. constructor; [|constructor; [|constructor]].
      * apply spelt_block. split; [vm_compute; reflexivity|]. split; [vm_compute; reflexivity|]. constructor; [|constructor; [|constructor]]; cbn [spelt]; eexists; (split; [vm_compute; reflexivity|]); apply PV; cbn; try lia; try reflexivity.
        -- constructor; [apply (PI 1%Z); reflexivity|constructor; [apply (PI (-20)%Z); reflexivity|constructor; [apply (PI 3%Z); reflexivity|constructor]]].
        -- constructor; [apply (PS "a b"); reflexivity|constructor; [apply (PS "c"); reflexivity|constructor]].
      * cbn [spelt]. eexists. split; [vm_compute; reflexivity|]. apply PV; cbn; try lia; try reflexivity. constructor; [apply (PI 7%Z); reflexivity|constructor].
    + cbn [spelt]. eexists. split; [vm_compute; reflexivity|]. apply PV; cbn; try lia; try reflexivity. repeat constructor.
  - change (flat_map item_names p_items) with ["A"; "B"; "v"; "m"; "x"; "y"]. repeat (apply Forall_cons; [split; [apply good_letter; discriminate|]; split; [reflexivity|]; match goal with |- context [chars ?s] => let l := eval vm_compute in (chars s) in change (chars s) with l end; split; [ordinary_word|apply not_numeric; [lia|discriminate|discriminate]]|]). apply Forall_nil.
  - intros i I. cbn in I. repeat (destruct I as [<-|I]; [cbn; lia|]). contradiction.
Qed.

(** ** What cannot be parsed back, or is not what was printed *)
Definition std_text (l : list (sop (value scalar))) (format : string) : option (list Z) :=
  match exec name_hash init (map ConfigDB_Spec.call l) with Some (_, d) => match print_database name_hash 0 20 format d with Some (text, true, _) => Some text | _ => None end | None => None end.
Definition parsed_std (text : list Z) : option bool := match parse_text p_G Standard a_standard 1 300 8 text (cfg_init init) with Ret (b, _) => Some b | _ => None end.
Definition parsed_json (text : list Z) : option bool := match parse_text (json_grammar p_isnum) Json a_json 1 300 8 text (cfg_init init) with Ret (b, _) => Some b | _ => None end.
Definition p_scalar (s : scalar) : value scalar := Value_ "" 0 1 1 [s].
(** An empty directory, *)
Theorem C47_empty_directory_refuted : exists text, std_text [SCreateAbsolute ["A"]; SMoveToRoot] "!" = Some text /\ text = chars "A = {" ++ nl_ ++ chars "}" ++ nl_ /\ parsed_std text = Some false.
Proof. eexists. split; [vm_compute; reflexivity|]. split; vm_compute; reflexivity. Qed.
(** a string with a quote in it, *)
Theorem C47_quote_refuted : exists text, std_text [SWrite "s" (p_scalar (SString 0 (chars "a"" b = ""c")))] "!" = Some text /\ text = chars "s = ""a"" b = ""c""" ++ nl_ /\ parsed_std text = Some true.
Proof. eexists. split; [vm_compute; reflexivity|]. split; vm_compute; reflexivity. Qed.
(** a name with a space in it, a name that is a number, *)
Theorem C47_space_refuted : exists text, std_text [SWrite "a b" (p_scalar (p_int 1))] "!" = Some text /\ text = chars "a b = 1" ++ nl_ /\ parsed_std text = Some false.
Proof. eexists. split; [vm_compute; reflexivity|]. split; vm_compute; reflexivity. Qed.
Theorem C47_number_name_refuted : exists text, std_text [SWrite "0" (p_scalar (p_int 1))] "!" = Some text /\ text = chars "0 = 1" ++ nl_ /\ parsed_std text = Some false.
Proof. eexists. split; [vm_compute; reflexivity|]. split; vm_compute; reflexivity. Qed.
(** and in JSON every vector: it is written in braces, as in MARTe's own syntax. *)
Theorem C47_json_vector_refuted : exists text, std_text [SWrite "v" (Value_ "" 1 2 1 [p_int 1; p_int 2])] "J!" = Some text /\ text = chars """v"": { 1 2 } " ++ nl_ /\ parsed_json text = Some false.
Proof. eexists. split; [vm_compute; reflexivity|]. split; vm_compute; reflexivity. Qed.
