From Verif Require Import Base BitsBase Token_Model Http_Model Http_Spec Http_Proofs.
From Coq Require Import Lia.
Open Scope Z_scope.

Lemma c_string_id t : no_nul t -> c_string t = t.
Proof.
  induction t as [|c t IH]; intros N; [reflexivity|]. cbn. replace (c =? 0) with false. 2: { symmetry. apply Z.eqb_neq. intros ->. apply N. left. reflexivity. }
  rewrite IH; [reflexivity|]. intros H. apply N. right. exact H.
Qed.
(** Characters outside of two sets are kept. *)
Lemma kept_not term skip p : (forall c, In c p -> c <> 0 /\ ~ In c term /\ ~ In c skip) -> Forall (kept term skip) p.
Proof. intros H. apply Forall_forall. intros c I. specialize (H c I). split; apply in_set_false; tauto. Qed.
Ltac out H := cbn in H; cbn; repeat split; intros ?X; cbn in X; repeat (destruct X as [X|X]; [subst; lia|]); contradiction.

(** ** The path *)
Lemma part_kept p : good_part p -> Forall (kept [92; 47] [92; 47]) p.
Proof.
  intros (_ & N0 & N1 & N2). apply kept_not. intros c I. assert (c <> 0 /\ c <> 47 /\ c <> 92) by (repeat split; intros ->; contradiction). split; [lia|]. cbn. split; lia.
Qed.
Lemma parts_ok : forall rest p path fuel, good_part p -> Forall good_part rest -> zl (p ++ concat (map (fun p => 47 :: p) rest)) < 2 ^ 32 ->
  (length rest + 1 < fuel)%nat -> parts_loop fuel (p ++ concat (map (fun p => 47 :: p) rest)) path = Some (path ++ joined [46] (p :: rest)).
Proof.
  induction rest as [|q rest IH]; intros p path fuel G F B Fu.
  - destruct fuel as [|[|fuel]]; [lia|cbn in Fu; lia|]. cbn [map concat]. rewrite app_nil_r in B |- *. cbn [parts_loop].
    rewrite tok_end; [|exact (part_kept p G)|exact B]. destruct p as [|c p]; [destruct G; contradiction|]. change (negb (0 =? 0)) with false. cbn iota. cbn [app].
    rewrite c_string_id by (destruct G as (_ & G & _); exact G). reflexivity.
  - destruct fuel as [|fuel]; [lia|]. cbn [map concat] in B |- *. change ((47 :: q) ++ concat (map (fun p => 47 :: p) rest)) with (47 :: (q ++ concat (map (fun p => 47 :: p) rest))) in *. cbn [parts_loop].
    rewrite app_length in B. cbn [length] in B.
    rewrite tok_stop; [|exact (part_kept p G)|lia|reflexivity|left; destruct G; assumption]. change (negb (47 =? 0)) with true. cbn iota. cbn [app].
    rewrite c_string_id by (destruct G as (_ & X & _); exact X).
    replace (0 <? zl p) with true. 2: { destruct p; [destruct G; contradiction|]. cbn [length]. lia. }
    rewrite IH; [|exact (Forall_inv F)|exact (Forall_inv_tail F)|lia|cbn [length] in Fu; lia]. change (joined [46] (p :: q :: rest)) with (p ++ [46] ++ joined [46] (q :: rest)). rewrite <- !app_assoc. reflexivity.
Qed.
Lemma skip_slash fuel l path : parts_loop (S fuel) (47 :: l) path = parts_loop (S fuel) l path.
Proof. cbn [parts_loop]. rewrite tok_skip by reflexivity. reflexivity. Qed.

Lemma decode_path es ps : Forall2 escaped es ps -> decode (concat (map (fun p => 47 :: p) es)) = Some (concat (map (fun p => 47 :: p) ps)).
Proof.
  induction 1 as [|e p es ps E F IH]; [reflexivity|]. cbn [map concat app decode]. change (47 =? 37) with false. cbn iota. rewrite (decode_app _ _ E), IH. reflexivity.
Qed.
Definition url_char (c : Z) : Prop := c <> 0 /\ c <> 9 /\ c <> 10 /\ c <> 13 /\ c <> 32 /\ c <> 63.
Lemma path_chars es ps : Forall2 escaped es ps -> Forall url_char (path_text es).
Proof.
  intros H. assert (X : Forall url_char (concat (map (fun p => 47 :: p) es))).
  { induction H as [|e p es ps E F IH]; [constructor|]. cbn [map concat app]. constructor; [unfold url_char; lia|]. apply Forall_app. split; [|exact IH].
    eapply Forall_impl; [|exact (escaped_plain _ _ E)]. unfold plain, url_char. intros; lia. }
  destruct es; [repeat constructor; lia|exact X].
Qed.
Lemma path_nonempty es : path_text es <> [].
Proof. destruct es; cbn; discriminate. Qed.
Lemma escaped_length e t : escaped e t -> (length t <= length e)%nat.
Proof. induction 1; cbn [length]; lia. Qed.
Lemma path_length es ps : Forall2 escaped es ps -> (length (concat (map (fun p => 47%Z :: p) ps)) <= length (concat (map (fun p => 47%Z :: p) es)))%nat.
Proof. induction 1 as [|e p es ps E F IH]; [cbn; lia|]. cbn [map concat app length]. rewrite !app_length. apply escaped_length in E. lia. Qed.
Lemma decoded_path es ps : Forall2 escaped es ps -> Forall good_part ps -> zl (path_text es) < 2 ^ 32 ->
  exists d, decode (path_text es) = Some d /\ parts_loop (S (length d)) d [] = Some (joined [46] ps).
Proof.
  intros F G B. destruct F as [|e p es ps E F].
  - exists [47]. split; reflexivity.
  - exists (concat (map (fun p => 47 :: p) (p :: ps))). split; [exact (decode_path (e :: es) (p :: ps) (Forall2_cons _ _ E F))|].
    cbn [map concat]. change ((47 :: p) ++ concat (map (fun p => 47 :: p) ps)) with (47 :: (p ++ concat (map (fun p => 47 :: p) ps))). rewrite skip_slash. 
    pose proof (path_length _ _ (Forall2_cons _ _ E F)) as L. cbn [map concat] in L. cbn [path_text map concat] in B. cbn [length app] in L, B |- *.
    apply (parts_ok ps p []); [exact (Forall_inv G)|exact (Forall_inv_tail G)|lia|].
    rewrite app_length. assert (Y : forall l : list (list Z), (length l <= length (concat (map (fun p => 47%Z :: p) l)))%nat).
    { induction l as [|x l IHl]; [cbn; lia|]. cbn [map concat app length]. rewrite app_length. lia. }
    specialize (Y ps). destruct p; [destruct (Forall_inv G); contradiction|]. cbn [length]. lia.
Qed.
Lemma build_ok es ps c rest : Forall2 escaped es ps -> Forall good_part ps -> zl (path_text es) < 2 ^ 32 -> In c [32; 13; 10; 63] ->
  build_url (path_text es ++ c :: rest) = Some (c, rest, joined [46] ps).
Proof.
  intros F G B C. unfold build_url. rewrite tok_stop.
  - cbn [app]. destruct (decoded_path es ps F G B) as (d & -> & ->). reflexivity.
  - eapply Forall_impl; [|exact (path_chars _ _ F)]. unfold url_char, kept, skipped. intros x X. split; apply in_set_false; cbn; lia.
  - exact B.
  - apply in_set_true, C.
  - left. apply path_nonempty.
Qed.

(** ** The query *)
Definition pair_text (q : list Z * list Z) : list Z := fst q ++ 61 :: snd q.
Definition no_semicolon (value_end : list Z) (e : list Z * list Z) : Prop := value_end = [] \/ (value_end = [59] /\ ~ In 59 (snd e)).
Lemma store_ok ve e q : good_pair e q -> no_semicolon ve e -> zl (pair_text e) < 2 ^ 32 -> store_command ve (pair_text e) = Some (true, [q]).
Proof.
  intros (E1 & E2 & N & Z1 & Z2 & L) NS B. unfold store_command, pair_text in *. rewrite app_length in B |- *. cbn [length] in B |- *. replace (3 <? Z.of_nat (length (fst e) + S (length (snd e)))) with true by lia.
  rewrite tok_stop; [|eapply Forall_impl; [|exact (escaped_plain _ _ E1)]; unfold plain, kept, skipped; intros x X; split; apply in_set_false; cbn; lia|lia|reflexivity|left; exact (escaped_nil _ _ E1 N)].
  rewrite tok_end; [| |lia].
  2: { pose proof (escaped_plain _ _ E2) as P. rewrite Forall_forall in P. apply kept_not. intros c I. specialize (P c I). unfold plain in P. split; [lia|]. destruct NS as [->|(-> & X)]; cbn [skipped]; [cbn; tauto|].
       assert (c <> 59) by (intros ->; contradiction). cbn. split; lia. }
  cbn [app]. rewrite (decode_escaped _ _ E2), (decode_escaped _ _ E1), !c_string_id by assumption. destruct q; reflexivity.
Qed.
Lemma pair_chars e q : good_pair e q -> Forall (fun c => c <> 0 /\ c <> 9 /\ c <> 10 /\ c <> 13 /\ c <> 32 /\ c <> 38) (pair_text e) /\ pair_text e <> [].
Proof.
  intros (E1 & E2 & _). split.
  - apply Forall_app. split; [eapply Forall_impl; [|exact (escaped_plain _ _ E1)]; unfold plain; intros; lia|]. constructor; [lia|]. eapply Forall_impl; [|exact (escaped_plain _ _ E2)]; unfold plain; intros; lia.
  - unfold pair_text. destruct (fst e); discriminate.
Qed.
Lemma pair_kept e q : good_pair e q -> Forall (kept [38] [38]) (pair_text e).
Proof. intros H. eapply Forall_impl; [|exact (proj1 (pair_chars _ _ H))]. intros x X. cbn in X. split; apply in_set_false; cbn; lia. Qed.
Lemma query_chars es qs : Forall2 good_pair es qs -> Forall (fun c => c <> 0 /\ c <> 9 /\ c <> 10 /\ c <> 13 /\ c <> 32) (query_text es).
Proof.
  unfold query_text. induction 1 as [|e q es qs E F IH]; [constructor|]. cbn [map]. change (fst e ++ 61 :: snd e) with (pair_text e). destruct es as [|e2 es].
  - cbn. eapply Forall_impl; [|exact (proj1 (pair_chars _ _ E))]. intros x X; cbn in X |- *; lia.
  - cbn [map joined]. apply Forall_app. split; [eapply Forall_impl; [|exact (proj1 (pair_chars _ _ E))]; intros x X; cbn in X |- *; lia|]. cbn [app]. constructor; [lia|]. exact IH.
Qed.
Lemma query_step e e2 es : query_text (e :: e2 :: es) = pair_text e ++ 38 :: query_text (e2 :: es).
Proof. reflexivity. Qed.
Lemma commands_ok : forall es qs fuel, Forall2 good_pair es qs -> zl (query_text es) < 2 ^ 32 -> (length es < fuel)%nat -> commands_loop fuel (query_text es) = Some (true, qs).
Proof.
  intros es qs fuel F. revert fuel. induction F as [|e q es qs E F IH]; intros fuel B Fu; (destruct fuel as [|fuel]; [lia|]).
  - reflexivity.
  - destruct es as [|e2 es].
    + inversion F; subst. change (query_text [e]) with (pair_text e) in *. cbn [commands_loop]. rewrite tok_end; [|exact (pair_kept _ _ E)|exact B].
      destruct (pair_text e) as [|c t] eqn:T; [destruct (proj2 (pair_chars _ _ E) T)|]. cbn [app]. rewrite <- T in *. rewrite (store_ok [] e q E (or_introl eq_refl) B).
      destruct fuel as [|fuel]; [cbn in Fu; lia|]. reflexivity.
    + rewrite query_step in *. rewrite app_length in B. cbn [length] in B. cbn [commands_loop].
      rewrite tok_stop; [|exact (pair_kept _ _ E)|lia|reflexivity|left; exact (proj2 (pair_chars _ _ E))]. cbn [app]. rewrite (store_ok [] e q E (or_introl eq_refl)) by lia.
      rewrite IH; [reflexivity|lia|cbn in *; lia].
Qed.
Lemma form_ok : forall es qs fuel r, Forall2 good_pair es qs -> Forall (fun e => ~ In 59 (snd e)) es -> zl (query_text es) < 2 ^ 32 -> (length es < fuel)%nat ->
  form_loop fuel (query_text es) [] r = Some (match es with [] => r | _ => true end, qs).
Proof.
  intros es qs fuel r F. revert fuel r. induction F as [|e q es qs E F IH]; intros fuel r NS B Fu; (destruct fuel as [|fuel]; [lia|]).
  - reflexivity.
  - pose proof (Forall_inv NS) as NSe. apply Forall_inv_tail in NS. destruct es as [|e2 es].
    + inversion F; subst. change (query_text [e]) with (pair_text e) in *. cbn [form_loop]. rewrite tok_end; [|exact (pair_kept _ _ E)|exact B].
      destruct (pair_text e) as [|c t] eqn:T; [destruct (proj2 (pair_chars _ _ E) T)|]. cbn [app]. rewrite <- T in *. rewrite (store_ok [59] e q E (or_intror (conj eq_refl NSe)) B).
      destruct fuel as [|fuel]; [cbn in Fu; lia|]. reflexivity.
    + rewrite query_step in *. rewrite app_length in B. cbn [length] in B. cbn [form_loop].
      rewrite tok_stop; [|exact (pair_kept _ _ E)|lia|reflexivity|left; exact (proj2 (pair_chars _ _ E))]. cbn [app]. rewrite (store_ok [59] e q E (or_intror (conj eq_refl NSe))) by lia.
      rewrite IH; [reflexivity|exact NS|lia|cbn in *; lia].
Qed.
Lemma query_long es qs : Forall2 good_pair es qs -> (length es <= length (query_text es))%nat.
Proof.
  induction 1 as [|e q es qs E F IH]; [cbn; lia|]. destruct es as [|e2 es].
  - change (query_text [e]) with (pair_text e). unfold pair_text. rewrite app_length. cbn. lia.
  - rewrite query_step. rewrite app_length. cbn [length] in *. lia.
Qed.
Lemma query_nonempty es qs : Forall2 good_pair es qs -> es <> [] -> query_text es <> [].
Proof. intros F N H. pose proof (query_long _ _ F) as L. rewrite H in L. destruct es; [contradiction|cbn in L; lia]. Qed.
Lemma store_commands_ok es qs c rest : Forall2 good_pair es qs -> es <> [] -> zl (query_text es) < 2 ^ 32 -> In c [32; 9] ->
  store_commands (query_text es ++ c :: rest) = Some (true, rest, qs).
Proof.
  intros F N B C. unfold store_commands. rewrite tok_stop.
  - cbn [app]. rewrite (commands_ok es qs); [reflexivity|exact F|exact B|]. pose proof (query_long _ _ F). lia.
  - eapply Forall_impl; [|exact (query_chars _ _ F)]. intros x X. unfold kept, skipped. split; apply in_set_false; cbn in *; lia.
  - exact B.
  - apply in_set_true, C.
  - left. exact (query_nonempty _ _ F N).
Qed.

(** ** The options *)
Lemma option_ok n v : option_name n -> option_value v -> zl n + zl v < 2 ^ 32 -> store_option (n ++ 58 :: 32 :: v) = Some [(n, v)].
Proof.
  intros ((N1 & N2) & N3) (V1 & V2 & V3) B. unfold store_option.
  assert (Kn : Forall (kept [32; 9; 58] [32; 9; 58]) n).
  { apply kept_not. intros c I. specialize (N2 c I). cbn in N2. assert (c <> 58) by (intros ->; contradiction). cbn. repeat split; lia. }
  rewrite tok_stop; [|exact Kn|lia|reflexivity|left; exact N1]. rewrite tok_skip by reflexivity. cbn [app].
  assert (Cn : c_string n = n). { apply c_string_id. intros I. apply (N2 0 I). cbn. tauto. }
  assert (Cv : c_string v = v). { apply c_string_id. intros I. apply (V1 0 I). cbn. tauto. }
  assert (SP : ~ In 32 v \/ exists a b, v = a ++ 32 :: b /\ ~ In 32 a).
  { clear. induction v as [|c v IH]; [left; tauto|]. destruct (Z.eq_dec c 32) as [->|D]; [right; exists [], v; split; [reflexivity|tauto]|].
    destruct IH as [IH|(a & b & -> & IH)]; [left; cbn; tauto|right]. exists (c :: a), b. split; [reflexivity|cbn; tauto]. }
  assert (KV : forall a, (forall c, In c a -> In c v) -> ~ In 32 a -> Forall (kept [32; 9] [32; 9]) a).
  { intros a S N. apply kept_not. intros c I. specialize (V1 c (S c I)). cbn in V1. assert (c <> 32) by (intros ->; contradiction). cbn. repeat split; lia. }
  destruct SP as [SP|(a & b & E & SP)].
  - rewrite tok_end; [|apply KV; [tauto|exact SP]|lia]. cbn [length app]. change (0 <? Z.of_nat 0) with false. cbn iota. rewrite tok_end; [|constructor|cbn; lia]. rewrite app_nil_r, Cn, Cv. reflexivity.
  - subst v. rewrite app_length in B. cbn [length] in B. rewrite tok_stop; [|apply KV; [intros; apply in_or_app; tauto|exact SP]|lia|reflexivity|left; destruct a; [cbn in V2; lia|discriminate]].
    assert (NB : b <> []). { intros ->. apply V3. rewrite last_last. reflexivity. }
    replace (0 <? zl b) with true. 2: { destruct b; [contradiction|]. cbn [length]. lia. }
    cbn [app]. rewrite tok_end; [| |lia].
    2: { apply kept_not. intros c I. specialize (V1 c (in_or_app a (32 :: b) c (or_intror (in_cons 32 c b I)))). cbn in V1. cbn. repeat split; try tauto. lia. }
    rewrite <- app_assoc. cbn [app]. rewrite Cn, Cv. reflexivity.
Qed.
Lemma option_line n v rest : option_name n -> option_value v -> zl n + zl v + 2 < 2 ^ 32 ->
  get_line true (option_text (n, v) ++ rest) = Some (true, 10, rest, n ++ 58 :: 32 :: v).
Proof.
  intros ((N1 & N2) & N3) (V1 & V2 & V3) B. unfold get_line, option_text. cbn [fst snd]. 
  replace ((n ++ [58; 32] ++ v ++ [13; 10]) ++ rest) with ((n ++ 58 :: 32 :: v) ++ 13 :: 10 :: rest) by (rewrite <- !app_assoc; cbn [app]; reflexivity).
  rewrite tok_drop; try reflexivity.
  - apply kept_not. intros c I. apply in_app_or in I. cbn [In] in I. destruct I as [I|[<-|[<-|I]]]; [specialize (N2 c I); cbn in N2; cbn; repeat split; lia|cbn; repeat split; lia|cbn; repeat split; lia|].
    specialize (V1 c I); cbn in V1; cbn; repeat split; lia.
  - rewrite app_length. cbn [length]. lia.
  - left. destruct n; discriminate.
Qed.
Lemma options_ok : forall opts rest fuel, Forall (fun o => option_name (fst o) /\ option_value (snd o)) opts -> zl (concat (map option_text opts)) < 2 ^ 32 -> (length opts < fuel)%nat ->
  options_loop fuel (concat (map option_text opts) ++ [13; 10] ++ rest) = Some (true, rest, opts).
Proof.
  induction opts as [|(n, v) opts IH]; intros rest fuel F B Fu; (destruct fuel as [|fuel]; [lia|]); cbn [options_loop].
  - cbn [map concat app]. unfold get_line. pose proof (tok_drop [10] (Some [13]) [] 13 10 rest []) as X. cbn [app] in X. rewrite (X (Forall_nil _) eq_refl eq_refl eq_refl eq_refl (or_intror eq_refl)); reflexivity.
  - cbn [map concat] in B |- *. rewrite <- app_assoc. destruct (Forall_inv F) as (Hn & Hv). cbn [fst snd] in Hn, Hv.
    assert (LO : zl (option_text (n, v)) = zl n + zl v + 4) by (unfold option_text; cbn [fst snd]; rewrite !app_length; cbn [length]; lia). rewrite app_length in B.
    rewrite option_line; [|exact Hn|exact Hv|lia]. replace (0 <? zl (n ++ 58 :: 32 :: v)) with true by (rewrite app_length; cbn [length]; lia).
    rewrite option_ok; [|exact Hn|exact Hv|lia]. rewrite IH; [reflexivity|exact (Forall_inv_tail F)|lia|cbn in Fu; lia].
Qed.

(** ** The request *)
Lemma retrieve_ok m : retrieve (command_text m) = WCommand m.
Proof. destruct m; vm_compute; reflexivity. Qed.
Lemma command_chars m : Forall (fun c => 65 <= c <= 90) (command_text m) /\ command_text m <> [].
Proof. destruct m; (split; [|discriminate]); cbn; repeat constructor; lia. Qed.
Definition tail_text (version : list Z) (opts : list (list Z * list Z)) (rest : list Z) : list Z :=
  version ++ [13; 10] ++ concat (map option_text opts) ++ [13; 10] ++ rest.
Lemma word_kept t : word t -> Forall (kept [32; 13; 10; 9] [32; 13; 10; 9]) t.
Proof. intros (_ & W). apply kept_not. intros c I. specialize (W c I). cbn in W. cbn. repeat split; lia. Qed.
Lemma header_ok m before a q opts version rest path cmds : word version -> 5 <= zl version ->
  Forall (fun o => option_name (fst o) /\ option_value (snd o)) opts ->
  Forall (fun c => c <> 0 /\ c <> 10) (a ++ q) -> zl a + zl q + zl version + 7 < 2 ^ 32 -> zl (concat (map option_text opts)) < 2 ^ 32 ->
  (exists c r, build_url (a ++ q ++ 32 :: version ++ [13]) = Some (c, r, path) /\
    (if c =? 63 then store_commands r else Some (true, r, before)) = Some (true, version ++ [13], cmds)) ->
  read_header before (command_text m ++ 32 :: a ++ q ++ 32 :: tail_text version opts rest) = Some (Read (Request m path cmds opts) rest).
Proof.
  intros W W5 O CH B BO (c & r & BU & SC). unfold read_header, get_line.
  replace (command_text m ++ 32 :: a ++ q ++ 32 :: tail_text version opts rest) with
    ((command_text m ++ 32 :: a ++ q ++ 32 :: version ++ [13]) ++ 10 :: concat (map option_text opts) ++ [13; 10] ++ rest).
  2: { unfold tail_text. rewrite <- !app_assoc. cbn [app]. do 2 f_equal. rewrite <- !app_assoc. do 2 f_equal. cbn [app]. f_equal. rewrite <- app_assoc. reflexivity. }
  assert (LM : zl (command_text m) <= 4) by (destruct m; cbn; lia).
  rewrite tok_stop; try reflexivity.
  - cbn [app]. rewrite tok_stop; [| |lia|reflexivity|left; apply command_chars].
    2: { eapply Forall_impl; [|exact (proj1 (command_chars m))]. intros x X. split; apply in_set_false; cbn in *; lia. }
    cbn [app]. rewrite retrieve_ok, BU, SC. rewrite tok_stop; [|exact (word_kept _ W)|lia|reflexivity|left; apply W]. cbn [app]. replace (zl version <? 5) with false by lia.
    change (13 :: 10 :: rest) with ([13; 10] ++ rest); match goal with |- context [options_loop ?f _] => rewrite (options_ok opts rest f O BO) end; [reflexivity|].
    rewrite app_length. assert (LL : (length opts <= length (concat (map option_text opts)))%nat); [|lia]. clear. induction opts as [|(n, v) opts IH]; [cbn; lia|]. cbn [map concat]. rewrite app_length. unfold option_text at 1. cbn [fst snd]. rewrite !app_length. cbn [length]. lia.
  - apply kept_not. intros x I. cbn [skipped In]. assert (X : x <> 0 /\ x <> 10); [|lia].
    apply in_app_or in I. destruct I as [I|[<-|I]]; [|lia|].
    { pose proof (proj1 (command_chars m)) as P. rewrite Forall_forall in P. specialize (P x I). cbn in P. lia. }
    rewrite app_assoc in I. apply in_app_or in I. destruct I as [I|[<-|I]]; [rewrite Forall_forall in CH; exact (CH x I)|lia|].
    apply in_app_or in I. destruct I as [I|[<-|[]]]; [|lia]. destruct W as (_ & W). specialize (W x I). cbn in W. lia.
  - rewrite !app_length. cbn [length]. rewrite !app_length. cbn [length]. rewrite !app_length. cbn [length]. lia.
  - left. destruct (command_chars m). destruct (command_text m); discriminate.
Qed.
