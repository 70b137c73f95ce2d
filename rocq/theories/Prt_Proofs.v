(** C47: the print writes the items *)
From Coq Require Import String.
From Verif Require Import Base Paths ConfigDB_Model ConfigDB_Spec ConfigDB_Proofs Lex_Model Lex_Spec Reads Slk_Model Txt_Model Fmt_Model Cfg_Model Cfg_Spec Cfg_Standard Prt_Model Prt_Spec Prt_Values Prt_Trees.
Open Scope string_scope. Open Scope nat_scope. Open Scope list_scope.

Lemma emit_emit o o' d k : emit o d (emit o' d k) = emit (andthen o o') d k.
Proof. destruct o as [[x []]|], o' as [[y []]|]; cbn; auto. destruct k as [[[z b] e]|]; [rewrite app_assoc; reflexivity|reflexivity]. Qed.
Lemma emit_put x d y b e : emit (put x) d (Some (y, b, e)) = Some (x ++ y, b, e). Proof. reflexivity. Qed.

Section Print.
Context (H : string -> Z) (U : list string) (inj : distinct_hashes H U) (literal : Z) (G : grammar) (f : fd).
Context (ok : value scalar -> val -> Prop) (name : string -> Prop) (wr : item -> list token) (opening : string -> list token) (closing : list token).
Definition leaf_out (level : nat) (last : bool) (n : string) (x : value scalar) : outcome :=
  andthen (andthen (andthen (andthen (andthen (andthen (indent literal level) (open_assignment literal f n)) (text literal " ")) (printf literal (chars "%#!") [to_arg x])) (close_assignment literal f n)) (if last then put [] else item_separator f)) (nlr literal).
Definition open_out (level : nat) (n : string) : outcome := andthen (andthen (indent literal level) (open_block literal f n)) (nlr literal).
Definition close_out (level : nat) (last : bool) (n : string) : outcome := andthen (andthen (andthen (indent literal level) (close_block literal f n)) (if last then put [] else item_separator f)) (nlr literal).
Hypothesis leaf_ok : forall level last n x v, name n -> ok x v -> exists out, leaf_out level last n x = put out /\ emits G out (wr (Leaf n None v)).
Hypothesis open_ok : forall level n, name n -> exists out, open_out level n = put out /\ emits G out (opening n).
Hypothesis close_ok : forall level last n, name n -> exists out, close_out level last n = put out /\ emits G out closing.
Hypothesis wr_block : forall n i l, wr (Block n i l) = opening n ++ flat_map wr (i :: l) ++ closing.
Hypothesis good : forall n, name n -> good_name n.
Context (t : tree (value scalar)) (ordered : orderly U t) (base : path).
Hypothesis all_names : forall q, ent t (base ++ q) = Some Dir -> Forall name (names t (base ++ q)).

Notation sim := (ConfigDB_Proofs.sim H U).
Lemma step_at d p (o : sop (value scalar)) : sim d (move_to t p) -> good_paths o -> (forall n, In n (used o) -> In n U) -> clear_way (move_to t p) o -> exists d', step H d (ConfigDB_Spec.call o) = Some (fst (sstep (move_to t p) o), d') /\ sim d' (snd (sstep (move_to t p) o)).
Proof. intros S A B C. exact (step_ok H U inj d (move_to t p) o S A B C). Qed.

Lemma children_ok fuel level :
  (forall q items d, items <> [] -> ent t (base ++ q) = Some Dir -> sim d (move_to t (base ++ q)) -> names t (base ++ q) = map iname items -> Forall (spelt ok t (base ++ q)) items -> (forall i, In i items -> depth i < fuel) ->
     exists out d', print_structured H literal fuel f (S level) d = Some (out, true, d') /\ sim d' (move_to t (base ++ q)) /\ emits G out (flat_map wr items)) ->
  forall q items before d, ent t (base ++ q) = Some Dir -> sim d (move_to t (base ++ q)) -> names t (base ++ q) = map iname (before ++ items) -> Forall (spelt ok t (base ++ q)) items -> (forall i, In i items -> depth i <= fuel) ->
  exists out d', children H literal f level (print_structured H literal fuel f (S level)) (List.length items) (List.length before) d = Some (out, true, d') /\ sim d' (move_to t (base ++ q)) /\ emits G out (flat_map wr items).
Proof.
  intros DEEP q. set (p := base ++ q). induction items as [|i items IH]; intros before d D SI NM SP DP; cbn [List.length children].
  - exists [], d. split; [reflexivity|]. split; [exact SI|apply emits_nil].
  - inversion SP as [|? ? S1 S2]; subst. unfold child. destruct (step_at d p (SGetChildName (List.length before)) SI Logic.I ltac:(intros n []) Logic.I) as (d1 & E1 & _). cbn [ConfigDB_Spec.call sstep fst snd at_ names move_to] in E1.
    assert (NI : nth_error (names t p) (List.length before) = Some (iname i)) by (unfold p in *; rewrite NM, map_app, nth_error_app2; rewrite map_length; [|lia]; rewrite Nat.sub_diag; reflexivity).
    rewrite E1, NI. assert (IN : In (iname i) (names t p)) by (eapply nth_error_In; exact NI). destruct (ordered p D) as [_ INU]. specialize (INU _ IN). pose proof (all_names q D) as AN. rewrite Forall_forall in AN. specialize (AN _ IN).
    destruct (step_at d p (SRead (iname i)) SI Logic.I ltac:(intros n [<-|[]]; exact INU) Logic.I) as (d2 & E2 & _). cbn [ConfigDB_Spec.call sstep fst snd at_ ent move_to] in E2. rewrite E2.
    assert (NEXT : forall d', sim d' (move_to t p) -> exists out d'', children H literal f level (print_structured H literal fuel f (S level)) (List.length items) (S (List.length before)) d' = Some (out, true, d'') /\ sim d'' (move_to t p) /\ emits G out (flat_map wr items)).
    { intros d' S'. destruct (IH (before ++ [i]) d' D S') as (out & d'' & X); [rewrite <- app_assoc; exact NM|exact S2|intros j J; apply DP; right; exact J|]. rewrite app_length, Nat.add_1_r in X. eauto. }
    destruct i as [n c v|n o e|n i l]; cbn [iname] in *.
    + destruct c; [contradiction|]. destruct S1 as (x & EX & OK). rewrite EX. rewrite !emit_emit. destruct (NEXT d SI) as (out & d' & X & Y & Z). rewrite X.
      destruct (leaf_ok level (List.length items =? 0) n x v AN OK) as (o & O & M). unfold leaf_out in O. rewrite O, emit_put. exists (o ++ out), d'. split; [reflexivity|]. split; [exact Y|]. cbn [flat_map]. apply emits_app; assumption.
    + contradiction.
    + apply spelt_block in S1. destruct S1 as (A1 & A2 & A3). rewrite A1. change n with (join [n]) at 1.
      destruct (step_at d p (SMoveRelative [n]) SI) as (d3 & E3 & S3); [split; [discriminate|constructor; [apply good, AN|constructor]]|intros m [<-|[]]; exact INU|exact Logic.I|]. cbn [ConfigDB_Spec.call sstep at_ move_to] in E3, S3.
      unfold go, is_dir in E3, S3. cbn [ent move_to] in E3, S3. rewrite A1 in E3, S3. cbn [fst snd] in E3, S3. rewrite E3. assert (Q : p ++ [n] = base ++ (q ++ [n])) by (unfold p; rewrite app_assoc; reflexivity).
      destruct (DEEP (q ++ [n]) (i :: l) d3) as (x & d4 & E4 & S4 & M4); [discriminate|rewrite <- Q; exact A1|rewrite <- Q; exact S3|rewrite <- Q; exact A2|rewrite <- Q; exact A3| |].
      { intros j J. pose proof (DP _ (or_introl eq_refl)) as B. cbn [depth] in B. assert (K : depth j <= fold_right (fun i m => Nat.max (depth i) m) (depth i) l); [|lia]. clear -J. destruct J as [<-|J].
        - induction l as [|k l IH]; cbn [fold_right]; lia.
        - induction l as [|k l IH]; [destruct J|]. cbn [fold_right]. destruct J as [<-|J]; [lia|]. specialize (IH J). lia. }
      rewrite E4. rewrite <- Q in S4. destruct (step_at d4 (p ++ [n]) (SMoveToAncestor 1) S4 Logic.I ltac:(intros m []) Logic.I) as (d5 & E5 & S5). cbn [ConfigDB_Spec.call sstep at_ move_to] in E5, S5.
      rewrite app_length in E5, S5. cbn [List.length] in E5, S5. assert (L : (1 <=? 1) && (1 <=? List.length p + 1) = true) by (destruct (Nat.leb_spec 1 (List.length p + 1)); [reflexivity|lia]). rewrite L in E5, S5. cbn [fst snd] in E5, S5. rewrite E5.
      rewrite Nat.add_sub, firstn_app, firstn_all, Nat.sub_diag, firstn_O, app_nil_r in S5. destruct (NEXT d5 S5) as (out & d' & X & Y & Z). rewrite X. rewrite !emit_emit.
      destruct (close_ok level (List.length items =? 0) n AN) as (c & C & MC). destruct (open_ok level n AN) as (o & O & MO). unfold open_out in O. unfold close_out in C.
      assert (AS : forall a b, andthen (put x) (andthen a b) = andthen (andthen (put x) a) b) by (intros [[a []]|] [[b []]|]; cbn; try reflexivity; rewrite app_assoc; reflexivity).
      assert (AS2 : forall a b c, andthen (andthen a b) c = andthen a (andthen b c)) by (intros [[a []]|] [[b []]|] [[b' []]|]; cbn; try reflexivity; rewrite app_assoc; reflexivity).
      replace (andthen (andthen (andthen (andthen (put x) (indent literal level)) (close_block literal f n)) (if List.length items =? 0 then put [] else item_separator f)) (nlr literal)) with (andthen (put x) (put c)) by (rewrite <- C, !AS2; reflexivity).
      rewrite O. cbn [andthen put emit]. exists (o ++ (x ++ c) ++ out), d'. split; [reflexivity|]. split; [exact Y|]. cbn [flat_map]. rewrite wr_block, <- !app_assoc. rewrite app_assoc.
      change (opening n ++ flat_map wr (i :: l) ++ closing ++ flat_map wr items) with (opening n ++ flat_map wr (i :: l) ++ closing ++ flat_map wr items). rewrite <- app_assoc. apply emits_app; [exact MO|]. apply emits_app; [exact M4|]. apply emits_app; assumption.
Qed.
Lemma print_ok fuel : forall level q items d, ent t (base ++ q) = Some Dir -> sim d (move_to t (base ++ q)) -> names t (base ++ q) = map iname items -> Forall (spelt ok t (base ++ q)) items -> (forall i, In i items -> depth i < fuel) -> 0 < fuel ->
  exists out d', print_structured H literal fuel f level d = Some (out, true, d') /\ sim d' (move_to t (base ++ q)) /\ emits G out (flat_map wr items).
Proof.
  induction fuel as [|fuel IH]; intros level q items d D SI NM SP DP F; [lia|]. cbn [print_structured].
  destruct (step_at d (base ++ q) SGetNumberOfChildren SI Logic.I ltac:(intros n []) Logic.I) as (d1 & E1 & S1). cbn [ConfigDB_Spec.call sstep fst snd at_ names move_to] in E1, S1. rewrite E1, NM, map_length.
  apply (children_ok fuel level) with (before := []); auto; [|intros i I; specialize (DP i I); lia]. intros q' items' d' NE D' SI' NM' SP' DP'. destruct items' as [|i' items']; [congruence|].
  apply IH; auto. pose proof (DP' i' (or_introl eq_refl)). lia.
Qed.
End Print.
