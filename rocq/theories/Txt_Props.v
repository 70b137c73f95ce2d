(** C36 with look-ahead, and C44 on texts: what the parsers make of the text of a configuration. *)
From Coq Require Import String Ascii.
From Verif Require Import Base Paths Lex_Model Lex_Spec ConfigDB_Model ConfigDB_Spec ConfigDB_Proofs ConfigDB_Props Slk_Model Txt_Model Txt_Proofs Reads Cfg_Model Cfg_Spec Cfg_Props.
Open Scope string_scope. Open Scope nat_scope. Open Scope list_scope.

(** ** Look-ahead. PeekToken(n) is asked only when n tokens after the last one returned have been looked at, as the parsers do. *)
Inductive lcall := LGet | LPeek (n : nat).
Fixpoint in_order (seen : nat) (l : list lcall) : Prop :=
  match l with [] => True | LGet :: r => in_order (seen - 1) r | LPeek n :: r => n <= seen /\ in_order (Nat.max seen (S n)) r end.
Fixpoint lcalls (G : grammar) (l : list lcall) (x : lexer) : option (list Lex_Model.token) :=
  match l with
  | [] => Some []
  | o :: r => let '(t, y) := match o with LGet => get_token G x | LPeek n => peek_token G n x end in match t, lcalls G r y with Some t, Some a => Some (t :: a) | _, _ => None end
  end.
(** [a] is the token at position [n], an end-of-file token if there is none. *)
Definition at_position (toks : list Lex_Model.token) (n : nat) (a : Lex_Model.token) : Prop := match nth_error toks n with Some t => a = t | None => t_kind a = EOF end.
Fixpoint lanswers (l : list lcall) (toks ans : list Lex_Model.token) : Prop :=
  match l, ans with
  | [], [] => True
  | LGet :: r, a :: ans => at_position toks 0 a /\ lanswers r (tl toks) ans
  | LPeek n :: r, a :: ans => at_position toks n a /\ lanswers r toks ans
  | _, _ => False
  end.
Lemma left_at G x toks n t : left G x toks -> nth_error (l_queue x) n = Some t -> at_position toks n t.
Proof.
  intros L E. unfold at_position. destruct L as [(later & _ & ->)|(_ & eofs & Q & F)].
  - rewrite nth_error_app1 by (apply nth_error_Some; congruence). rewrite E. reflexivity.
  - rewrite Q in E. destruct (Nat.ltb_spec n (List.length toks)) as [B|B].
    + rewrite nth_error_app1 in E by exact B. rewrite E. reflexivity.
    + rewrite nth_error_app2 in E by exact B. rewrite (proj2 (nth_error_None _ _) B). rewrite Forall_forall in F. destruct (F t (nth_error_In _ _ E)) as [l ->]. reflexivity.
Qed.
Lemma tget_some G x t y : tget G x = Ret (t, y) -> exists u, get_token G x = (Some u, y).
Proof. unfold tget. destruct (get_token G x) as [[u|] z]; [|discriminate]. intros [= _ ->]. eauto. Qed.
Theorem C36_look_ahead_partial : forall G text toks ops,
  simple G -> lexes G 1 text toks -> in_order 0 ops -> exists ans, lcalls G ops (lexer_of text) = Some ans /\ lanswers ops toks ans.
Proof.
  intros G text toks ops SG L. apply left_init in L. change 0 with (List.length (l_queue (lexer_of text))) at 1. assert (Q : List.length (l_queue (lexer_of text)) <= List.length (l_queue (lexer_of text))) by lia.
  revert L Q. generalize (lexer_of text) at 1 3 5 as x. generalize (List.length (l_queue (lexer_of text))) as seen. revert toks.
  induction ops as [|o ops IH]; intros toks seen x L Q I; [exists []; split; [reflexivity|exact Logic.I]|]. destruct o as [|n]; cbn [in_order lcalls] in *.
  - destruct (left_get G SG x toks L) as (y & E & L' & Q'). destruct (tget_some _ _ _ _ E) as (u & E'). rewrite E'.
    destruct (IH (tl toks) (seen - 1) y L' ltac:(lia) I) as (ans & -> & A). eexists. split; [reflexivity|]. cbn [lanswers]. split; [|exact A].
    destruct (left_tokenize G SG x toks 0 L ltac:(lia)) as (B & LT). apply (left_at G (tokenize G 0 x) toks 0 u LT). unfold get_token in E'. destruct (l_queue (tokenize G 0 x)) as [|t q]; [discriminate|]. injection E' as -> _. reflexivity.
  - destruct I as [B I]. destruct (left_tokenize G SG x toks n L ltac:(lia)) as (B' & L'). unfold peek_token. destruct (nth_error (l_queue (tokenize G n x)) n) as [u|] eqn:E; [|apply nth_error_None in E; lia].
    assert (K : seen <= List.length (l_queue (tokenize G n x))).
    { unfold tokenize in *. destruct (Nat.ltb_spec (List.length (l_queue x)) (S n)) as [X|X]; [lia|lia]. }
    destruct (IH toks (Nat.max seen (S n)) (tokenize G n x) L' ltac:(lia) I) as (ans & -> & A). eexists. split; [reflexivity|]. cbn [lanswers]. split; [exact (left_at G _ toks n u L' E)|exact A].
Qed.
Print Assumptions C36_look_ahead_partial.

Lemma standard_grammar_simple isnum : simple (standard_grammar isnum).
Proof.
  split; [reflexivity|]. split; [left; repeat split|]. split.
  - intros c [H|H]; vm_compute in H; repeat (destruct H as [<-|H]; [repeat split; discriminate|]); destruct H.
  - intros c H1 H2. vm_compute in H1, H2. repeat (destruct H1 as [<-|H1]; [intuition discriminate|]). destruct H1.
Qed.
Lemma json_grammar_simple isnum : simple (json_grammar isnum).
Proof.
  split; [reflexivity|]. split; [right; repeat split|]. split.
  - intros c [H|H]; vm_compute in H; repeat (destruct H as [<-|H]; [repeat split; discriminate|]); destruct H.
  - intros c H1 H2. vm_compute in H1, H2. repeat (destruct H1 as [<-|H1]; [intuition discriminate|]). destruct H1.
Qed.

(** ** The parsers on texts. [is_text_of G text tokens]: the text consists of these tokens, with separators and comments between them (Lex_Spec.lexes). *)
Definition is_text_of (G : grammar) (text : list Z) (l : list token) : Prop := exists toks, lexes G 1 text toks /\ map token_of toks = l.
(** Parse of a text returns [b] and leaves the state of the parser such that [P]; its loops end. *)
Definition text_returns {A} (G : grammar) (T : tables) (execute : nat -> token -> A -> out (A * bool)) (text : list Z) (u : A) (b : bool) (P : A -> Prop) : Prop :=
  exists n, forall rounds fuel look, 1 <= rounds -> n <= fuel -> 8 <= look -> match parse_text G T execute rounds fuel look text u with Ret (b', u') => b' = b /\ P u' | _ => False end.
Lemma text_from_tokens {A} G T (execute : nat -> token -> A -> out (A * bool)) text l u b P : simple G -> is_text_of G text l -> parse_returns T execute l u b P -> text_returns G T execute text u b P.
Proof. intros SG (toks & L & <-) [n R]. exists n. intros rounds fuel look B C D. rewrite (same_parse G SG T execute text toks) by exact L. exact (R rounds fuel look B C D). Qed.

(** As C44_standard_partial, for a text of the configuration. *)
Theorem C44_standard_text_partial : forall (E : Type) (H : string -> Z) conv text_of vars is_num eval isnum (U : list string) (before after : list (sop (value E))) (config : list item) text,
  distinct_hashes H U -> Forall good_paths before -> Forall good_paths after -> (forall n, In n (flat_map used (before ++ after)) -> In n U) -> all_clear empty before ->
  (forall i, In i config -> depth i <= 249) -> good_config conv text_of vars is_num eval U (snd (srun empty before)) config ->
  is_text_of (standard_grammar isnum) text (flat_map write config) ->
  exists d, exec H init (map ConfigDB_Spec.call before) = Some (fst (srun empty before), d) /\
  let execute := standard_execute H conv text_of vars is_num eval in
  match configured conv text_of vars is_num eval (snd (srun empty before)) config with
  | Some t => text_returns (standard_grammar isnum) Standard execute text (cfg_init d) true (fun u => all_clear t after -> exists d', exec H (database u) (map ConfigDB_Spec.call after) = Some (fst (srun t after), d'))
  | None => text_returns (standard_grammar isnum) Standard execute text (cfg_init d) false (fun _ => True)
  end.
Proof.
  intros E H conv text_of vars is_num eval isnum U before after config text inj GB GA W AC L GC X.
  destruct (C44_standard_partial E H conv text_of vars is_num eval U before after config inj GB GA W AC L GC) as (d & Y & R). exists d. split; [exact Y|]. cbn zeta in *.
  destruct (configured _ _ _ _ _ _ _); eapply text_from_tokens; eauto using standard_grammar_simple.
Qed.
Print Assumptions C44_standard_text_partial.

(** As C44_json_partial, for a text of the configuration (JSON has no type casts in its terminals, so the items have none). *)
Theorem C44_json_text_partial : forall (E : Type) (H : string -> Z) conv text_of vars is_num eval isnum (U : list string) (before after : list (sop (value E))) (config : list jitem) text,
  distinct_hashes H U -> In "Idx" U -> Forall good_paths before -> Forall good_paths after -> (forall n, In n (flat_map used (before ++ after)) -> In n U) -> all_clear empty before ->
  (forall i, In i config -> jdepth i <= 124) -> (forall n, In n (flat_map vector_names config) -> (good_name n /\ In n U) /\ n <> "Idx") ->
  good_config conv text_of vars is_num eval U (snd (srun empty before)) (flat_map of_json config) ->
  is_text_of (json_grammar isnum) text (flat_map write_json config) ->
  exists d, exec H init (map ConfigDB_Spec.call before) = Some (fst (srun empty before), d) /\
  let execute := json_execute H conv text_of vars is_num eval in
  match configured conv text_of vars is_num eval (snd (srun empty before)) (flat_map of_json config) with
  | Some t => text_returns (json_grammar isnum) Json execute text (cfg_init d) true (fun u => all_clear t after -> exists d', exec H (database u) (map ConfigDB_Spec.call after) = Some (fst (srun t after), d'))
  | None => text_returns (json_grammar isnum) Json execute text (cfg_init d) false (fun _ => True)
  end.
Proof.
  intros E H conv text_of vars is_num eval isnum U before after config text inj idx GB GA W AC L VN GC X.
  destruct (C44_json_partial E H conv text_of vars is_num eval U before after config inj idx GB GA W AC L VN GC) as (d & Y & R). exists d. split; [exact Y|]. cbn zeta in *.
  destruct (configured _ _ _ _ _ _ _); eapply text_from_tokens; eauto using json_grammar_simple.
Qed.
Print Assumptions C44_json_text_partial.

(** ** A text that meets the hypotheses: that of C44_example, with comments and separators *)
Definition a_digits (l : list Z) : bool := forallb (fun c => (48 <=? c)%Z && (c <=? 57)%Z) l.
Definition a_G := standard_grammar a_digits.
Definition a_chars : list Z := (chars "// numbers" ++ 10 :: chars "A = { x = 1 B={v={1 2, 3} m = {{1 2}{3 4}}} y = (uint32)7 }" ++ 13 :: 10 :: chars "e = (uint32|""A.x A.y"")")%Z.
Ltac in_grammar := vm_compute; intuition congruence.
Ltac ordinary_word := repeat (apply Forall_cons; [vm_compute; intuition discriminate|]); apply Forall_nil.
Ltac stops := right; eexists; eexists; split; [reflexivity|in_grammar].
Ltac cut_word t s := let n := eval vm_compute in (String.length s) in let w := eval vm_compute in (firstn n t) in let r := eval vm_compute in (skipn n t) in change t with (w ++ r).
Ltac read_step :=
  match goal with
  | |- reads _ [] [] => apply reads_nil
  | |- reads _ (34%Z :: ?t) (TStr ?s :: _) => let n := eval vm_compute in (String.length s) in let w := eval vm_compute in (firstn n t) in let r := eval vm_compute in (skipn (S n) t) in
      change (34%Z :: t) with (quote :: w ++ quote :: r); change s with (text_of w); apply reads_quoted; [repeat (apply Forall_cons; [vm_compute; intuition discriminate|]); apply Forall_nil|]
  | |- reads _ (?c :: ?t) _ => apply reads_sep; [solve [in_grammar]|]
  | |- reads _ (?c :: ?t) (TTerm ?s :: _) => change s with (text_of [c]); apply reads_term; [solve [in_grammar]|]
  | |- reads _ ?t (TStr ?s :: _) => cut_word t s;
      match goal with |- reads _ (?w ++ _) _ => change s with (text_of w) end; apply reads_word; [apply standard_grammar_simple|discriminate|ordinary_word|apply not_numeric; [lia|discriminate|discriminate]|stops|]
  | |- reads _ ?t (TNum ?s :: _) => cut_word t s;
      match goal with |- reads _ (?w ++ _) _ => change s with (text_of w) end; apply reads_num; [apply standard_grammar_simple|discriminate|ordinary_word|split; [reflexivity|left; eexists; split; [reflexivity|lia]]|stops|]
  end.
Example C44_text_example : is_text_of a_G a_chars (flat_map write a_config).
Proof.
  assert (R : reads a_G a_chars (flat_map write a_config)); [|apply R].
  let l := eval vm_compute in (flat_map write a_config) in change (flat_map write a_config) with l. unfold a_chars.
  change (chars "// numbers") with (slash :: slash :: chars " numbers"). cbn [app].
  apply reads_comment; [repeat split|discriminate|vm_compute; intuition discriminate|].
  match goal with |- reads _ ?t _ => let t' := eval vm_compute in t in change t with t' end.
  repeat read_step.
Qed.
(** Look-ahead on it: the calls of a parser that looks one token ahead, then two *)
Example C36_look_ahead_example : exists toks, lexes a_G 1 a_chars toks /\ in_order 0 [LPeek 0; LPeek 1; LGet; LPeek 0; LGet; LGet] /\
  map token_of (firstn 3 toks) = [TStr "A"; TTerm "="; TTerm "{"].
Proof. destruct C44_text_example as (toks & L & E). exists toks. split; [exact L|]. split; [cbn; lia|]. rewrite <- firstn_map, E. reflexivity. Qed.
