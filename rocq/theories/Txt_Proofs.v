(** C36, C44: the parser on a text does what it does on the list of its tokens. *)
From Coq Require Import String Ascii.
From Verif Require Import Base Lex_Model Lex_Spec Lex_Proofs Lex_Proofs2 Lex_Proofs3 Slk_Model Txt_Model.
Open Scope string_scope. Open Scope nat_scope. Open Scope list_scope.

Section Simple.
Context (G : grammar) (SG : simple G).

Definition is_eof (t : Lex_Model.token) : Prop := exists l, t = Tk EOF [] l.
(** The tokens found but not returned are the first of the tokens left; at the end of the input end-of-file tokens may follow. *)
Definition left (x : lexer) (toks : list Lex_Model.token) : Prop :=
  (exists later, lexes G (l_line x) (l_rest x) later /\ toks = l_queue x ++ later) \/
  (l_rest x = [] /\ exists eofs, l_queue x = toks ++ eofs /\ Forall is_eof eofs).

Lemma left_init text toks : lexes G 1 text toks -> left (lexer_of text) toks.
Proof. intro L. left. exists toks. split; [exact L|reflexivity]. Qed.

(** One round of TokenizeInput *)
Lemma left_round x toks : left x toks -> (exists t q, l_queue (tokenize_round G x) = l_queue x ++ t :: q) /\ left (tokenize_round G x) toks.
Proof.
  intros [(later & L & ->)|(R & eofs & Q & F)].
  - assert (RR : round_result G (tokenize_round G x) (l_queue x) later).
    { replace (tokenize_round G x) with (round_of G (input_fuel (l_rest x)) (l_queue x) (l_rest x) (l_line x)) by reflexivity.
      apply (round G SG); [exact L|]. unfold input_fuel. lia. }
    destruct RR as [(-> & (l & E) & Er)|(now & lat & -> & Nn & E & L')].
    + split; [rewrite E; eauto|]. right. split; [exact Er|]. exists [Tk EOF [] l]. rewrite app_nil_r. split; [exact E|]. constructor; [exists l; reflexivity|constructor].
    + split; [destruct now as [|t q]; [congruence|]; rewrite E; eauto|]. left. exists lat. split; [exact L'|]. rewrite E, app_assoc. reflexivity.
  - assert (E : exists l, tokenize_round G x = Lx [] (l_queue x ++ [Tk EOF [] l]) l).
    { unfold tokenize_round. rewrite R. cbn [input_fuel List.length token_start]. unfold skip_comment. cbn [skip_seps s_ok s_rest s_sep s_line]. eexists. reflexivity. }
    destruct E as [l ->]. cbn [l_queue l_rest l_line]. split; [eauto|]. right. split; [reflexivity|]. exists (eofs ++ [Tk EOF [] l]). rewrite Q, app_assoc. split; [reflexivity|].
    apply Forall_app. split; [exact F|]. constructor; [exists l; reflexivity|constructor].
Qed.
(** TokenizeInput(n) when at least n tokens are there *)
Lemma left_tokenize x toks n : left x toks -> n <= List.length (l_queue x) -> S n <= List.length (l_queue (tokenize G n x)) /\ left (tokenize G n x) toks.
Proof.
  intros L Q. unfold tokenize. destruct (Nat.ltb_spec (List.length (l_queue x)) (S n)) as [B|B]; [|split; [exact B|exact L]].
  destruct (left_round x toks L) as ((t & q & E) & L'). set (y := tokenize_round G x) in *. clearbody y.
  assert (Z : S n - List.length (l_queue y) = 0) by (rewrite E, app_length; cbn [List.length]; lia). rewrite Z. cbn [pad]. split; [|exact L']. rewrite E, app_length. cbn [List.length]. lia.
Qed.
Lemma tok_eof t : is_eof t -> token_of t = TEof. Proof. intros [l ->]. reflexivity. Qed.
Lemma left_nth x toks n t : left x toks -> nth_error (l_queue x) n = Some t -> token_of t = nth n (map token_of toks) TEof.
Proof.
  intros L E. destruct L as [(later & _ & ->)|(_ & eofs & Q & F)].
  - rewrite map_app, app_nth1 by (rewrite map_length; apply nth_error_Some; congruence). rewrite (nth_indep _ TEof (token_of t)) by (rewrite map_length; apply nth_error_Some; congruence).
    rewrite map_nth. f_equal. symmetry. apply nth_error_nth. exact E.
  - rewrite Q in E. destruct (Nat.ltb_spec n (List.length toks)) as [B|B].
    + rewrite nth_error_app1 in E by exact B. rewrite (nth_indep _ TEof (token_of t)) by (rewrite map_length; exact B). rewrite map_nth. f_equal. symmetry. apply nth_error_nth. exact E.
    + rewrite nth_error_app2 in E by exact B. rewrite nth_overflow by (rewrite map_length; exact B). apply tok_eof. rewrite Forall_forall in F. apply F. eapply nth_error_In. exact E.
Qed.
Lemma left_peek x toks n : left x toks -> n <= List.length (l_queue x) ->
  exists y, tpeek G n x = Ret (nth n (map token_of toks) TEof, y) /\ left y toks /\ S n <= List.length (l_queue y).
Proof.
  intros L Q. destruct (left_tokenize x toks n L Q) as (B & L'). exists (tokenize G n x). unfold tpeek, peek_token.
  destruct (nth_error (l_queue (tokenize G n x)) n) as [t|] eqn:E; [|apply nth_error_None in E; lia]. rewrite (left_nth _ _ _ _ L' E). auto.
Qed.
Lemma left_get x toks : left x toks -> exists y, tget G x = Ret (hd TEof (map token_of toks), y) /\ left y (tl toks) /\ List.length (l_queue x) - 1 <= List.length (l_queue y).
Proof.
  intros L. assert (QQ : List.length (l_queue x) <= List.length (l_queue (tokenize G 0 x))).
  { unfold tokenize. destruct (Nat.ltb_spec (List.length (l_queue x)) 1) as [B|B]; [lia|lia]. }
  destruct (left_tokenize x toks 0 L ltac:(lia)) as (B & L'). unfold tget, get_token.
  destruct (l_queue (tokenize G 0 x)) as [|t q] eqn:E; [cbn in B; lia|]. pose proof (left_nth _ _ 0 t L' ltac:(rewrite E; reflexivity)) as N.
  eexists. split; [rewrite N; destruct toks; reflexivity|]. cbn [l_queue l_rest l_line]. split; [|cbn [List.length] in QQ; lia].
  destruct L' as [(later & L1 & ->)|(R & eofs & Q & F)].
  - left. exists later. cbn [l_line l_rest l_queue]. split; [exact L1|]. rewrite E. reflexivity.
  - right. cbn [l_rest l_queue]. split; [exact R|]. rewrite E in Q. destruct toks as [|a toks]; cbn [app tl] in *.
    + exists q. split; [reflexivity|]. rewrite <- Q in F. inversion F. assumption.
    + exists eofs. injection Q as -> ->. auto.
Qed.

(** ** The parser *)
Context (T : tables) {A : Type} (execute : nat -> token -> A -> out (A * bool)).
Definition rest (x : lexer) (l : list token) : Prop := exists toks, left x toks /\ l = map token_of toks.
Lemma rest_get x l : rest x l -> exists y, tget G x = Ret (hd TEof l, y) /\ rest y (tl l).
Proof. intros (toks & L & ->). destruct (left_get x toks L) as (y & E & L' & _). exists y. split; [exact E|]. exists (tl toks). split; [exact L'|]. destruct toks; reflexivity. Qed.

Definition same (a : tst A) (b : st A) : Prop :=
  cur a = current b /\ rest (lx a) (tl (inp b)) /\ tty a = ty b /\ tstk a = stk b /\ tusr a = usr b /\ terr a = err b /\ teof a = eof b.
Definition same_out {X Y} (R : X -> Y -> Prop) (a : out X) (b : out Y) : Prop := match a, b with Ret x, Ret y => R x y | Undef, Undef => True | NoFuel, NoFuel => True | _, _ => False end.
Lemma same_bind {X Y X' Y'} (R : X -> Y -> Prop) (R' : X' -> Y' -> Prop) a b f g : same_out R a b -> (forall x y, R x y -> same_out R' (f x) (g y)) -> same_out R' (bind a f) (bind b g).
Proof. destruct a, b; cbn; try contradiction; auto. Qed.
Lemma same_get {X Y} (R : X -> Y -> Prop) (o : out nat) f g : (forall n, same_out R (f n) (g n)) -> same_out R (bind o f) (bind o g).
Proof. destruct o; cbn; auto. Qed.

Lemma same_resolve fuel : forall x l entry level, rest x (tl l) -> level <= List.length (l_queue x) -> same_out (fun '(e, y) e' => e = e' /\ rest y (tl l)) (tresolve G T fuel x entry level) (resolve T fuel l entry level).
Proof.
  induction fuel as [|k IH]; intros x l entry level R Q; cbn [tresolve resolve]; destruct (entry <? START_CONFLICT T); cbn [same_out]; auto.
  apply same_get. intro row. destruct R as (toks & L & E). destruct (left_peek x toks level L Q) as (y & P & L' & Q'). rewrite P. cbn [bind]. unfold peek.
  replace (nth (S level) l TEof) with (nth level (map token_of toks) TEof) by (rewrite <- E; destruct l as [|a l]; [destruct level; reflexivity|reflexivity]).
  apply same_get. intro e. apply IH; [|exact Q']. exists toks. auto.
Qed.
Lemma same_syntax a b : same a b -> same (tsyntax T a) (syntax T b).
Proof. intros (A1 & A2 & A3 & A4 & A5 & A6 & A7). unfold tsyntax, syntax, same, current. cbn. rewrite A3, A4, A5, A6, A7. repeat (split; [first [assumption|reflexivity]|]). reflexivity. Qed.
Lemma same_expand a b symbol entry : same a b -> same_out same (texpand T a symbol entry) (expand T b symbol entry).
Proof.
  intro S. unfold texpand, expand. destruct (entry =? 0); [exact (same_syntax a b S)|]. do 3 (apply same_get; intro). destruct (_ =? symbol); [|exact (same_syntax a b S)].
  destruct S as (A1 & A2 & A3 & A4 & A5 & A6 & A7). unfold same, current. cbn. rewrite A4. repeat (split; [first [assumption|reflexivity]|]). assumption.
Qed.
Lemma same_iter cf symbol a b : same a b -> same_out same (titer G T execute cf symbol a) (iter T execute cf symbol b).
Proof.
  intro S. assert (S' := S). destruct S' as (A1 & A2 & A3 & A4 & A5 & A6 & A7). unfold titer, iter. destruct (START_ACTION T <=? symbol).
  - rewrite A1, A5. destruct (execute _ _ _) as [[u e]| |]; cbn; auto. unfold same, current. cbn. repeat (split; [first [assumption|reflexivity]|]). assumption.
  - destruct (START_SYMBOL T <=? symbol).
    + apply same_get. intro row. rewrite A3. apply same_get. intro e. eapply same_bind; [apply (same_resolve cf (lx a) (inp b) e 0 A2); lia|].
      intros [e1 y] e2 [-> R]. apply same_expand. unfold same, current. cbn. repeat (split; [first [assumption|reflexivity]|]). assumption.
    + rewrite A3. destruct (symbol =? ty b).
      * destruct (rest_get (lx a) (tl (inp b)) A2) as (y & E & R). rewrite E. cbn. unfold same, current. cbn. repeat (split; [first [assumption|reflexivity]|]). assumption.
      * cbn. unfold same, current. cbn. repeat (split; [first [assumption|reflexivity]|]). assumption.
Qed.
Lemma same_loop cf : forall fuel a b, same a b -> same_out same (tloop G T execute fuel cf a) (loop T execute fuel cf b).
Proof.
  induction fuel as [|k IH]; intros a b S; assert (S' := S); destruct S' as (A1 & A2 & A3 & A4 & A5 & A6 & A7); cbn [tloop loop]; rewrite A4, A6; destruct (stk b) as [|s r]; try exact S;
    destruct ((s =? 0) || err b); try exact S; cbn [same_out]; auto.
  eapply same_bind; [|exact IH]. apply same_iter. unfold same, current. cbn. repeat (split; [first [assumption|reflexivity]|]). assumption.
Qed.
(** Between the rounds the next token has not been taken yet *)
Definition between (a : tst A) (b : st A) : Prop := rest (lx a) (inp b) /\ tusr a = usr b /\ terr a = err b /\ teof a = eof b.
Lemma same_parses fuel cf : forall rounds a b, between a b -> same_out (fun a b => tusr a = usr b /\ terr a = err b) (tparses G T execute rounds fuel cf a) (parses T execute rounds fuel cf b).
Proof.
  induction rounds as [|k IH]; intros a b (R & A5 & A6 & A7); cbn [tparses parses]; rewrite A6, A7; destruct (err b || eof b); cbn [same_out]; auto.
  destruct (rest_get _ _ R) as (y & E & R'). rewrite E. cbn [bind]. eapply same_bind.
  - apply same_loop. unfold same, current. cbn [cur lx inp tty ty tstk stk tusr usr terr err teof eof]. split; [reflexivity|]. split; [exact R'|]. split; [reflexivity|]. split; [reflexivity|]. split; [exact A5|]. split; reflexivity.
  - intros a' b' (B1 & B2 & B3 & B4 & B5 & B6 & B7). apply IH. rewrite B3. destruct (ty b' =? END_OF_SLK_INPUT T); unfold between; cbn [cur lx inp tty ty tstk stk tusr usr terr err teof eof]; auto.
Qed.
Theorem same_parse text toks rounds fuel cf u : lexes G 1 text toks -> parse_text G T execute rounds fuel cf text u = parse T execute rounds fuel cf (map token_of toks) u.
Proof.
  intro L. unfold parse_text, parse. pose proof (same_parses fuel cf rounds (Ts (lexer_of text) TEof 0 [] u false false) (mk (map token_of toks) 0 [] u false false)) as S.
  destruct (tparses _ _ _ _ _ _ _) as [a| |], (parses _ _ _ _ _ _) as [b| |]; cbn [same_out bind] in *; try reflexivity;
    (match type of S with ?P -> _ => assert (X : P); [split; [exists toks; split; [exact (left_init text toks L)|reflexivity]|auto]|specialize (S X)] end); try contradiction.
  destruct S as [-> ->]. reflexivity.
Qed.
End Simple.
