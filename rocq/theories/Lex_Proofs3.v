(** The tokens returned. *)
From Verif Require Import Base Lex_Model Lex_Spec Lex_Proofs Lex_Proofs2.
Open Scope Z_scope.
Open Scope list_scope.

Lemma last_two u v u' v' : (forall a b, u ++ [star] <> a ++ star :: slash :: b) -> (forall a b, u' ++ [star] <> a ++ star :: slash :: b) ->
  u ++ star :: slash :: v = u' ++ star :: slash :: v' -> u = u'.
Proof.
  revert u'. induction u as [|a u IH]; intros u' H H' E.
  - destruct u' as [|b u']; [reflexivity|]. cbn [app] in E. injection E as <- E.
    destruct u' as [|c u']; cbn [app] in E; injection E as E1 E; [discriminate|]. subst c.
    destruct (H' [] (u' ++ [star])). reflexivity.
  - destruct u' as [|b u'].
    + cbn [app] in E. injection E as -> E. destruct u as [|c u]; cbn [app] in E; injection E as E1 E; [discriminate|]. subst c.
      destruct (H [] (u ++ [star])). reflexivity.
    + cbn [app] in E. injection E as <- E. f_equal. apply IH; [| |exact E].
      * intros x y X. apply (H (a :: x) y). cbn [app]. f_equal. exact X.
      * intros x y X. apply (H' (a :: x) y). cbn [app]. f_equal. exact X.
Qed.

Section Simple.
Variable G : grammar.
Hypothesis SG : simple G.

Lemma word_first_sep c r w r0 : is_sep G c -> word G (c :: r) w r0 -> w = [].
Proof.
  intros S W. inversion W as [? ?|? ? ? ? ? ? (_ & N & _) ?|? ? ? ? ? ?]; subst; [reflexivity| |].
  - contradiction.
  - destruct (backslash_not_sep G SG S).
Qed.
Lemma word_first_term c r w r0 : is_term G c -> word G (c :: r) w r0 -> w = [].
Proof.
  intros T W. inversion W as [? ?|? ? ? ? ? ? ? ?|? ? ? ? ? ?]; subst; [reflexivity| |].
  - contradiction.
  - destruct (backslash_not_term G SG T).
Qed.
Lemma word_first_comment t w r0 : comment_here G t -> word G t w r0 -> w = [].
Proof.
  intros C W. inversion W as [? ?|? ? ? ? ? ? (_ & _ & N & _) ?|? ? ? ? ? ?]; subst; [reflexivity| |].
  - contradiction.
  - destruct C as (_ & d & t' & X & _). discriminate X.
Qed.
Lemma sep_term c : is_sep G c -> is_term G c -> False.
Proof. destruct SG as (_ & _ & _ & D). apply D. Qed.
Lemma slash_not_term : ~ is_term G slash.
Proof. intros S. destruct (G_special G SG _ (or_intror S)) as (_ & _ & _ & X). congruence. Qed.

Lemma stops_lexes r line r' tm sep line' toks n :
  stops G r line r' tm sep line' -> lexes G line r toks -> glued r n ->
  exists toks', toks = (if tm =? 0 then [] else [Tk TERMINAL [tm] line']) ++ toks' /\ line' = line + n /\
    lexes G (if sep =? nl then line' + 1 else line') r' toks'.
Proof.
  intros St Lx Gl. destruct St as [line|c r line H|c r line H H2|b r line H|line H|r r' line line' H Hm].
  - inversion Lx; subst.
    + exists []. split; [reflexivity|]. split; [|constructor].
      destruct Gl as [(body & r' & E & _)|[_ ->]]; [discriminate E|lia].
    + match goal with W : word G [] _ _ |- _ => inversion W; subst end. congruence.
  - assert (n = 0) as ->.
    { destruct Gl as [(body & r' & E & _)|[_ ->]]; [injection E as -> _; destruct (slash_not_sep G SG H)|reflexivity]. }
    inversion Lx as [|? ? ? ? S L|? ? ? ? C|? ? C|? ? ? ? C|? ? ? ? T L|? ? ? ? ? Q|? ? w ? ? ? ? Nw Nq W]; subst.
    + exists toks. rewrite newlines_one. rewrite Z.add_0_r. auto.
    + destruct (slash_not_sep G SG H).
    + destruct (slash_not_sep G SG H).
    + destruct (slash_not_sep G SG H).
    + destruct (sep_term _ H T).
    + destruct (quote_not_sep G SG H).
    + destruct Nw. eapply word_first_sep; eassumption.
  - assert (n = 0) as ->.
    { destruct Gl as [(body & r' & E & _)|[_ ->]]; [injection E as -> _; destruct (slash_not_term H)|reflexivity]. }
    destruct (G_special G SG c (or_intror H)) as (X1 & X2 & X3 & X4).
    rewrite (proj2 (Z.eqb_neq _ _) X1). change (0 =? nl) with false.
    inversion Lx as [|? ? ? ? S L|? ? ? ? C|? ? C|? ? ? ? C|? ? ? ? T L|? ? ? ? ? Q|? ? w ? ? ? ? Nw Nq W]; subst; try congruence.
    + exists toks0. rewrite Z.add_0_r. auto.
    + destruct Nw. eapply word_first_term; eassumption.
  - assert (n = 0) as ->.
    { destruct Gl as [(body & r' & E & _)|[_ ->]]; [discriminate E|reflexivity]. }
    rewrite Z.eqb_refl. exists toks. cbn [app Z.eqb]. split; [reflexivity|]. split; [lia|].
    inversion Lx as [|? ? ? ? S L|? body ? ? C Nb Ni L|? body C Ni|? ? ? ? C|? ? ? ? T L|? ? ? ? ? Q|? ? w ? ? ? ? Nw Nq W]; subst.
    + destruct (slash_not_sep G SG S).
    + destruct body as [|b' body]; [congruence|]. cbn [app] in *. match goal with E : _ :: _ ++ _ = b :: r |- _ => injection E as -> <- end.
      rewrite read_one_line_body; [exact L|]. intros X; apply Ni; right; exact X.
    + rewrite read_one_line_end; [constructor|]. intros X; apply Ni; right; exact X.
    + destruct (slash_not_term T).
    + destruct Nw. eapply word_first_comment; [|eassumption]. split; [exact H|]. eauto 6.
  - assert (n = 0) as ->.
    { destruct Gl as [(body & r' & E & _)|[_ ->]]; [discriminate E|reflexivity]. }
    exists toks. cbn [app Z.eqb]. split; [reflexivity|]. split; [lia|].
    inversion Lx as [|? ? ? ? S L|? body ? ? C Nb Ni L|? body C Ni|? ? ? ? C|? ? ? ? T L|? ? ? ? ? Q|? ? w ? ? ? ? Nw Nq W]; subst.
    + destruct (slash_not_sep G SG S).
    + destruct body; [congruence|discriminate].
    + constructor.
    + destruct (slash_not_term T).
    + destruct Nw. eapply word_first_comment; [|eassumption]. split; [exact H|]. eauto 6.
  - exists toks. cbn [app Z.eqb]. split; [reflexivity|]. change (0 =? nl) with false.
    inversion Lx as [|? ? ? ? S L|? body ? ? C Nb Ni L|? body C Ni|? body r1 ? C Nb L|? ? ? ? T L|? ? ? ? ? Q|? ? w ? ? ? ? Nw Nq W]; subst.
    + destruct (slash_not_sep G SG S).
    + rewrite read_multi_body in Hm by assumption. injection Hm as <- <-.
      destruct Gl as [(body' & r2 & E & Nb' & ->)|[N _]].
      * injection E as E. rewrite (last_two _ _ _ _ Nb Nb' E). split; [reflexivity|].
        rewrite <- (last_two _ _ _ _ Nb Nb' E). exact L.
      * destruct (N _ eq_refl).
    + destruct (slash_not_term T).
    + destruct Nw. eapply word_first_comment; [|eassumption]. split; [exact H|]. eauto 6.
Qed.

Lemma finish_word s tok : c_str s <> [] -> word_token G (c_str s) (c_line s) tok -> c_quoted s = false ->
  finish G s = (tok :: (if c_term s =? 0 then [] else [Tk TERMINAL [c_term s] (c_line s)]), c_rest s).
Proof.
  intros N T Q. unfold finish. rewrite (G_key G SG). rewrite Q. rewrite (add_word G _ _ _ N T).
  destruct (c_str s) as [|c w]; [congruence|]. cbn [app search_string prefix orb andb].
  destruct (c_term s =? 0); [reflexivity|]. destruct (c_rest s); reflexivity.
Qed.

Definition round_of (f : nat) (q : list token) (text : list Z) (line : Z) : lexer :=
  match token_start f G text line with
  | (None, r, line) => Lx r (q ++ [Tk EOF [] line]) line
  | (Some (c, b), r, line) =>
      let s := scan_loop (input_fuel (b ++ r)) G c (Sc r b [] false false 0 0 line []) in
      let '(toks, r') := finish G s in
      Lx r' (q ++ c_added s ++ toks) (if c_sep s =? nl then c_line s + 1 else c_line s)
  end.

Definition round_result (x' : lexer) (q toks : list token) : Prop :=
  (toks = [] /\ (exists l, l_queue x' = q ++ [Tk EOF [] l]) /\ l_rest x' = []) \/
  (exists now later, toks = now ++ later /\ now <> [] /\ l_queue x' = q ++ now /\ lexes G (l_line x') (l_rest x') later).

Lemma round_eof f q line : round_result (round_of f q [] line) q [].
Proof. left. split; [reflexivity|]. destruct f; (split; [eexists; reflexivity|reflexivity]). Qed.

Lemma round : forall line text toks, lexes G line text toks -> forall f q, (List.length text < f)%nat ->
  round_result (round_of f q text line) q toks.
Proof.
  intros line text toks H. induction H as [line|line c r toks Hs L IH|line body r toks C Nb Ni L IH|line body C Ni|
    line body r toks C Nb L IH|line c r toks T L IH|line src body r toks Q L IH|line t w r n tok toks Nw Nq W Gl Tk L IH]; intros f q F.
  - apply round_eof.
  - unfold round_of. rewrite (start_sep G) by (assumption || lia). apply (IH f q). cbn in F. lia.
  - destruct body as [|b body]; [congruence|]. cbn [app] in *. destruct f as [|f]; [cbn in F; lia|].
    unfold round_of. rewrite (start_one G SG) by assumption. rewrite read_one_line_body.
    + apply IH. cbn [List.length] in F. rewrite app_length in F. cbn [List.length] in F. lia.
    + intros X; apply Ni; right; exact X.
  - destruct body as [|b body].
    + unfold round_of. destruct (start_one_eof G SG f line C) as (l & E & El). rewrite E. left. split; [reflexivity|].
      cbn [l_queue l_rest]. split; [eauto|]. apply El. lia.
    + destruct f as [|f]; [cbn in F; lia|]. unfold round_of. rewrite (start_one G SG) by assumption. rewrite read_one_line_end.
      * apply round_eof.
      * intros X; apply Ni; right; exact X.
  - destruct f as [|f]; [cbn in F; lia|]. unfold round_of. rewrite (start_multi G SG) by assumption. apply IH.
    cbn [List.length] in F. rewrite app_length in F. cbn [List.length] in F. lia.
  - unfold round_of. rewrite (start_term G SG) by (assumption || lia). cbn [app].
    destruct (G_special G SG c (or_intror T)) as (X1 & X2 & X3 & X4).
    unfold input_fuel. cbn [scan_loop c_quoted c_esc c_rest c_buf c_str c_term c_line c_added c_sep].
    rewrite search_no; [|assumption|intros S; exact (sep_term c S T)]. cbn [andb].
    rewrite search_yes by assumption. cbn [andb negb]. unfold finish. cbn [c_quoted c_esc c_rest c_buf c_str c_term c_line c_added c_sep].
    rewrite (G_key G SG). rewrite (proj2 (Z.eqb_neq _ _) X1). cbn [andb add_token].
    change (0 =? nl) with false. right. exists [Tk TERMINAL [c] line], toks. split; [reflexivity|]. split; [discriminate|].
    destruct r as [|d r]; cbn [search_string prefix orb app l_queue l_line l_rest]; auto.
  - unfold round_of. rewrite (start_quote G SG) by lia. cbn [app].
    rewrite (scan_quoted G SG src body) by (try assumption; unfold input_fuel; rewrite app_length; cbn [List.length]; lia).
    unfold finish. cbn [c_quoted c_esc c_rest c_buf c_str c_term c_line c_added c_sep]. rewrite (G_key G SG).
    cbn [Z.eqb app andb search_string prefix orb]. change (quote =? nl) with false.
    unfold add_token. cbn [negb andb]. rewrite strip_quoted.
    right. exists [Tk STRING body (line + newlines body)], toks. cbn [l_queue l_line l_rest app]. split; [reflexivity|].
    split; [discriminate|]. auto.
  - destruct t as [|c t]; [inversion W; subst; congruence|].
    assert (Hq : c <> quote) by (intros ->; destruct (Nq t eq_refl)).
    assert (Wc : word_char G c t).
    { inversion W as [? ?|? ? ? ? ? ? Wc ?|? ? ? ? Wc ?]; subst; [congruence|exact Wc|apply (backslash_word_char G SG)]. }
    unfold round_of. destruct (start_char G SG f c t line Wc) as (b & r1 & -> & Et & Ah); [lia|].
    assert (En : ends G r).
    { clear - W. induction W; assumption. }
    destruct (ends_stops G SG r (line + newlines w) En) as (r' & tm & sep & line' & St).
    rewrite (scan_word G SG c t w r (input_fuel (b ++ r1)) _ r' tm sep line'); try assumption; try reflexivity.
    2:{ apply Ah. } 2:{ unfold input_fuel. rewrite <- Et. lia. }
    destruct (stops_lexes _ _ _ _ _ _ _ _ St L Gl) as (toks' & -> & -> & L').
    rewrite (finish_word _ tok) by (cbn [c_str c_line c_quoted]; assumption || reflexivity).
    cbn [c_quoted c_esc c_rest c_buf c_str c_term c_line c_added c_sep app l_queue l_line l_rest].
    right. exists (tok :: (if tm =? 0 then [] else [Lex_Model.Tk TERMINAL [tm] (line + newlines w + n)])), toks'.
    split; [reflexivity|]. split; [discriminate|]. split; [reflexivity|]. exact L'.
Qed.

(** ** Any sequence of GetToken and PeekToken(0) *)
Definition state (x : lexer) (toks : list token) : Prop :=
  exists later, lexes G (l_line x) (l_rest x) later /\ toks = l_queue x ++ later.

Lemma tokenize_state x toks : state x toks -> exists q,
  l_queue (tokenize G 0 x) = q /\
  ((exists t q', q = t :: q' /\ state (tokenize G 0 x) toks) \/
   (toks = [] /\ exists l, q = [Tk EOF [] l] /\ l_rest (tokenize G 0 x) = [])).
Proof.
  intros (later & L & ->). unfold tokenize. destruct (l_queue x) as [|t q] eqn:E.
  - cbn [List.length Nat.ltb Nat.leb app].
    assert (R : round_result (tokenize_round G x) [] later).
    { replace (tokenize_round G x) with (round_of (input_fuel (l_rest x)) [] (l_rest x) (l_line x)).
      - apply round; [exact L|]. unfold input_fuel. lia.
      - unfold tokenize_round, round_of. rewrite E. reflexivity. }
    set (x1 := tokenize_round G x) in *. destruct R as [(-> & (l & Eq) & Er)|(now & lat & -> & Nn & Eq & L')]; cbn [app] in Eq; rewrite Eq.
    + cbn [List.length Nat.sub pad]. exists [Tk EOF [] l]. split; [exact Eq|]. right. split; [reflexivity|]. exists l. auto.
    + destruct now as [|t now]; [congruence|]. cbn [List.length Nat.sub pad]. exists (t :: now). split; [exact Eq|]. left.
      exists t, now. split; [reflexivity|]. exists lat. rewrite Eq. auto.
  - change (Nat.ltb (List.length (t :: q)) 1) with false. cbv iota. exists (t :: q). split; [exact E|]. left. exists t, q. split; [reflexivity|].
    exists later. rewrite E. auto.
Qed.

Lemma eof_state l line : state (Lx [] [] line) [] /\ True /\ l = l :> Z.
Proof. split; [|auto]. exists []. split; [constructor|reflexivity]. Qed.

(** The state may also hold an EOF token that was peeked at. *)
Definition state' (x : lexer) (toks : list token) : Prop :=
  state x toks \/ (toks = [] /\ l_rest x = [] /\ exists l, l_queue x = [Tk EOF [] l]).

Lemma calls_answer : forall ops x toks, state' x toks -> exists ans, calls G ops x = Some ans /\ answers ops toks ans.
Proof.
  induction ops as [|op ops IH]; intros x toks H; [exists []; split; [reflexivity|constructor]|].
  cbn [calls]. destruct H as [H|(-> & R & l & Q)].
  - destruct (tokenize_state x toks H) as (q & Eq & [(t & q' & -> & S')|(-> & l & -> & Er)]).
    + destruct S' as (later & L & Et). rewrite Eq in Et.
      destruct op; unfold get_token, peek_token; rewrite Eq.
      * destruct (IH (Lx (l_rest (tokenize G 0 x)) q' (l_line (tokenize G 0 x))) (q' ++ later)) as (ans & -> & A).
        { left. exists later. auto. }
        eexists. split; [reflexivity|]. subst toks. cbn [app]. constructor. exact A.
      * cbn [nth_error]. destruct (IH (tokenize G 0 x) toks) as (ans & -> & A).
        { left. exists later. rewrite Eq. auto. }
        eexists. split; [reflexivity|]. subst toks. cbn [app] in *. constructor. exact A.
    + destruct op; unfold get_token, peek_token; rewrite Eq.
      * destruct (IH (Lx (l_rest (tokenize G 0 x)) [] (l_line (tokenize G 0 x))) []) as (ans & -> & A).
        { left. exists []. rewrite Er. split; [constructor|reflexivity]. }
        eexists. split; [reflexivity|]. constructor. exact A.
      * cbn [nth_error]. destruct (IH (tokenize G 0 x) []) as (ans & -> & A).
        { right. split; [reflexivity|]. split; [exact Er|]. exists l. exact Eq. }
        eexists. split; [reflexivity|]. constructor. exact A.
  - assert (T : tokenize G 0 x = x) by (unfold tokenize; rewrite Q; reflexivity).
    destruct op; unfold get_token, peek_token; rewrite T, Q.
    + destruct (IH (Lx (l_rest x) [] (l_line x)) []) as (ans & -> & A).
      { left. exists []. rewrite R. split; [constructor|reflexivity]. }
      eexists. split; [reflexivity|]. constructor. exact A.
    + cbn [nth_error]. destruct (IH x []) as (ans & -> & A); [right; eauto|].
      eexists. split; [reflexivity|]. constructor. exact A.
Qed.

Theorem lexer_answers text toks ops : lexes G 1 text toks -> exists ans, calls G ops (lexer_of text) = Some ans /\ answers ops toks ans.
Proof. intros L. apply calls_answer. left. exists toks. split; [exact L|reflexivity]. Qed.
End Simple.
