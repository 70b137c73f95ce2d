(** C34: mathematical expressions compile to the right stack program. *)
From Coq Require Import String Ascii.
From Verif Require Import Base MathParser_Model MathParser_Spec MathParser_Proofs.
Open Scope string_scope. Open Scope nat_scope. Open Scope list_scope.
Arguments token_type : simpl never.

Definition well_stmt (s : stmt) : Prop := well (rhs s) /\ nest (rhs s) <= 37.

Lemma level_1 e : 1 <= level e. Proof. destruct e as [x|m|tn m|tn e|u e|u e1 e2|e|f e1 l]; cbn; try lia. destruct u; cbn; lia. Qed.
Lemma stmt_ok s k o c a t : well_stmt s -> runs (S0 (write_stmt s ++ k) [24; 39] o c a t) (S0 k [39] o c (dst s) (t ++ text (program_stmt s))).
Proof.
  intros [W N]. unfold write_stmt, program_stmt. cbn [app]. rewrite <- app_assoc. cbn [app].
  nt [45; 1; 2; 26; 25; 46]. { intro cf. reflexivity. } cbn [app]. act.
  match goal with |- runs _ ?g => change (runs (S0 (TStr (dst s) :: TTerm "=" :: write (rhs s) ++ TTerm (if comma s then "," else ";") :: k) [1; 2; 26; 25; 46; 39] o c (dst s) t) g) end.
  tm. tm. eapply runs_trans; [apply (proj1 (inv _ (rhs s) (le_n _) W) 1 ltac:(lia) (level_1 _)); [cbn [hd]; destruct (comma s); cbn; tauto|change (cost 1) with 17; cbn [List.length]; lia]|].
  destruct (comma s).
  - nt [4]. { intro cf. reflexivity. } cbn [app]. tm. act. cbn [S0 asg]. rewrite S0_emit, text_app, text_one, line_write, !sapp_assoc. apply runs_refl.
  - nt [3]. { intro cf. reflexivity. } cbn [app]. tm. act. cbn [S0 asg]. rewrite S0_emit, text_app, text_one, line_write, !sapp_assoc. apply runs_refl.
Qed.
Definition last_dst (a : string) (l : list stmt) : string := fold_left (fun _ s => dst s) l a.
Lemma stmts_ok : forall l o c a t, Forall well_stmt l -> runs (S0 (flat_map write_stmt l) [39] o c a t) (S0 [] [39] o c (last_dst a l) (t ++ text (flat_map program_stmt l))).
Proof.
  induction l as [|s l IH]; intros o c a t W; [cbn [flat_map text fold_right last_dst fold_left]; rewrite sapp_nil; apply runs_refl|]. inversion W as [|? ? W1 W2]; subst. cbn [flat_map last_dst fold_left].
  nt [24; 39]. { intro cf. reflexivity. } cbn [app]. eapply runs_trans; [apply stmt_ok; exact W1|]. eapply runs_trans; [apply IH; exact W2|]. rewrite text_app, <- sapp_assoc. apply runs_refl.
Qed.
Lemma loop_end N o c a t : N = 23 \/ N = 39 -> forall m cf, loop (S m) (8 + cf) (S0 [] [N] o c a t) = Ret (mk [] 22 [] o c a t false true).
Proof. intros [-> | ->] m cf; destruct m; reflexivity. Qed.

(** The parser accepts every list of assignments of well-formed expressions and gives their stack programs, one after the other. *)
Theorem C34_program_partial : forall l : list stmt, Forall well_stmt l -> exists n, forall rounds fuel cf, 1 <= rounds -> n <= fuel -> 8 <= cf ->
  parse rounds fuel cf (flat_map write_stmt l) = Ret (true, text (flat_map program_stmt l)).
Proof.
  intros l W. assert (R : exists N a n, (N = 23 \/ N = 39) /\ forall m cf, loop (n + m) (8 + cf) (S0 (flat_map write_stmt l) [23] [] [] "" "") = loop m (8 + cf) (S0 [] [N] [] [] a (text (flat_map program_stmt l)))).
  { destruct l as [|s l]; [exists 23, "", 0; split; [left; reflexivity|reflexivity]|]. exists 39, (last_dst (dst s) l). assert (X : runs (S0 (flat_map write_stmt (s :: l)) [23] [] [] "" "") (S0 [] [39] [] [] (last_dst (dst s) l) (text (flat_map program_stmt (s :: l))))); [|destruct X as [n X]; exists n; split; [right; reflexivity|exact X]].
    inversion W as [|? ? W1 W2]; subst. cbn [flat_map]. nt [24; 39]. { intro cf. reflexivity. } cbn [app]. eapply runs_trans; [apply stmt_ok; exact W1|]. eapply runs_trans; [apply stmts_ok; exact W2|]. rewrite text_app. apply runs_refl. }
  destruct R as (N & a & n & HN & R). exists (S n). intros rounds fuel cf R1 F C. destruct rounds as [|k]; [lia|]. replace cf with (8 + (cf - 8)) by lia. replace fuel with (n + S (fuel - S n)) by lia. unfold parse. cbn [parses err eof orb].
  change (loop (n + S (fuel - S n)) (8 + (cf - 8)) (mk (inp (mk (flat_map write_stmt l) 0 [] [] [] "" "" false false)) (token_type (current (mk (flat_map write_stmt l) 0 [] [] [] "" "" false false))) (push START_SYMBOL []) (ops (mk (flat_map write_stmt l) 0 [] [] [] "" "" false false)) (casts (mk (flat_map write_stmt l) 0 [] [] [] "" "" false false)) (asg (mk (flat_map write_stmt l) 0 [] [] [] "" "" false false)) (txt (mk (flat_map write_stmt l) 0 [] [] [] "" "" false false)) false false)) with (loop (n + S (fuel - S n)) (8 + (cf - 8)) (S0 (flat_map write_stmt l) [23] [] [] "" "")).
  rewrite R, loop_end by exact HN. cbn [bind ty Nat.eqb END_OF_SLK_INPUT]. destruct k; reflexivity.
Qed.
Print Assumptions C34_program_partial.

(** ** The program computes the value of the expression *)
Section Value.
Context {V : Type} (const : string -> string -> V) (cast : string -> V -> V) (fn : string -> list V -> V) (arity : string -> nat).
Notation run := (run const cast fn arity). Notation value := (value const cast fn). Notation arities := (arities arity).
Lemma run_app p q s : run (p ++ q) s = match run p s with Some s => run q s | None => None end.
Proof. revert s. induction p as [|i p IH]; intro s; [reflexivity|]. cbn [app MathParser_Spec.run]. destruct (step const cast fn arity s i); [apply IH|reflexivity]. Qed.
Lemma run_op f vs st env : arity f = List.length vs -> run [OP f] (rev vs ++ st, env) = Some (fn f vs :: st, env).
Proof.
  intro E. cbn [MathParser_Spec.run step]. rewrite E, <- (rev_length vs). rewrite (proj2 (Nat.leb_le _ _)) by (rewrite app_length; lia). rewrite firstn_app, skipn_app, Nat.sub_diag, firstn_all, skipn_all. cbn [firstn skipn app]. rewrite app_nil_r, rev_involutive. reflexivity.
Qed.
Lemma arities_arg l x : (fix all l := match l with [] => True | x :: r => arities x /\ all r end) l -> In x l -> arities x.
Proof. induction l as [|y l IH]; intros W []; destruct W as [W1 W2]; [subst; exact W1|apply IH; assumption]. Qed.
Lemma run_value : forall n e, List.length (write e) <= n -> arities e -> forall st env, run (program e) (st, env) = Some (value env e :: st, env).
Proof.
  induction n as [|n IH]; intros e Len Ar st env; [pose proof (write_len e); lia|]. destruct e as [x|m|tn m|tn e|u e|u e1 e2|e|f e1 l]; cbn [program MathParser_Spec.value MathParser_Spec.arities write List.length] in *.
  - reflexivity.
  - reflexivity.
  - reflexivity.
  - rewrite run_app, (IH e ltac:(lia) Ar). reflexivity.
  - destruct u; [apply IH; [lia|exact Ar]| |]; destruct Ar as [A1 A2]; rewrite run_app, (IH e ltac:(lia) A2); [exact (run_op "NEG" [value env e] st env A1)|exact (run_op "NOT" [value env e] st env A1)].
  - rewrite app_length in Len. cbn [List.length] in Len. destruct Ar as (A1 & A2 & A3). rewrite run_app, (IH e1 ltac:(lia) A2), run_app, (IH e2 ltac:(lia) A3). exact (run_op (bname u) [value env e1; value env e2] st env A1).
  - rewrite app_length in Len. cbn [List.length] in Len. apply IH; [lia|exact Ar].
  - rewrite !app_length in Len. cbn [List.length] in Len. destruct Ar as (A1 & A2 & A3). rewrite run_app, (IH e1 ltac:(lia) A2), run_app.
    assert (R : forall l' st', (forall x, In x l' -> In x l) -> run (flat_map program l') (st', env) = Some (rev (map (value env) l') ++ st', env)).
    { induction l' as [|x l' IHl]; intros st' Sub; [reflexivity|]. cbn [flat_map map rev]. rewrite run_app, (IH x ltac:(pose proof (write_arg l x (Sub x (or_introl eq_refl))); lia) (arities_arg l x A3 (Sub x (or_introl eq_refl)))). rewrite IHl by (intros y Y; apply Sub; right; exact Y). rewrite <- app_assoc. reflexivity. }
    rewrite (R l _ (fun x X => X)). pose proof (run_op (to_upper f) (value env e1 :: map (value env) l) st env) as Q. cbn [rev List.length] in Q. rewrite map_length, <- app_assoc in Q. exact (Q A1).
Qed.
End Value.
(** Whatever the values, the constants and the functions are: the program of a list of assignments leaves the stack as it was and every
    variable with the value of the last expression assigned to it. *)
Theorem C34_value : forall (V : Type) (const : string -> string -> V) (cast : string -> V -> V) (fn : string -> list V -> V) (arity : string -> nat) (l : list stmt) (env : string -> V) (st : list V),
  Forall (fun s => arities arity (rhs s)) l -> run const cast fn arity (flat_map program_stmt l) (st, env) = Some (st, fold_left (assign const cast fn) l env).
Proof.
  intros V const cast fn arity l. induction l as [|s l IH]; intros env st Ar; [reflexivity|]. inversion Ar as [|? ? A1 A2]; subst. cbn [flat_map fold_left]. unfold program_stmt. rewrite <- app_assoc, run_app, (run_value const cast fn arity _ (rhs s) (le_n _) A1). cbn [app run step]. apply IH. exact A2.
Qed.
Print Assumptions C34_value.

(** ** Findings *)
Fixpoint parens (n : nat) (e : expr) : expr := match n with O => e | S k => Paren (parens k e) end.
(** Symbols that do not fit on the parser's stack are dropped. A multiplication inside 100 parentheses is accepted, and compiled as the addition outside. *)
Theorem C34_deep_nesting_refuted : exists s t, well (rhs s) /\ parse 2 2000 10 (write_stmt s) = Ret (true, t) /\ t <> text (program_stmt s).
Proof.
  exists (Asg "A" (Bin Add (Var "u") (parens 100 (Bin Mul (Var "x") (Var "y")))) false). eexists. split; [|split].
  - assert (P : forall n e, well e -> well (parens n e)) by (induction n as [|n IH]; intros e W; [exact W|cbn; apply IH; exact W]). cbn [rhs well]. split; [cbn; lia|]. split; [cbn; lia|]. split; [exact I|]. apply P. cbn. lia.
  - vm_compute. reflexivity.
  - vm_compute. intro C. discriminate.
Qed.
Print Assumptions C34_deep_nesting_refuted.
(** and a variable inside 110 parentheses is refused. *)
Theorem C34_deep_nesting_refused_refuted : exists s t, well (rhs s) /\ parse 2 2000 10 (write_stmt s) = Ret (false, t).
Proof.
  exists (Asg "A" (parens 110 (Var "x")) false). eexists. split; [|vm_compute; reflexivity].
  assert (P : forall n e, well e -> well (parens n e)) by (induction n as [|n IH]; intros e W; [exact W|cbn; apply IH; exact W]). apply P. exact I.
Qed.
Print Assumptions C34_deep_nesting_refused_refuted.
(** "A = (B)" without a semicolon: the parser looks ahead for ever. *)
Lemma resolve_for_ever l : (forall i, 3 <= i -> nth i l TEof = TEof) -> forall cf level, 2 <= level -> resolve cf l 49 level = NoFuel.
Proof.
  intro E. induction cf as [|cf IH]; intros level L; [reflexivity|]. cbn [resolve]. change (49 <? START_CONFLICT) with false. cbn iota. change (get Conflict_row (49 - (START_CONFLICT - 1))) with (@Ret nat 56). cbn [bind]. unfold peek. rewrite (E (S level)) by lia. change (get Conflict (56 + token_type TEof)) with (@Ret nat 49). cbn [bind]. apply IH. lia.
Qed.
Theorem C34_no_end_refuted : forall rounds fuel cf, parse rounds fuel cf [TStr "A"; TTerm "="; TTerm "("; TStr "B"; TTerm ")"] = NoFuel.
Proof.
  intros rounds fuel cf. destruct rounds as [|rounds]; [reflexivity|].
  assert (R : resolve cf [TTerm "("; TStr "B"; TTerm ")"] 46 0 = NoFuel).
  { destruct cf as [|[|cf]]; [reflexivity|reflexivity|]. cbn [resolve]. change (46 <? START_CONFLICT) with false. cbn iota. change (get Conflict_row (46 - (START_CONFLICT - 1))) with (@Ret nat 1). cbn [bind]. change (get Conflict (1 + peek [TTerm "("; TStr "B"; TTerm ")"] 0)) with (@Ret nat 48). cbn [bind].
    change (48 <? START_CONFLICT) with false. cbn iota. change (get Conflict_row (48 - (START_CONFLICT - 1))) with (@Ret nat 36). cbn [bind]. change (get Conflict (36 + peek [TTerm "("; TStr "B"; TTerm ")"] 1)) with (@Ret nat 49). cbn [bind]. apply resolve_for_ever; [|lia]. intros i I. destruct i as [|[|[|[|i]]]]; [lia|lia|lia|reflexivity|reflexivity]. }
  unfold parse. cbn [parses]. assert (L : forall s, inp s = [TTerm "("; TStr "B"; TTerm ")"] -> ty s = 19 -> err s = false -> (exists r, stk s = 36 :: r) -> forall k, loop k cf s = NoFuel).
  { intros s Hi Ht He [r Hs] k. destruct k as [|k]; cbn [loop]; rewrite Hs, He; [reflexivity|]. cbn [Nat.eqb orb]. unfold iter. cbn [ty inp]. rewrite Ht, Hi. change (START_ACTION <=? 36) with false. change (START_SYMBOL <=? 36) with true. cbn iota. change (get Parse_row (36 - (START_SYMBOL - 1))) with (@Ret nat 74). cbn [bind]. change (get ParseArray (74 + 19)) with (@Ret nat 46). cbn [bind]. rewrite R. reflexivity. }
  assert (T : loop fuel cf (S0 [TStr "A"; TTerm "="; TTerm "("; TStr "B"; TTerm ")"] [23] [] [] "" "") = NoFuel); [|cbn [err eof orb]; fold (S0 [TStr "A"; TTerm "="; TTerm "("; TStr "B"; TTerm ")"] [23] [] [] "" ""); match goal with |- bind (bind ?x _) _ = _ => change x with (loop fuel cf (S0 [TStr "A"; TTerm "="; TTerm "("; TStr "B"; TTerm ")"] [23] [] [] "" "")) end; rewrite T; reflexivity].
  destruct cf as [|cf]; (do 10 (destruct fuel as [|fuel]; [reflexivity|]));
  match goal with |- loop _ ?c _ = _ => change (loop fuel c (S0 [TTerm "("; TStr "B"; TTerm ")"] [36; 43; 42; 41; 40; 25; 46; 39] [] [] "A" "") = NoFuel) end;
  apply L; try reflexivity; eexists; reflexivity.
Qed.
Print Assumptions C34_no_end_refuted.
(** What follows a word that is no symbol of the grammar ("|", part of a keyword, is one) is ignored. *)
Theorem C34_rest_ignored_refuted : forall rest rounds fuel cf, 1 <= rounds -> 40 <= fuel -> 8 <= cf ->
  parse rounds fuel cf (write_stmt (Asg "A" (Var "B") false) ++ TTerm "|" :: rest) = Ret (true, text (program_stmt (Asg "A" (Var "B") false))).
Proof.
  intros rest rounds fuel cf R F C. destruct rounds as [|rounds]; [lia|]. replace fuel with (40 + (fuel - 40)) by lia. replace cf with (8 + (cf - 8)) by lia. destruct rounds; reflexivity.
Qed.
Print Assumptions C34_rest_ignored_refuted.
(** The logical operators have one precedence: a || b && c is (a || b) && c. *)
Theorem C34_logical_precedence_refuted : exists rounds fuel cf, parse rounds fuel cf [TStr "A"; TTerm "="; TStr "a"; TTerm "||"; TStr "b"; TTerm "&&"; TStr "c"; TTerm ";"] =
  Ret (true, text (program_stmt (Asg "A" (Bin And (Paren (Bin Or (Var "a") (Var "b"))) (Var "c")) false))).
Proof. exists 2, 100, 10. reflexivity. Qed.
Print Assumptions C34_logical_precedence_refuted.

(** ** Example: A = -b * (3 + sin(x, y)) > (float32) 4, B = !A || (int32) (A) - 1 - c; *)
Definition ex_stmts : list stmt :=
  [Asg "A" (Bin Gt (Bin Mul (Un Minus (Var "b")) (Paren (Bin Add (Num "3") (Call "pow" (Var "x") [Num "2"])))) (CastNum "float32" "4")) true;
   Asg "B" (Bin Or (Un Not (Var "A")) (Bin Sub (Bin Sub (Cast "int32" (Paren (Var "A"))) (Num "1")) (Var "c"))) false].
Example C34_ex : Forall well_stmt ex_stmts /\
  text (flat_map program_stmt ex_stmts) = (let n := nl in "READ b" ++ n ++ "NEG" ++ n ++ "CONST float64 3" ++ n ++ "READ x" ++ n ++ "CONST float64 2" ++ n ++ "POW" ++ n ++ "ADD" ++ n ++ "MUL" ++ n ++ "CONST float32 4" ++ n ++ "GT" ++ n ++ "WRITE A" ++ n
     ++ "READ A" ++ n ++ "NOT" ++ n ++ "READ A" ++ n ++ "CAST int32" ++ n ++ "CONST float64 1" ++ n ++ "SUB" ++ n ++ "READ c" ++ n ++ "SUB" ++ n ++ "OR" ++ n ++ "WRITE B" ++ n)%string.
Proof. split; [|reflexivity]. repeat constructor; cbn; try lia; intuition discriminate. Qed.
Example C34_ex_value : Forall (fun s => arities (fun f => if String.eqb f "NEG" || String.eqb f "NOT" then 1 else 2) (rhs s)) ex_stmts.
Proof. repeat constructor. Qed.
