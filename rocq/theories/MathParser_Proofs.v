(** C34: the parser on the written form of well-formed expressions. *)
From Coq Require Import String Ascii.
From Verif Require Import Base MathParser_Model MathParser_Spec.
Open Scope string_scope. Open Scope nat_scope. Open Scope list_scope.

Arguments token_type : simpl never.

(** ** Steps of the parser *)
Definition S0 (l : list token) (sk : list nat) (o c : list string) (a t : string) : st := mk l (token_type (hd TEof l)) sk o c a t false false.
Definition runs (s s' : st) : Prop := exists n, forall m cf, loop (n + m) (8 + cf) s = loop m (8 + cf) s'.
Lemma runs_refl s : runs s s. Proof. exists 0. reflexivity. Qed.
Lemma runs_trans a b c : runs a b -> runs b c -> runs a c.
Proof. intros [n A] [m B]. exists (n + m). intros k cf. rewrite <- Nat.add_assoc, A, B. reflexivity. Qed.

(** The body of the production chosen *)
Definition pick (cf N k : nat) (l : list token) : out (option (list nat)) :=
  bind (get Parse_row (N - (START_SYMBOL - 1))) (fun row => bind (get ParseArray (row + k)) (fun e => bind (resolve cf l e 0) (fun entry =>
  if entry =? 0 then Ret None else
  bind (get Production_row entry) (fun row => bind (get Production row) (fun len => bind (get Production (S row)) (fun head =>
  if head =? N then Ret (Some (firstn (len - 1) (skipn (S (S row)) Production))) else Ret None)))))).
Lemma push_all_app p l : List.length p + List.length l <= 511 -> push_all p l = p ++ l.
Proof.
  induction p as [|x p IH]; intro L; [reflexivity|]. cbn [push_all fold_right]. fold (push_all p l). cbn [List.length] in L. rewrite IH by lia. unfold push. change (PARSE_STACK_SIZE - 1) with 511.
  rewrite (proj2 (Nat.ltb_lt (List.length (p ++ l)) 511)) by (rewrite app_length; lia). reflexivity.
Qed.
Lemma run_nt N body l sk o c a t : 23 <= N < 45 -> (forall cf, pick (8 + cf) N (token_type (hd TEof l)) l = Ret (Some body)) -> List.length body + List.length sk <= 511 ->
  runs (S0 l (N :: sk) o c a t) (S0 l (body ++ sk) o c a t).
Proof.
  intros R P L. exists 1. intros m cf. specialize (P cf). change (1 + m) with (S m). unfold S0 at 1. cbn [loop stk err inp ty ops casts asg txt eof]. rewrite (proj2 (Nat.eqb_neq N 0)) by lia. cbn [orb].
  unfold iter. change START_ACTION with 45. change START_SYMBOL with 23. rewrite (proj2 (Nat.leb_gt 45 N)), (proj2 (Nat.leb_le 23 N)) by lia. cbn [ty inp].
  unfold pick in P. change START_SYMBOL with 23 in P. destruct (get Parse_row (N - (23 - 1))) as [row| |]; [|discriminate|discriminate]. cbn [bind] in *.
  destruct (get ParseArray (row + token_type (hd TEof l))) as [e| |]; [|discriminate|discriminate]. cbn [bind] in *. destruct (resolve (8 + cf) l e 0) as [entry| |]; [|discriminate|discriminate]. cbn [bind] in *. unfold expand.
  destruct (entry =? 0); [discriminate|]. destruct (get Production_row entry) as [r2| |]; [|discriminate|discriminate]. cbn [bind] in *. destruct (get Production r2) as [len| |]; [|discriminate|discriminate]. cbn [bind] in *. destruct (get Production (S r2)) as [h| |]; [|discriminate|discriminate]. cbn [bind] in *. destruct (h =? N); [|discriminate].
  set (bd := firstn (len - 1) (skipn (S (S r2)) Production)) in *. clearbody bd. injection P as ->. cbn [bind inp ty stk ops casts asg txt err eof]. rewrite push_all_app by exact L. reflexivity.
Qed.
Lemma run_tm N t l sk o c a x : 0 < N < 23 -> token_type t = N -> runs (S0 (t :: l) (N :: sk) o c a x) (S0 l sk o c a x).
Proof.
  intros R E. exists 1. intros m cf. change (1 + m) with (S m). unfold S0 at 1. cbn [loop stk err inp ty ops casts asg txt eof hd]. rewrite (proj2 (Nat.eqb_neq N 0)) by lia. cbn [orb].
  unfold iter. change START_ACTION with 45. change START_SYMBOL with 23. rewrite (proj2 (Nat.leb_gt 45 N)), (proj2 (Nat.leb_gt 23 N)) by lia. cbn [ty inp tl]. rewrite E, Nat.eqb_refl. reflexivity.
Qed.
Lemma run_act N l sk o c a t s' : 45 <= N -> execute (N - 44) (S0 l sk o c a t) = Ret s' -> runs (S0 l (N :: sk) o c a t) s'.
Proof.
  intros R E. exists 1. intros m cf. change (1 + m) with (S m). unfold S0 at 1. cbn [loop stk err inp ty ops casts asg txt eof hd]. rewrite (proj2 (Nat.eqb_neq N 0)) by lia. cbn [orb].
  unfold iter. change START_ACTION with 45. rewrite (proj2 (Nat.leb_le 45 N)) by lia. unfold S0 in E. change (45 - 1) with 44. rewrite E. reflexivity.
Qed.

(** ** Text *)
Lemma sapp_assoc a b c : ((a ++ b) ++ c = a ++ (b ++ c))%string. Proof. induction a as [|x a IH]; [reflexivity|]. cbn. rewrite IH. reflexivity. Qed.
Lemma sapp_nil a : (a ++ "" = a)%string. Proof. induction a as [|x a IH]; [reflexivity|]. cbn. rewrite IH. reflexivity. Qed.
Lemma text_app p q : text (p ++ q) = (text p ++ text q)%string.
Proof. induction p as [|i p IH]; [reflexivity|]. cbn [app text fold_right]. fold (text (p ++ q)). fold (text p). rewrite IH, sapp_assoc. reflexivity. Qed.
Lemma text_one i : text [i] = line i. Proof. apply sapp_nil. Qed.

Lemma line_read x : line (READ x) = ("READ " ++ x ++ nl)%string. Proof. unfold line. rewrite sapp_assoc. reflexivity. Qed.
Lemma line_const ty n : line (CONST ty n) = ("CONST " ++ ty ++ " " ++ n ++ nl)%string. Proof. unfold line. rewrite !sapp_assoc. reflexivity. Qed.
Lemma line_cast ty : line (CAST ty) = ("CAST " ++ ty ++ nl)%string. Proof. unfold line. rewrite sapp_assoc. reflexivity. Qed.
Lemma line_op f : line (OP f) = (f ++ nl)%string. Proof. reflexivity. Qed.
Lemma line_write x : line (WRITE x) = ("WRITE " ++ x ++ nl)%string. Proof. unfold line. rewrite sapp_assoc. reflexivity. Qed.

(** ** The grammar *)
Definition NT (L : nat) : nat := nth L [0; 26; 28; 30; 32; 34; 36; 37] 0.
Definition NT' (L : nat) : nat := nth L [0; 40; 41; 42; 43] 0.
Definition OPNT (L : nat) : nat := nth L [0; 27; 29; 31; 33] 0.
Definition fol (L : nat) : list nat :=
  [3; 4; 20] ++ (if 1 <? L then [5; 6; 7] else []) ++ (if 2 <? L then [8; 9; 10; 11; 12; 13] else []) ++ (if 3 <? L then [14; 15] else []) ++ (if 4 <? L then [16; 17] else []).
Definition cost (L : nat) : nat := nth L [0; 17; 15; 13; 11; 9; 8; 7] 0.
Definition btype (o : bop) : nat := match o with Or => 5 | And => 6 | Xor => 7 | Gt => 8 | Lt => 9 | Ge => 10 | Le => 11 | Eq => 12 | Ne => 13 | Add => 14 | Sub => 15 | Mul => 16 | Div => 17 end.
Lemma btype_ok o : token_type (TTerm (bsym o)) = btype o. Proof. destruct o; reflexivity. Qed.
Lemma btype_fol o : In (btype o) (fol (S (blevel o))). Proof. destruct o; cbn; tauto. Qed.
Lemma write_len e : 1 <= List.length (write e).
Proof. destruct e; cbn [write List.length]; try lia. rewrite app_length. cbn. lia. Qed.

Lemma first_type e : well e -> exists t r, write e = t :: r /\ In (token_type t) [1; 14; 15; 18; 19; 21] /\ (6 <= level e -> In (token_type t) [1; 19; 21]).
Proof.
  induction e as [x|n|ty n|ty e IH|o e IH|o a IHa b IHb|e IH|f a IHa l]; intro W; cbn [write].
  - exists (TStr x), []. cbn. intuition.
  - exists (TNum n), []. cbn. intuition.
  - eexists _, _. split; [reflexivity|]. cbn. intuition.
  - eexists _, _. split; [reflexivity|]. cbn. intuition.
  - eexists _, _. split; [reflexivity|]. split; [destruct o; cbn; tauto|]. cbn. lia.
  - destruct W as (_ & _ & Wa & _). destruct (IHa Wa) as (t & r & -> & T & _). eexists _, _. split; [reflexivity|]. split; [exact T|]. cbn [level]. destruct o; cbn; lia.
  - eexists _, _. split; [reflexivity|]. cbn. intuition.
  - eexists _, _. split; [reflexivity|]. cbn. intuition.
Qed.
Lemma second_type e : well e -> forall t r, write e = t :: r -> token_type t = 1 -> (exists x, e = Var x) \/ exists t2 r2, r = t2 :: r2 /\ (token_type t2 = 19 \/ exists o, token_type t2 = btype o).
Proof.
  induction e as [x|n|ty n|ty e IH|o e IH|o a IHa b IHb|e IH|f a IHa l]; intros W t r E T; cbn [write] in E.
  - left. exists x. reflexivity.
  - injection E as <- <-. discriminate.
  - injection E as <- <-. discriminate.
  - injection E as <- <-. discriminate.
  - injection E as <- <-. destruct o; discriminate.
  - right. destruct W as (_ & _ & Wa & _). destruct (first_type a Wa) as (t0 & r0 & E0 & _). rewrite E0 in E. cbn [app] in E. injection E as -> E.
    destruct (IHa Wa t r0 E0 T) as [[x ->]|(t2 & r2 & -> & Q)].
    + injection E0 as <- <-. cbn [app] in E. eexists _, _. split; [symmetry; exact E|]. right. exists o. apply btype_ok.
    + eexists _, _. split; [rewrite <- E; reflexivity|]. exact Q.
  - injection E as <- <-. discriminate.
  - injection E as <- <-. right. eexists _, _. split; [reflexivity|]. left. reflexivity.
Qed.

Definition A (L : nat) (e : expr) : Prop := forall k sk o c a t, In (token_type (hd TEof k)) (fol L) -> List.length sk + 13 * nest e + cost L <= 511 ->
  runs (S0 (write e ++ k) (NT L :: sk) o c a t) (S0 k sk o c a (t ++ text (program e))).
Definition B (L : nat) (e : expr) : Prop := forall k sk o c a t, In (token_type (hd TEof k)) (fol (S L)) -> List.length sk + 13 * nest e + cost L <= 511 ->
  runs (S0 (write e ++ k) (NT L :: sk) o c a t) (S0 k (NT' L :: sk) o c a (t ++ text (program e))).
Definition Inv (e : expr) : Prop := (forall L, 1 <= L <= 7 -> L <= level e -> A L e) /\ (forall L, 1 <= L <= 4 -> L <= level e -> B L e).

Ltac nt B' := eapply runs_trans; [apply (run_nt _ B'); [cbv; lia| |cbn [List.length app]; lia]|].
Ltac nt0 B' := eapply runs_trans; [apply (run_nt _ B'); [| |cbn [List.length app]; lia]|].
Ltac tm := eapply runs_trans; [apply run_tm; [cbv; lia|reflexivity]|].
Ltac act := eapply runs_trans; [eapply run_act; [cbv; lia|reflexivity]|].
Ltac inj := repeat match goal with K : _ \/ _ |- _ => destruct K as [K|K] | K : False |- _ => destruct K end.
Lemma emit_ops l sk o o' c a t x : emit (set_ops (S0 l sk o c a t) o') x = S0 l sk o' c a (t ++ x). Proof. reflexivity. Qed.
Lemma emit_casts l sk o c c' a t x : emit (set_casts (S0 l sk o c a t) c') x = S0 l sk o c' a (t ++ x). Proof. reflexivity. Qed.
Lemma S0_emit l sk o c a t x : emit (S0 l sk o c a t) x = S0 l sk o c a (t ++ x). Proof. reflexivity. Qed.

Lemma var_ok x : A 7 (Var x).
Proof.
  intros k sk o c a t F D. cbn [write app nest program] in *. rewrite text_one. change (cost 7) with 7 in D. change (NT 7) with 37. destruct k as [|u k]; [cbn in F; inj; discriminate|]. cbn [hd] in F.
  nt [38]. { intro cf. cbn [hd]. change (token_type (TStr x)) with 1. unfold pick. change (get Parse_row (37 - (START_SYMBOL - 1))) with (@Ret nat 53). cbn [bind]. change (get ParseArray (53 + 1)) with (@Ret nat 47). cbn [bind].
    cbn [resolve Nat.add]. change (47 <? START_CONFLICT) with false. cbn iota. change (get Conflict_row (47 - (START_CONFLICT - 1))) with (@Ret nat 20). cbn [bind]. unfold peek. cbn [nth]. cbn in F. inj; rewrite <- F; reflexivity. }
  nt [53; 1]. { intro cf. reflexivity. } cbn [app]. act. rewrite S0_emit. tm. apply runs_refl.
Qed.
Lemma paren_pick e k : well e -> In (token_type (hd TEof k)) (fol 7) -> forall cf, pick (8 + cf) 36 19 (TTerm "(" :: write e ++ TTerm ")" :: k) = Ret (Some [37]).
Proof.
  intros W F cf. destruct k as [|u k]; [cbn in F; inj; discriminate|]. cbn [hd] in F. destruct (first_type e W) as (t & r & E & T & _). pose proof (second_type e W t r E) as S2. rewrite E. unfold pick. change (get Parse_row (36 - (START_SYMBOL - 1))) with (@Ret nat 74). cbn [bind]. change (get ParseArray (74 + 19)) with (@Ret nat 46). cbn [bind].
  cbn [resolve Nat.add]. change (46 <? START_CONFLICT) with false. cbn iota. change (get Conflict_row (46 - (START_CONFLICT - 1))) with (@Ret nat 1). cbn [bind]. unfold peek at 1. cbn [nth app].
  cbn in T. destruct T as [T|T]; [|inj; rewrite <- T; reflexivity]. symmetry in T. specialize (S2 T). rewrite T. change (get Conflict (1 + 1)) with (@Ret nat 48). cbn [bind]. change (48 <? START_CONFLICT) with false. cbn iota. change (get Conflict_row (48 - (START_CONFLICT - 1))) with (@Ret nat 36). cbn [bind].
  destruct S2 as [[x ->]|(t2 & r2 & -> & Q)].
  - injection E as <- <-. unfold peek at 1. cbn [nth app]. change (token_type (TTerm ")")) with 20. change (get Conflict (36 + 20)) with (@Ret nat 49). cbn [bind]. change (49 <? START_CONFLICT) with false. cbn iota. change (get Conflict_row (49 - (START_CONFLICT - 1))) with (@Ret nat 56). cbn [bind]. unfold peek. cbn [nth].
    cbn in F. inj; rewrite <- F; reflexivity.
  - unfold peek at 1. cbn [nth app]. destruct Q as [-> |[o ->]]; [reflexivity|destruct o; reflexivity].
Qed.
Lemma cast_pick ty t r : token_type t = 1 \/ token_type t = 19 -> forall cf, pick (8 + cf) 36 19 (TTerm "(" :: TStr ty :: TTerm ")" :: t :: r) = Ret (Some [19; 50; 1; 20; 37; 51]).
Proof. intros T cf. cbv -[token_type]. change (token_type (TStr ty)) with 1. change (token_type (TTerm ")")) with 20. destruct T as [-> | ->]; reflexivity. Qed.
Lemma castnum_pick ty n r : forall cf, pick (8 + cf) 36 19 (TTerm "(" :: TStr ty :: TTerm ")" :: TNum n :: r) = Ret (Some [19; 50; 1; 20; 52; 21]).
Proof. intro cf. reflexivity. Qed.
Lemma not_symbol f : ~ In f symbols -> operator_formatting f = to_upper f.
Proof.
  intro N. unfold operator_formatting. repeat (match goal with |- context [String.eqb f ?s] => destruct (String.eqb_spec f s) as [-> |_]; [exfalso; apply N; cbn; tauto|] end). reflexivity.
Qed.
Lemma args_ok : forall l k sk o c a t, (forall x, In x l -> A 1 x) -> (forall x, In x l -> List.length sk + 13 * nest x + 18 <= 511) -> List.length sk + 3 <= 511 ->
  runs (S0 (flat_map (fun x => TTerm "," :: write x) l ++ TTerm ")" :: k) (44 :: sk) o c a t) (S0 (TTerm ")" :: k) sk o c a (t ++ text (flat_map program l))).
Proof.
  induction l as [|x l IH]; intros k sk o c a t Al D Lk.
  - cbn [flat_map app text fold_right]. rewrite sapp_nil. nt (@nil nat). { intro cf. reflexivity. } apply runs_refl.
  - cbn [flat_map app]. rewrite <- app_assoc. nt [4; 26; 44]. { intro cf. reflexivity. } cbn [app]. tm. eapply runs_trans.
    + apply (Al x (or_introl eq_refl)); [destruct l; cbn; tauto|]. change (cost 1) with 17. cbn [List.length]. specialize (D x (or_introl eq_refl)). lia.
    + rewrite text_app, <- sapp_assoc. apply IH; [intros y Y; apply Al; right; exact Y|intros y Y; apply D; right; exact Y|exact Lk].
Qed.
Lemma nest_args a l x : In x l -> nest x <= fold_right (fun x m => Nat.max (nest x) m) (nest a) l.
Proof. induction l as [|y l IH]; intros []; cbn [fold_right]; [subst; lia|specialize (IH H); lia]. Qed.
Lemma nest_first a l : nest a <= fold_right (fun x m => Nat.max (nest x) m) (nest a) l.
Proof. induction l as [|y l IH]; cbn [fold_right]; lia. Qed.
Lemma write_arg l x : In x l -> List.length (write x) < List.length (flat_map (fun x => TTerm "," :: write x) l).
Proof. induction l as [|y l IH]; intros []; cbn [flat_map]; rewrite app_length; cbn [List.length]; [subst; lia|specialize (IH H); lia]. Qed.
Lemma well_arg l x : (fix all l := match l with [] => True | x :: r => well x /\ all r end) l -> In x l -> well x.
Proof. induction l as [|y l IH]; intros W []; destruct W as [W1 W2]; [subst; exact W1|apply IH; assumption]. Qed.
Lemma fol_1 L k : In k [3; 4; 20] -> In k (fol L). Proof. intro I. unfold fol. apply in_or_app. left. exact I. Qed.

Lemma inv : forall n e, List.length (write e) <= n -> well e -> Inv e.
Proof.
  induction n as [|n IH]; intros e Len W; [pose proof (write_len e); lia|].
  assert (A7 : 7 <= level e -> A 7 e).
  { destruct e as [x|m|tn m|tn e|o e|o a b|e|f a l]; cbn [level]; intro L7; try lia; [apply var_ok|destruct o; cbn in L7; lia| |].
    - intros k sk o c a t F D. cbn [write app nest program well List.length] in *. change (cost 7) with 7 in D. change (NT 7) with 37. rewrite <- app_assoc. cbn [app]. rewrite app_length in Len. cbn [List.length] in Len.
      nt [38]. { intro cf. reflexivity. } nt [19; 26; 20]. { intro cf. reflexivity. } cbn [app]. tm. eapply runs_trans; [apply (proj1 (IH e ltac:(lia) W) 1 ltac:(lia)); [destruct e; cbn; try lia; destruct o0; cbn; lia|cbn; tauto|change (cost 1) with 17; cbn [List.length]; lia]|]. tm. apply runs_refl.
    - intros k sk o c a' t F D. cbn [write app nest program well List.length] in *. destruct W as (Nf & Wa & Wl). change (cost 7) with 7 in D. change (NT 7) with 37. rewrite <- !app_assoc. cbn [app]. rewrite !app_length in Len. cbn [List.length] in Len. pose proof (nest_first a l) as N1. pose proof (nest_args a l) as N2.
      nt [47; 1; 19; 26; 44; 20; 48]. { intro cf. reflexivity. } cbn [app]. act. cbn [set_ops S0 inp ty stk ops casts asg txt err eof current hd tdata]. fold (S0 (TStr f :: TTerm "(" :: write a ++ flat_map (fun x => TTerm "," :: write x) l ++ TTerm ")" :: k) (1 :: 19 :: 26 :: 44 :: 20 :: 48 :: sk) (f :: o) c a' t).
      tm. tm. eapply runs_trans; [apply (proj1 (IH a ltac:(lia) Wa) 1 ltac:(lia)); [destruct a; cbn; try lia; destruct o0; cbn; lia|destruct l; cbn; tauto|change (cost 1) with 17; cbn [List.length]; lia]|].
      eapply runs_trans; [apply args_ok; [intros x X; apply (proj1 (IH x ltac:(pose proof (write_arg l x X); lia) (well_arg l x Wl X)) 1 ltac:(lia)); destruct x; cbn; try lia; destruct o0; cbn; lia|intros x X; specialize (N2 x X); cbn [List.length]; lia|cbn [List.length]; lia]|].
      tm. act. cbn [S0 ops]. rewrite emit_ops, not_symbol by exact Nf. rewrite !text_app, text_one, line_op, !sapp_assoc. apply runs_refl. }
  assert (A6 : 6 <= level e -> A 6 e).
  { intros L6 k sk o c a t F D. change (cost 6) with 8 in D. change (NT 6) with 36. change (fol 6) with (fol 7) in F. assert (Go : 7 <= level e -> (forall cf, pick (8 + cf) 36 (token_type (hd TEof (write e ++ k))) (write e ++ k) = Ret (Some [37])) -> runs (S0 (write e ++ k) (36 :: sk) o c a t) (S0 k sk o c a (t ++ text (program e)))).
    { intros L7 P. nt [37]. { exact P. } cbn [app]. apply (A7 L7); [exact F|change (cost 7) with 7; lia]. }
    destruct e as [x|m|tn m|tn e|u e|u e1 e2|e|f e1 l]; cbn [level] in L6; try lia.
    - apply Go; [cbn; lia|]. intro cf. reflexivity.
    - cbn [write app program]. rewrite text_one. nt [53; 21]. { intro cf. reflexivity. } cbn [app]. act. rewrite S0_emit. tm. apply runs_refl.
    - cbn [write app program]. rewrite text_one. nt [19; 50; 1; 20; 52; 21]. { intro cf. apply castnum_pick. } cbn [app]. tm. act. cbn [set_casts S0 inp ty stk ops casts asg txt err eof current hd tdata]. fold (S0 (TStr tn :: TTerm ")" :: TNum m :: k) (1 :: 20 :: 52 :: 21 :: sk) o (tn :: c) a t). tm. tm. act.
      cbn [set_casts S0 inp ty stk ops casts asg txt err eof current hd tdata emit]. fold (S0 (TNum m :: k) (21 :: sk) o c a (t ++ ("CONST " ++ tn ++ " " ++ m ++ nl))%string). tm. rewrite line_const. apply runs_refl.
    - cbn [write app program nest well List.length] in *. destruct W as [W7 We]. rewrite text_app, text_one. destruct (first_type e We) as (u & r & E & _ & T). specialize (T ltac:(lia)). assert (T' : token_type u = 1 \/ token_type u = 19).
      { destruct e as [x|m|ty' m|ty' e|u' e|u' e1 e2|e|f e1 l]; cbn [level] in W7; try discriminate; cbn [write] in E; try (injection E as <- <-; auto). destruct u'; discriminate. }
      nt [19; 50; 1; 20; 37; 51]. { intro cf. rewrite E. cbn [app hd]. apply cast_pick. exact T'. } cbn [app]. tm. act. cbn [set_casts S0 inp ty stk ops casts asg txt err eof current hd tdata]. fold (S0 (TStr tn :: TTerm ")" :: write e ++ k) (1 :: 20 :: 37 :: 51 :: sk) o (tn :: c) a t). tm. tm.
      eapply runs_trans; [apply (proj1 (IH e ltac:(lia) We) 7 ltac:(lia)); [lia|exact F|change (cost 7) with 7; cbn [List.length]; lia]|]. act. cbn [S0 casts]. rewrite emit_casts, line_cast, !sapp_assoc. apply runs_refl.
    - destruct u; cbn in L6; lia.
    - apply Go; [cbn; lia|]. intro cf. cbn [write app hd]. rewrite <- app_assoc. cbn [app]. change (token_type (TTerm "(")) with 19. apply paren_pick; [exact W|exact F].
    - apply Go; [cbn; lia|]. intro cf. reflexivity. }
  assert (A5 : 5 <= level e -> A 5 e).
  { intros L5 k sk o c a t F D. change (cost 5) with 9 in D. change (NT 5) with 34. change (fol 5) with (fol 6) in F. destruct (le_lt_dec 6 (level e)) as [L6|L6].
    - nt [36]. { intro cf. destruct (first_type e W) as (u & r & E & _ & T). specialize (T L6). rewrite E. cbn [app hd]. cbn in T. inj; rewrite <- T; reflexivity. } cbn [app]. apply (A6 L6); [exact F|change (cost 6) with 8; lia].
    - destruct e as [x|m|tn m|tn e|u e|u e1 e2|e|f e1 l]; cbn [level] in L5, L6; try lia; [|destruct u; cbn in L5; lia]. cbn [write app program nest well List.length] in *. destruct W as [W6 We].
      pose proof (fun sk' t' D' => proj1 (IH e ltac:(lia) We) 6 ltac:(lia) W6 k sk' (usym u :: o) c a t' F D') as Ae. change (cost 6) with 8 in Ae. change (NT 6) with 36 in Ae. destruct u.
      + nt [47; 31; 36; 49]. { intro cf. reflexivity. } cbn [app]. act. cbn [set_ops S0 inp ty stk ops casts asg txt err eof current hd tdata usym]. fold (S0 (TTerm "+" :: write e ++ k) (31 :: 36 :: 49 :: sk) ("+" :: o) c a t). nt [14]. { intro cf. reflexivity. } cbn [app]. tm. eapply runs_trans; [apply Ae; cbn [List.length]; lia|]. act. cbn. apply runs_refl.
      + nt [47; 31; 36; 49]. { intro cf. reflexivity. } cbn [app]. act. cbn [set_ops S0 inp ty stk ops casts asg txt err eof current hd tdata usym]. fold (S0 (TTerm "-" :: write e ++ k) (31 :: 36 :: 49 :: sk) ("-" :: o) c a t). nt [15]. { intro cf. reflexivity. } cbn [app]. tm. eapply runs_trans; [apply Ae; cbn [List.length]; lia|]. act.
        cbn [S0 ops usym]. rewrite emit_ops, text_app, text_one, !sapp_assoc. apply runs_refl.
      + nt [47; 35; 36; 48]. { intro cf. reflexivity. } cbn [app]. act. cbn [set_ops S0 inp ty stk ops casts asg txt err eof current hd tdata usym]. fold (S0 (TTerm "!" :: write e ++ k) (35 :: 36 :: 48 :: sk) ("!" :: o) c a t). nt [18]. { intro cf. reflexivity. } cbn [app]. tm. eapply runs_trans; [apply Ae; cbn [List.length]; lia|]. act.
        cbn [S0 ops usym]. rewrite emit_ops, text_app, text_one, !sapp_assoc. apply runs_refl. }
  assert (Down : forall L, 1 <= L <= 4 -> (S L <= level e -> A (S L) e) -> L <= level e -> B L e /\ A L e).
  { intros L HL Up Le. assert (BL : B L e).
    { intros k sk o c a t F D. assert (C1 : cost (S L) + 2 <= cost L) by (destruct L as [|[|[|[|[|L]]]]]; cbn; lia). assert (C2 : 5 <= cost L) by (destruct L as [|[|[|[|[|L]]]]]; cbn; lia).
      destruct (le_lt_dec (S L) (level e)) as [Lt|Ge].
      - nt0 [NT (S L); NT' L]. { destruct L as [|[|[|[|[|L]]]]]; cbv; lia. } { intro cf. destruct (first_type e W) as (u & r & E & T & _). rewrite E. cbn [app hd]. cbn in T. destruct L as [|[|[|[|[|L]]]]]; try lia; inj; rewrite <- T; reflexivity. }
        cbn [app]. apply (Up Lt); [exact F|cbn [List.length]; lia].
      - destruct e as [x|m|tn m|tn e|u e|u e1 e2|e|f e1 l]; cbn [level] in Le, Ge; try lia. assert (L = blevel u) by lia. subst L. cbn [write program nest well] in *. destruct W as (W1 & W2 & Wa & Wb). rewrite app_length in Len. cbn [List.length] in Len. rewrite <- app_assoc. cbn [app].
        eapply runs_trans; [apply (proj2 (IH e1 ltac:(lia) Wa) (blevel u) HL W1); [cbn [hd]; rewrite btype_ok; apply btype_fol|lia]|].
        nt0 [47; OPNT (blevel u); NT (S (blevel u)); 48; NT' (blevel u)]. { destruct u; cbv; lia. } { intro cf. cbn [hd]. rewrite btype_ok. destruct u; reflexivity. } cbn [app]. act.
        match goal with |- runs _ ?g => change (runs (S0 (TTerm (bsym u) :: write e2 ++ k) (OPNT (blevel u) :: NT (S (blevel u)) :: 48 :: NT' (blevel u) :: sk) (bsym u :: o) c a (t ++ text (program e1))) g) end.
        nt0 [btype u]. { destruct u; cbv; lia. } { intro cf. cbn [hd]. rewrite btype_ok. destruct u; reflexivity. } cbn [app]. eapply runs_trans; [apply run_tm; [destruct u; cbv; lia|apply btype_ok]|].
        eapply runs_trans; [apply (proj1 (IH e2 ltac:(lia) Wb) (S (blevel u)) ltac:(lia) W2); [exact F|cbn [List.length]; lia]|]. act. cbn [S0 ops]. rewrite emit_ops, !text_app, text_one.
        replace (operator_formatting (bsym u)) with (bname u) by (destruct u; reflexivity). rewrite line_op, !sapp_assoc. apply runs_refl. }
    split; [exact BL|]. intros k sk o c a t F D. eapply runs_trans; [apply BL; [|exact D]|].
    - destruct L as [|[|[|[|[|L]]]]]; try lia; cbn in *; tauto.
    - nt0 (@nil nat). { destruct L as [|[|[|[|[|L]]]]]; cbv; lia. } { intro cf. destruct k as [|u k]; [destruct L as [|[|[|[|[|L]]]]]; try lia; cbn in F; inj; discriminate|]. cbn [hd] in *. destruct L as [|[|[|[|[|L]]]]]; try lia; cbn in F; inj; rewrite <- F; reflexivity. } apply runs_refl. }
  assert (D4 := Down 4 ltac:(lia) A5). assert (D3 := Down 3 ltac:(lia) (fun L => proj2 (D4 L))). assert (D2 := Down 2 ltac:(lia) (fun L => proj2 (D3 L))). assert (D1 := Down 1 ltac:(lia) (fun L => proj2 (D2 L))).
  split; intros L HL Le; destruct L as [|[|[|[|[|[|[|[|L]]]]]]]]; try lia; auto; try (apply D1; lia); try (apply D2; lia); try (apply D3; lia); apply D4; lia.
Qed.
