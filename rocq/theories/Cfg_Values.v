(** C44: how the parsers read a value; common to the three grammars. *)
From Coq Require Import String Ascii.
From Verif Require Import Base Paths ConfigDB_Model ConfigDB_Spec Slk_Model Slk_Proofs Cfg_Model Cfg_Spec.
Open Scope string_scope. Open Scope nat_scope. Open Scope list_scope.

Section Values.
Context {E : Type} (conv : string -> string -> option E).
Context (T : tables) (execute : nat -> token -> cst E -> out (cst E * bool)) (C : nat).
Context (nVal nScal nVec nMat nPrim nVecR nMatR tStr tNum tOpen tClose aAdd aEndV aEndM : nat) (o c : string).
Notation token_type := (token_type T). Notation pick := (pick T). Notation runs := (runs T execute C). Notation fails := (fails T execute C). Notation S0 := (S0 T).
Hypothesis S1 : 1 <= START_SYMBOL T <= START_ACTION T.
Hypothesis RN : forall N, In N [nVal; nScal; nVec; nMat; nPrim; nVecR; nMatR] -> START_SYMBOL T <= N < START_ACTION T.
Hypothesis RT : forall N, In N [tStr; tNum; tOpen; tClose] -> 0 < N < START_SYMBOL T.
Hypothesis RA : forall N, In N [aAdd; aEndV; aEndM] -> START_ACTION T <= N.
Hypothesis tyS : forall d, token_type (TStr d) = tStr.
Hypothesis tyN : forall d, token_type (TNum d) = tNum.
Hypothesis tyO : token_type (TTerm o) = tOpen.
Hypothesis tyC : token_type (TTerm c) = tClose.
Definition prim (k : nat) : Prop := k = tStr \/ k = tNum.
Hypothesis pS : forall cf l, C <= cf -> prim (token_type (hd TEof l)) -> pick cf nVal (token_type (hd TEof l)) l = Ret (Some [nScal]).
Hypothesis pV : forall cf l, C <= cf -> token_type (hd TEof l) = tOpen -> prim (token_type (nth 1 l TEof)) -> pick cf nVal (token_type (hd TEof l)) l = Ret (Some [nVec]).
Hypothesis pM : forall cf l, C <= cf -> token_type (hd TEof l) = tOpen -> token_type (nth 1 l TEof) = tOpen -> pick cf nVal (token_type (hd TEof l)) l = Ret (Some [nMat]).
Hypothesis pScal : forall cf l, C <= cf -> prim (token_type (hd TEof l)) -> pick cf nScal (token_type (hd TEof l)) l = Ret (Some [aAdd; nPrim]).
Hypothesis pPrimS : forall cf l, C <= cf -> token_type (hd TEof l) = tStr -> pick cf nPrim (token_type (hd TEof l)) l = Ret (Some [tStr]).
Hypothesis pPrimN : forall cf l, C <= cf -> token_type (hd TEof l) = tNum -> pick cf nPrim (token_type (hd TEof l)) l = Ret (Some [tNum]).
Hypothesis pVec : forall cf l, C <= cf -> token_type (hd TEof l) = tOpen -> pick cf nVec (token_type (hd TEof l)) l = Ret (Some [tOpen; nScal; nVecR; tClose]).
Hypothesis pMat : forall cf l, C <= cf -> token_type (hd TEof l) = tOpen -> pick cf nMat (token_type (hd TEof l)) l = Ret (Some [tOpen; nVec; nMatR; tClose]).
Hypothesis pVR1 : forall cf l, C <= cf -> prim (token_type (hd TEof l)) -> pick cf nVecR (token_type (hd TEof l)) l = Ret (Some [nScal; nVecR]).
Hypothesis pVR2 : forall cf l, C <= cf -> token_type (hd TEof l) = tClose -> pick cf nVecR (token_type (hd TEof l)) l = Ret (Some [aEndV]).
Hypothesis pMR1 : forall cf l, C <= cf -> token_type (hd TEof l) = tOpen -> pick cf nMatR (token_type (hd TEof l)) l = Ret (Some [nVec; nMatR]).
Hypothesis pMR2 : forall cf l, C <= cf -> token_type (hd TEof l) = tClose -> pick cf nMatR (token_type (hd TEof l)) l = Ret (Some [aEndM]).
Hypothesis exAdd : forall t u, execute (aAdd - (START_ACTION T - 1)) t u = add_scalar conv t u.
Hypothesis exEndV : forall t u, execute (aEndV - (START_ACTION T - 1)) t u = end_vector t u.
Hypothesis exEndM : forall t u, execute (aEndM - (START_ACTION T - 1)) t u = end_matrix t u.

Ltac inl := cbn [In]; tauto.
Ltac nt body := eapply runs_trans; [apply (run_nt T execute C S1 _ body); [apply RN; inl|intros cf Hcf|cbn [List.length] in *; lia]|]; cbn [app].
Ltac tm := eapply runs_trans; [apply (run_tm T execute C S1); [apply RT; inl|first [apply tyN|apply tyS|exact tyO|exact tyC]]|].
Ltac actE := eapply runs_trans; [apply (run_act T execute C S1); [apply RA; inl|]|].

Lemma type_tok e : prim (token_type (tok e)). Proof. destruct e; [right; apply tyN|left; apply tyS]. Qed.
Lemma scalar_tokens e l sk u u' : List.length sk <= 509 -> add_scalar conv (tok e) u = Ret (u', false) -> runs (S0 (tok e :: l) (nScal :: sk) u) (S0 l sk u').
Proof.
  intros L X. nt [aAdd; nPrim]. { apply pScal; [exact Hcf|apply type_tok]. } actE; [rewrite exAdd; exact X|]. destruct e as [d|d].
  - nt [tNum]. { apply pPrimN; [exact Hcf|apply tyN]. } tm. apply runs_refl.
  - nt [tStr]. { apply pPrimS; [exact Hcf|apply tyS]. } tm. apply runs_refl.
Qed.
Lemma scalar_fails e l sk u u' : List.length sk <= 509 -> add_scalar conv (tok e) u = Ret (u', true) -> fails false (S0 (tok e :: l) (nScal :: sk) u).
Proof.
  intros L X. eapply runs_fails; [apply (run_nt T execute C S1 _ [aAdd; nPrim]); [apply RN; inl| |cbn [List.length]; lia]|].
  - intros cf Hcf. apply pScal; [exact Hcf|apply type_tok].
  - apply fail_act; [exact S1|apply RA; inl|]. cbn [hd]. rewrite exAdd, X. reflexivity.
Qed.
(** Elements of kind [k] *)
Definition kind (e : elem) : nat := tid (tok e).
Lemma kind_pos e : kind e <> 0. Proof. destruct e; discriminate. Qed.
Definition convert (ty : string) (k : nat) (es : list elem) : option (list E) :=
  if forallb (fun e => kind e =? k) es then all_some (map (fun e => conv ty (data e)) es) else None.
Lemma data_tok e : tdata (tok e) = data e. Proof. destruct e; reflexivity. Qed.
Lemma add_ok ty nn nc f r m tt dm he ex d v e x : tt = 0 \/ tt = kind e -> conv ty (data e) = Some x ->
  add_scalar conv (tok e) (Cs ty nn nc f r m tt dm he ex d v) = Ret (Cs ty nn nc (S f) r (Some (match m with Some l => l | None => [] end ++ [x])) (kind e) dm he ex d v, false).
Proof.
  intros K X. unfold add_scalar. cbn [tokenType memory firstNumberOfColumns typeName nodeName numberOfColumns numberOfRows numberOfDimensions handleMathExpr exprs database vectorStructureIdx].
  assert (Q : (if tt =? 0 then tid (tok e) else tt) = kind e). { destruct K as [-> | ->]; [reflexivity|]. rewrite (proj2 (Nat.eqb_neq _ _) (kind_pos e)). reflexivity. }
  rewrite Q. unfold kind at 1. rewrite Nat.eqb_refl, data_tok, X. reflexivity.
Qed.
Lemma add_bad ty nn nc f r m tt dm he ex d v e : (tt <> 0 /\ tt <> kind e) \/ conv ty (data e) = None ->
  exists u', add_scalar conv (tok e) (Cs ty nn nc f r m tt dm he ex d v) = Ret (u', true).
Proof.
  intros K. unfold add_scalar. cbn [tokenType memory firstNumberOfColumns typeName nodeName numberOfColumns numberOfRows numberOfDimensions handleMathExpr exprs database vectorStructureIdx].
  destruct (tt =? 0) eqn:Z.
  - rewrite Nat.eqb_refl, data_tok. apply Nat.eqb_eq in Z. destruct K as [[K _] | ->]; [congruence|eexists; reflexivity].
  - destruct (tt =? tid (tok e)) eqn:Q; [|eexists; reflexivity]. apply Nat.eqb_eq in Q. destruct K as [[_ K] | K]; [unfold kind in K; congruence|]. rewrite data_tok, K. eexists; reflexivity.
Qed.
Lemma more_elems : forall es ty nn nc f r l tt dm he ex d v rest sk, tt <> 0 -> token_type (hd TEof rest) = tClose -> List.length sk <= 508 ->
  match convert ty tt es with
  | Some l' => runs (S0 (map tok es ++ rest) (nVecR :: sk) (Cs ty nn nc f r (Some l) tt dm he ex d v)) (S0 rest (aEndV :: sk) (Cs ty nn nc (f + List.length es) r (Some (l ++ l')) tt dm he ex d v))
  | None => fails false (S0 (map tok es ++ rest) (nVecR :: sk) (Cs ty nn nc f r (Some l) tt dm he ex d v))
  end.
Proof.
  induction es as [|e es IH]; intros ty nn nc f r l tt dm he ex d v rest sk K R L.
  - change (convert ty tt []) with (Some (@nil E)). cbn [map app List.length]. rewrite app_nil_r, Nat.add_0_r. nt [aEndV]. { apply pVR2; assumption. } apply runs_refl.
  - assert (N : forall u, runs (S0 (map tok (e :: es) ++ rest) (nVecR :: sk) u) (S0 (tok e :: map tok es ++ rest) (nScal :: nVecR :: sk) u)).
    { intro u. cbn [map app]. nt [nScal; nVecR]. { apply pVR1; [exact Hcf|apply type_tok]. } apply runs_refl. }
    unfold convert. cbn [forallb map all_some]. destruct (kind e =? tt) eqn:Q; cbn [andb].
    + apply Nat.eqb_eq in Q. destruct (conv ty (data e)) as [x|] eqn:X.
      * pose proof (IH ty nn nc (S f) r (l ++ [x]) tt dm he ex d v rest sk K R L) as I. unfold convert in I.
        assert (N2 : runs (S0 (map tok (e :: es) ++ rest) (nVecR :: sk) (Cs ty nn nc f r (Some l) tt dm he ex d v)) (S0 (map tok es ++ rest) (nVecR :: sk) (Cs ty nn nc (S f) r (Some (l ++ [x])) tt dm he ex d v))).
        { eapply runs_trans; [apply N|]. eapply scalar_tokens; [cbn [List.length]; lia|]. rewrite (add_ok ty nn nc f r (Some l) tt dm he ex d v e x) by auto. rewrite Q. reflexivity. }
        destruct (forallb (fun e => kind e =? tt) es); [|eapply runs_fails; [exact N2|exact I]]. destruct (all_some (map (fun e => conv ty (data e)) es)) as [l'|]; [|eapply runs_fails; [exact N2|exact I]].
        eapply runs_trans; [exact N2|]. replace (f + List.length (e :: es)) with (S f + List.length es) by (cbn [List.length]; lia). replace (l ++ x :: l') with ((l ++ [x]) ++ l') by (rewrite <- app_assoc; reflexivity). exact I.
      * destruct (add_bad ty nn nc f r (Some l) tt dm he ex d v e (or_intror X)) as (u' & U). assert (F : fails false (S0 (map tok (e :: es) ++ rest) (nVecR :: sk) (Cs ty nn nc f r (Some l) tt dm he ex d v))).
        { eapply runs_fails; [apply N|]. eapply scalar_fails; [cbn [List.length]; lia|exact U]. }
        destruct (forallb (fun e => kind e =? tt) es); exact F.
    + apply Nat.eqb_neq in Q. destruct (add_bad ty nn nc f r (Some l) tt dm he ex d v e) as (u' & U); [left; split; congruence|]. eapply runs_fails; [apply N|]. eapply scalar_fails; [cbn [List.length]; lia|exact U].
Qed.
(** A row, the first one ([l] = [], [nc] = 0) or another *)
Lemma row_tokens : forall r ty nn nc rr m tt dm he ex d v rest sk, (nc = 0 \/ tt <> 0) -> List.length sk <= 505 ->
  let tt' := if tt =? 0 then kind (fst r) else tt in let es := row_elems r in
  match (if (nc =? 0) || (nc =? List.length es) then convert ty tt' es else None) with
  | Some l' => runs (S0 (write_row o c r ++ rest) (nVec :: sk) (Cs ty nn nc 0 rr m tt dm he ex d v))
                    (S0 rest sk (Cs ty nn (List.length es) 0 (S rr) (Some (match m with Some l => l | None => [] end ++ l')) tt' (if dm =? 0 then 1 else dm) he ex d v))
  | None => fails false (S0 (write_row o c r ++ rest) (nVec :: sk) (Cs ty nn nc 0 rr m tt dm he ex d v))
  end.
Proof.
  intros [e es] ty nn nc rr m tt dm he ex d v rest sk K L tt' es'. unfold es'. clear es'. cbn [fst] in tt'. unfold write_row, braces, row_elems. cbn [fst snd map app].
  assert (N : forall u, runs (S0 (TTerm o :: tok e :: (map tok es ++ [TTerm c]) ++ rest) (nVec :: sk) u) (S0 (tok e :: map tok es ++ TTerm c :: rest) (nScal :: nVecR :: tClose :: sk) u)).
  { intro u. rewrite <- app_assoc. cbn [app]. nt [tOpen; nScal; nVecR; tClose]. { apply pVec; [exact Hcf|exact tyO]. } tm. apply runs_refl. }
  unfold convert. cbn [forallb map all_some]. destruct (kind e =? tt') eqn:Q; cbn [andb].
  2:{ assert (F : fails false (S0 (TTerm o :: tok e :: (map tok es ++ [TTerm c]) ++ rest) (nVec :: sk) (Cs ty nn nc 0 rr m tt dm he ex d v))).
      { assert (Z : tt <> 0 /\ tt <> kind e). { unfold tt' in Q. destruct (tt =? 0) eqn:Z; [rewrite Nat.eqb_refl in Q; discriminate|]. apply Nat.eqb_neq in Q, Z. split; congruence. }
        destruct (add_bad ty nn nc 0 rr m tt dm he ex d v e (or_introl Z)) as (u' & U). eapply runs_fails; [apply N|]. eapply scalar_fails; [cbn [List.length]; lia|exact U]. }
      destruct ((nc =? 0) || (nc =? List.length (e :: es))); exact F. }
  apply Nat.eqb_eq in Q. assert (K0 : tt = 0 \/ tt = kind e). { unfold tt' in Q. destruct (tt =? 0) eqn:Z; [left; apply Nat.eqb_eq; exact Z|right; congruence]. }
  destruct (conv ty (data e)) as [x|] eqn:X.
  2:{ destruct (add_bad ty nn nc 0 rr m tt dm he ex d v e (or_intror X)) as (u' & U).
      assert (F : fails false (S0 (TTerm o :: tok e :: (map tok es ++ [TTerm c]) ++ rest) (nVec :: sk) (Cs ty nn nc 0 rr m tt dm he ex d v))).
      { eapply runs_fails; [apply N|]. eapply scalar_fails; [cbn [List.length]; lia|exact U]. }
      destruct ((nc =? 0) || (nc =? List.length (e :: es))); [destruct (forallb (fun e => kind e =? tt') es)|]; exact F. }
  set (l := match m with Some l => l | None => [] end).
  assert (N2 : runs (S0 (TTerm o :: tok e :: (map tok es ++ [TTerm c]) ++ rest) (nVec :: sk) (Cs ty nn nc 0 rr m tt dm he ex d v)) (S0 (map tok es ++ TTerm c :: rest) (nVecR :: tClose :: sk) (Cs ty nn nc 1 rr (Some (l ++ [x])) tt' dm he ex d v))).
  { eapply runs_trans; [apply N|]. eapply scalar_tokens; [cbn [List.length]; lia|]. rewrite (add_ok ty nn nc 0 rr m tt dm he ex d v e x K0 X), Q. reflexivity. }
  pose proof (more_elems es ty nn nc 1 rr (l ++ [x]) tt' dm he ex d v (TTerm c :: rest) (tClose :: sk) ltac:(rewrite <- Q; apply kind_pos) tyC ltac:(cbn [List.length]; lia)) as I. unfold convert in I.
  assert (Fn : forall P : Prop, P -> (if (nc =? 0) || (nc =? List.length (e :: es)) then P else P)) by (intros P p; destruct ((nc =? 0) || (nc =? List.length (e :: es))); exact p).
  destruct (forallb (fun e => kind e =? tt') es); [destruct (all_some (map (fun e => conv ty (data e)) es)) as [l'|]|].
  - assert (EV : forall b u', end_vector TEof (Cs ty nn nc (1 + List.length es) rr (Some ((l ++ [x]) ++ l')) tt' dm he ex d v) = Ret (u', b) -> execute (aEndV - (START_ACTION T - 1)) (TTerm c) (Cs ty nn nc (1 + List.length es) rr (Some ((l ++ [x]) ++ l')) tt' dm he ex d v) = Ret (u', b)). { intros b u' X'. rewrite exEndV. exact X'. }
    unfold end_vector in EV. cbn [numberOfColumns firstNumberOfColumns typeName nodeName numberOfRows memory tokenType numberOfDimensions handleMathExpr exprs database vectorStructureIdx] in EV. specialize (EV _ _ eq_refl).
    replace (List.length (e :: es)) with (1 + List.length es) by reflexivity. destruct (nc =? 0) eqn:Z; cbn [orb].
    + eapply runs_trans; [exact N2|]. eapply runs_trans; [exact I|]. rewrite Nat.eqb_refl in EV. actE; [exact EV|]. tm. replace (l ++ x :: l') with ((l ++ [x]) ++ l') by (rewrite <- app_assoc; reflexivity). apply runs_refl.
    + destruct (nc =? 1 + List.length es) eqn:Z2; cbn [negb] in EV.
      * apply Nat.eqb_eq in Z2. eapply runs_trans; [exact N2|]. eapply runs_trans; [exact I|]. actE; [exact EV|]. tm. replace (l ++ x :: l') with ((l ++ [x]) ++ l') by (rewrite <- app_assoc; reflexivity). rewrite Z2. apply runs_refl.
      * eapply runs_fails; [exact N2|]. eapply runs_fails; [exact I|]. apply fail_act; [exact S1|apply RA; inl|]. cbn [hd]. rewrite EV. reflexivity.
  - destruct ((nc =? 0) || (nc =? List.length (e :: es))); (eapply runs_fails; [exact N2|exact I]).
  - destruct ((nc =? 0) || (nc =? List.length (e :: es))); (eapply runs_fails; [exact N2|exact I]).
Qed.
Fixpoint convert_rows (ty : string) (k n : nat) (rs : list row) : option (list E) :=
  match rs with
  | [] => Some []
  | r :: rs => match (if (n =? List.length (row_elems r)) then convert ty k (row_elems r) else None) with None => None | Some l => match convert_rows ty k n rs with None => None | Some l' => Some (l ++ l') end end
  end.
Lemma more_rows : forall rs ty nn nc rr l tt dm he ex d v rest sk, nc <> 0 -> tt <> 0 -> dm <> 0 -> token_type (hd TEof rest) = tClose -> List.length sk <= 504 ->
  match convert_rows ty tt nc rs with
  | Some l' => runs (S0 (flat_map (write_row o c) rs ++ rest) (nMatR :: sk) (Cs ty nn nc 0 rr (Some l) tt dm he ex d v)) (S0 rest (aEndM :: sk) (Cs ty nn nc 0 (rr + List.length rs) (Some (l ++ l')) tt dm he ex d v))
  | None => fails false (S0 (flat_map (write_row o c) rs ++ rest) (nMatR :: sk) (Cs ty nn nc 0 rr (Some l) tt dm he ex d v))
  end.
Proof.
  induction rs as [|r rs IH]; intros ty nn nc rr l tt dm he ex d v rest sk Kc Kt Kd R L.
  - cbn [convert_rows flat_map app List.length]. rewrite app_nil_r, Nat.add_0_r. nt [aEndM]. { apply pMR2; assumption. } apply runs_refl.
  - cbn [flat_map convert_rows]. rewrite <- app_assoc.
    assert (N : forall u, runs (S0 (write_row o c r ++ flat_map (write_row o c) rs ++ rest) (nMatR :: sk) u) (S0 (write_row o c r ++ flat_map (write_row o c) rs ++ rest) (nVec :: nMatR :: sk) u)).
    { intro u. nt [nVec; nMatR]. { apply pMR1; [exact Hcf|exact tyO]. } apply runs_refl. }
    pose proof (row_tokens r ty nn nc rr (Some l) tt dm he ex d v (flat_map (write_row o c) rs ++ rest) (nMatR :: sk) (or_intror Kt) ltac:(cbn [List.length]; lia)) as W. cbn zeta in W.
    rewrite (proj2 (Nat.eqb_neq nc 0) Kc), (proj2 (Nat.eqb_neq tt 0) Kt), (proj2 (Nat.eqb_neq dm 0) Kd) in W. cbn [orb] in W.
    destruct (nc =? List.length (row_elems r)) eqn:Q; [|eapply runs_fails; [apply N|exact W]]. apply Nat.eqb_eq in Q. destruct (convert ty tt (row_elems r)) as [l1|]; [|eapply runs_fails; [apply N|exact W]].
    rewrite <- Q in W. pose proof (IH ty nn nc (S rr) (l ++ l1) tt dm he ex d v rest sk Kc Kt Kd R L) as I. destruct (convert_rows ty tt nc rs) as [l2|].
    + eapply runs_trans; [apply N|]. eapply runs_trans; [exact W|]. replace (rr + List.length (r :: rs)) with (S rr + List.length rs) by (cbn [List.length]; lia). rewrite app_assoc. exact I.
    + eapply runs_fails; [apply N|]. eapply runs_fails; [exact W|exact I].
Qed.

(** ** The specification's value *)
Lemma all_some_app {X} (a b : list (option X)) : all_some (a ++ b) = match all_some a with Some x => match all_some b with Some y => Some (x ++ y) | None => None end | None => None end.
Proof. induction a as [|[x|] a IH]; [cbn; destruct (all_some b); reflexivity| |reflexivity]. cbn [app all_some]. rewrite IH. destruct (all_some a); [|reflexivity]. destruct (all_some b); reflexivity. Qed.
Lemma same_kind e l : (forallb quoted (e :: l) || forallb (fun x => negb (quoted x)) (e :: l)) = forallb (fun x => kind x =? kind e) (e :: l).
Proof.
  assert (A : forall b, forallb (fun x => Bool.eqb (quoted x) b) l = if b then forallb quoted l else forallb (fun x => negb (quoted x)) l).
  { intro b. induction l as [|x l IH]; [destruct b; reflexivity|]. cbn [forallb]. rewrite IH. destruct b, (quoted x); reflexivity. }
  assert (B : forallb (fun x => kind x =? kind e) l = forallb (fun x => Bool.eqb (quoted x) (quoted e)) l).
  { clear A. induction l as [|x l IH]; [reflexivity|]. cbn [forallb]. rewrite IH. destruct x, e; reflexivity. }
  cbn [forallb]. rewrite B, A, Nat.eqb_refl. destruct (quoted e); cbn [negb andb orb]; [rewrite orb_false_r|]; reflexivity.
Qed.
Lemma convert_app ty k a b : convert ty k (a ++ b) = match convert ty k a with Some x => match convert ty k b with Some y => Some (x ++ y) | None => None end | None => None end.
Proof.
  unfold convert. rewrite forallb_app, map_app, all_some_app. destruct (forallb (fun e => kind e =? k) a); cbn [andb]; [|reflexivity]. destruct (forallb (fun e => kind e =? k) b); cbn [andb]; [reflexivity|]. destruct (all_some _); reflexivity.
Qed.
Lemma convert_rows_spec ty k n : forall rs, convert_rows ty k n rs = if forallb (fun r => List.length r =? n) (map row_elems rs) then convert ty k (concat (map row_elems rs)) else None.
Proof.
  induction rs as [|r rs IH]; [reflexivity|]. cbn [convert_rows map forallb concat]. rewrite IH, convert_app, (Nat.eqb_sym n). destruct (List.length (row_elems r) =? n); cbn [andb]; [|reflexivity].
  destruct (convert ty k (row_elems r)); [|destruct (forallb _ _); reflexivity]. destruct (forallb _ _); reflexivity.
Qed.
Lemma value_of_convert ty v e l : concat (rows v) = e :: l -> value_of conv ty v =
  if forallb (fun r => List.length r =? List.length (hd [] (rows v))) (rows v) then match convert ty (kind e) (concat (rows v)) with Some x => Some (Value_ ty (dimensions v) (List.length (hd [] (rows v))) (List.length (rows v)) x) | None => None end else None.
Proof.
  intro Q. unfold value_of, regular. rewrite Q, same_kind. unfold convert. destruct (forallb (fun x => kind x =? kind e) (e :: l)); cbn [andb]; [reflexivity|]. destruct (forallb _ _); reflexivity.
Qed.
(** The state in which a value has been read and [add_leaf] makes it *)
Definition filled (x : value E) (u : cst E) : Prop :=
  typeName u = vtype x /\ memory u = Some (velems x) /\ numberOfDimensions u = vdims x /\
  (if vdims x =? 0 then firstNumberOfColumns u = vcols x else numberOfColumns u = vcols x) /\ (if vdims x =? 2 then numberOfRows u = vrows x else vrows x = 1) /\
  vcols x * vrows x = List.length (velems x) /\ (if 1 <? vrows x then 2 else if 1 <? vcols x then 1 else 0) <= vdims x /\ vdims x < 3.
Definition kept (u u' : cst E) : Prop := nodeName u' = nodeName u /\ handleMathExpr u' = handleMathExpr u /\ exprs u' = exprs u /\ database u' = database u /\ vectorStructureIdx u' = vectorStructureIdx u.
Lemma all_some_length {X} : forall (l : list (option X)) x, all_some l = Some x -> List.length x = List.length l.
Proof. induction l as [|[a|] l IH]; intros x Q; [injection Q as <-; reflexivity| |discriminate]. cbn [all_some] in Q. destruct (all_some l) as [y|]; [|discriminate]. injection Q as <-. cbn [List.length]. rewrite (IH y eq_refl). reflexivity. Qed.
Lemma convert_length ty k l x : convert ty k l = Some x -> List.length x = List.length l.
Proof. unfold convert. destruct (forallb _ l); [|discriminate]. intro Q. apply all_some_length in Q. rewrite map_length in Q. exact Q. Qed.
Lemma concat_length_eq n : forall l : list (list elem), forallb (fun r => List.length r =? n) l = true -> List.length (concat l) = n * List.length l.
Proof. induction l as [|a l IH]; intro Q; [cbn; lia|]. cbn [forallb] in Q. apply andb_true_iff in Q. destruct Q as [Q1 Q2]. apply Nat.eqb_eq in Q1. cbn [concat List.length]. rewrite app_length, (IH Q2), Q1. lia. Qed.
Lemma value_tokens : forall v ty nn he ex d vx rest sk, List.length sk <= 503 -> let u := Cs ty nn 0 0 0 None 0 0 he ex d vx in
  match value_of conv ty v with
  | Some x => exists u', runs (S0 (write_val o c v ++ rest) (nVal :: sk) u) (S0 rest sk u') /\ filled x u' /\ kept u u'
  | None => fails false (S0 (write_val o c v ++ rest) (nVal :: sk) u)
  end.
Proof.
  intros v ty nn he ex d vx rest sk L u. unfold u. destruct v as [e|r|r rs].
  - rewrite (value_of_convert ty (Scalar e) e []) by reflexivity. cbn [rows concat app hd forallb List.length write_val dimensions]. rewrite Nat.eqb_refl. cbn [andb]. unfold convert. cbn [forallb map all_some]. rewrite Nat.eqb_refl. cbn [andb].
    assert (N : runs (S0 (tok e :: rest) (nVal :: sk) (Cs ty nn 0 0 0 None 0 0 he ex d vx)) (S0 (tok e :: rest) (nScal :: sk) (Cs ty nn 0 0 0 None 0 0 he ex d vx))). { nt [nScal]. { apply pS; [exact Hcf|apply type_tok]. } apply runs_refl. }
    destruct (conv ty (data e)) as [x|] eqn:X.
    + eexists. split; [eapply runs_trans; [exact N|]; eapply scalar_tokens; [lia|]; apply (add_ok ty nn 0 0 0 None 0 0 he ex d vx e x (or_introl eq_refl) X)|]. unfold filled, kept. cbn. repeat split; lia.
    + destruct (add_bad ty nn 0 0 0 None 0 0 he ex d vx e (or_intror X)) as (u' & U). eapply runs_fails; [exact N|]. eapply scalar_fails; [lia|exact U].
  - rewrite (value_of_convert ty (Vector r) (fst r) (snd r)) by (cbn [rows concat]; apply app_nil_r). cbn [rows concat hd forallb List.length write_val dimensions]. rewrite Nat.eqb_refl, app_nil_r. cbn [andb].
    assert (N : runs (S0 (write_row o c r ++ rest) (nVal :: sk) (Cs ty nn 0 0 0 None 0 0 he ex d vx)) (S0 (write_row o c r ++ rest) (nVec :: sk) (Cs ty nn 0 0 0 None 0 0 he ex d vx))). { nt [nVec]. { apply pV; [exact Hcf|exact tyO|]. apply type_tok. } apply runs_refl. }
    pose proof (row_tokens r ty nn 0 0 None 0 0 he ex d vx rest sk (or_introl eq_refl) ltac:(lia)) as W. cbn zeta in W. cbn [Nat.eqb orb] in W. destruct (convert ty (kind (fst r)) (row_elems r)) as [x|] eqn:X.
    + eexists. split; [eapply runs_trans; [exact N|exact W]|]. apply convert_length in X. unfold filled, kept. cbn -[Nat.ltb Nat.mul]. change (1 <? 1) with false. cbn iota. repeat split; try lia. { unfold row_elems in X. cbn [List.length] in X. lia. } destruct (1 <? S (List.length (snd r))); lia.
    + eapply runs_fails; [exact N|exact W].
  - rewrite (value_of_convert ty (Matrix r rs) (fst r) (snd r ++ concat (map row_elems rs))) by reflexivity. cbn [rows map hd dimensions]. cbn [forallb]. rewrite Nat.eqb_refl. cbn [andb concat]. rewrite convert_app.
    unfold write_val, braces. cbn [flat_map app]. rewrite <- !app_assoc. cbn [app].
    assert (N : runs (S0 (TTerm o :: write_row o c r ++ flat_map (write_row o c) rs ++ TTerm c :: rest) (nVal :: sk) (Cs ty nn 0 0 0 None 0 0 he ex d vx)) (S0 (write_row o c r ++ flat_map (write_row o c) rs ++ TTerm c :: rest) (nVec :: nMatR :: tClose :: sk) (Cs ty nn 0 0 0 None 0 0 he ex d vx))).
    { nt [nMat]. { apply pM; [exact Hcf|exact tyO|exact tyO]. } nt [tOpen; nVec; nMatR; tClose]. { apply pMat; [exact Hcf|exact tyO]. } tm. apply runs_refl. }
    pose proof (row_tokens r ty nn 0 0 None 0 0 he ex d vx (flat_map (write_row o c) rs ++ TTerm c :: rest) (nMatR :: tClose :: sk) (or_introl eq_refl) ltac:(cbn [List.length]; lia)) as W. cbn zeta in W. cbn [Nat.eqb orb] in W.
    destruct (convert ty (kind (fst r)) (row_elems r)) as [x1|] eqn:X1.
    2:{ assert (F : fails false (S0 (TTerm o :: write_row o c r ++ flat_map (write_row o c) rs ++ TTerm c :: rest) (nVal :: sk) (Cs ty nn 0 0 0 None 0 0 he ex d vx))) by (eapply runs_fails; [exact N|exact W]). destruct (forallb _ _); exact F. }
    pose proof (more_rows rs ty nn (List.length (row_elems r)) 1 x1 (kind (fst r)) 1 he ex d vx (TTerm c :: rest) (tClose :: sk) ltac:(discriminate) (kind_pos _) ltac:(discriminate) tyC ltac:(cbn [List.length]; lia)) as I.
    rewrite convert_rows_spec in I. destruct (forallb (fun r0 => List.length r0 =? List.length (row_elems r)) (map row_elems rs)) eqn:Z.
    2:{ eapply runs_fails; [exact N|]. eapply runs_fails; [exact W|exact I]. }
    destruct (convert ty (kind (fst r)) (concat (map row_elems rs))) as [x2|] eqn:X2.
    2:{ eapply runs_fails; [exact N|]. eapply runs_fails; [exact W|exact I]. }
    eexists. split.
    + eapply runs_trans; [exact N|]. eapply runs_trans; [exact W|]. cbn [app]. eapply runs_trans; [exact I|]. actE; [rewrite exEndM; reflexivity|]. tm. apply runs_refl.
    + apply convert_length in X1, X2. apply concat_length_eq in Z. rewrite map_length in Z. unfold filled, kept. cbn -[Nat.ltb Nat.mul]. rewrite map_length. repeat split; try lia.
      * rewrite app_length, X1, X2, Z. unfold row_elems. cbn [List.length]. rewrite Nat.mul_succ_r. lia.
      * destruct (1 <? S (List.length rs)); [lia|]. match goal with |- (if ?b then _ else _) <= _ => destruct b; lia end.
Qed.
End Values.
