(** C44: what the JSON parser has read when the parse returns true. *)
From Coq Require Import String Ascii.
From Verif Require Import Base Paths ConfigDB_Model Slk_Model Slk_Proofs Slk_Sound Cfg_Model Cfg_Spec Cfg_Standard Cfg_Json.
Open Scope string_scope. Open Scope nat_scope. Open Scope list_scope.

Lemma jterm_type d : String.length d = 1 -> token_type Json (TTerm d) =
  if String.eqb d "}" then 8 else if String.eqb d "{" then 7 else if String.eqb d "]" then 6 else if String.eqb d "[" then 5 else if String.eqb d ")" then 4 else if String.eqb d "(" then 3 else if String.eqb d ":" then 2 else 0.
Proof. intros L. destruct d as [|c [|x d]]; [discriminate| |discriminate]. destruct c as [[|] [|] [|] [|] [|] [|] [|] [|]]; reflexivity. Qed.
Definition jtoken (k : nat) (t : token) : Prop :=
  match k with
  | 0 => t = TEof \/ exists d, t = TTerm d /\ ~ In d [":"; "("; ")"; "["; "]"; "{"; "}"]
  | 1 => exists d, t = TStr d | 2 => t = TTerm ":" | 3 => t = TTerm "(" | 4 => t = TTerm ")" | 5 => t = TTerm "[" | 6 => t = TTerm "]" | 7 => t = TTerm "{" | 8 => t = TTerm "}" | 9 => exists d, t = TNum d
  | _ => False
  end.
Lemma jtype_inv t : lexed t -> jtoken (token_type Json t) t.
Proof.
  destruct t as [|d|d|d]; intros L.
  - left. reflexivity.
  - exists d. reflexivity.
  - exists d. reflexivity.
  - rewrite jterm_type by exact L. repeat (match goal with |- context [String.eqb d ?x] => destruct (String.eqb_spec d x) end; [subst; reflexivity|]).
    right. exists d. split; [reflexivity|]. cbn [In]. intros I. decompose [or] I; congruence.
Qed.
Lemma jtype_le t : lexed t -> token_type Json t <= 9.
Proof. intros L. pose proof (jtype_inv t L) as X. destruct (token_type Json t) as [|[|[|[|[|[|[|[|[|[|n]]]]]]]]]]; try lia; destruct X. Qed.
Lemma jstops_0 l : (forall t, In t l -> lexed t) -> token_type Json (hd TEof l) = 0 -> json_stops l.
Proof.
  intros L Z. destruct l as [|t l]; [exact I|]. cbn [hd] in Z. pose proof (jtype_inv t (L t (or_introl eq_refl))) as X. rewrite Z in X. destruct X as [->|(d & -> & X)]; [exact I|exact X].
Qed.

(** ** What is left of the open brackets after a piece *)
Notation bw := brackets_within.
Ltac bws X := cbn [app brackets_within String.eqb Ascii.eqb Bool.eqb orb pred] in X.
Lemma bw_elems m d es r : bw m d (map tok es ++ r) -> bw m d r. Proof. induction es as [|[x|x] es IH]; cbn [map tok app brackets_within]; auto. Qed.
Lemma bw_row m d (w : row) r : bw m d (write_row "[" "]" w ++ r) -> bw m d r.
Proof. unfold write_row, braces. intros X. bws X. destruct X as (_ & X). rewrite <- app_assoc in X. apply bw_elems in X. exact X. Qed.
Lemma bw_rows m d l r : bw m d (flat_map (write_row "[" "]") l ++ r) -> bw m d r.
Proof. induction l as [|w l IH]; [auto|]. cbn [flat_map]. rewrite <- app_assoc. intros X. apply IH, (bw_row _ _ w), X. Qed.
Lemma bw_val m d v r : bw m d (write_val "[" "]" v ++ r) -> bw m d r.
Proof.
  destruct v as [e|w|w l]; cbn [write_val].
  - intros X. apply (bw_elems m d [e]). exact X.
  - apply bw_row.
  - unfold braces. intros X. bws X. destruct X as (_ & X). rewrite <- app_assoc in X. apply bw_rows in X. exact X.
Qed.
Definition bw_ok (m : nat) (w : list token) : Prop := forall d r, bw m d (w ++ r) -> bw m d r.
Lemma bw_flat {X} m (f : X -> list token) l : Forall (fun x => bw_ok m (f x)) l -> bw_ok m (flat_map f l).
Proof. induction 1 as [|x l Hx _ IH]; [intros d r Y; exact Y|]. intros d r Y. cbn [flat_map] in Y. rewrite <- app_assoc in Y. apply IH, Hx, Y. Qed.
Lemma bw_both m : (forall i, bw_ok m (write_json i)) /\ (forall b, bw_ok m (write_jblock b)).
Proof.
  assert (B1 : forall i l, bw_ok m (write_json i) -> Forall (fun i => bw_ok m (write_json i)) l -> bw_ok m (write_jblock (JB i l))).
  { intros i l Hi Hl d r X. cbn [write_jblock] in X. unfold braces in X. bws X. destruct X as (_ & X). rewrite <- !app_assoc in X. apply Hi in X. apply (bw_flat m write_json l Hl) in X. exact X. }
  assert (I1 : forall i, bw_ok m (write_json i)).
  { apply (jitem_ind2 _ (fun b => bw_ok m (write_jblock b))); [| | | |exact B1].
    - intros n [c|] v d r X; cbn [write_json] in X; bws X; exact (bw_val _ _ _ _ X).
    - intros n b Hb d r X. cbn [write_json] in X. bws X. exact (Hb _ _ X).
    - intros n b l Hb Hl d r X. cbn [write_json] in X. unfold braces in X. bws X. destruct X as (_ & X). rewrite <- !app_assoc in X. apply Hb in X. apply (bw_flat m write_jblock l Hl) in X. exact X.
    - intros b Hb. exact Hb. }
  split; [exact I1|]. intros [i l]. apply B1; [apply I1|]. apply Forall_forall. intros x _. apply I1.
Qed.
Lemma bw_item m i d r : bw m d (write_json i ++ r) -> bw m d r. Proof. apply (proj1 (bw_both m) i). Qed.
Lemma bw_block m b d r : bw m d (write_jblock b ++ r) -> bw m d r. Proof. apply (proj2 (bw_both m) b). Qed.

(** ** The table *)
Lemma json_prods : prods Json = [(3, []); (11, [12; 29]); (12, [13; 23]); (13, [30; 1; 2; 14; 31]); (13, [30; 1; 2; 3; 32; 1; 4; 14; 31]); (13, [33; 1; 2; 19]); (13, [34; 1; 2; 16]); (13, [21]);
  (14, [15]); (14, [17]); (14, [18]); (15, [35; 22]); (16, [5; 20; 24; 6]); (17, [5; 15; 25; 6]); (18, [5; 17; 26; 6]); (19, [7; 13; 27; 8]); (20, [40; 19]); (21, [7; 13; 28; 8]); (22, [1]); (22, [9]);
  (23, [13; 23]); (23, []); (24, [20; 24]); (24, [36]); (25, [15; 25]); (25, [37]); (26, [17; 26]); (26, [38]); (27, [13; 27]); (27, [39]); (28, [13; 28]); (28, []); (3, [])].
Proof. reflexivity. Qed.
Lemma json_bodies N body : In (N, body) (prods Json) -> START_SYMBOL Json <= N < START_ACTION Json -> ~ In 0 body /\ ~ In (END_OF_SLK_INPUT Json) body.
Proof. rewrite json_prods. intros I _. cbn [In] in I. decompose [or] I; try contradiction; match goal with Q : _ = _ |- _ => injection Q as <- <- end; cbn; intuition discriminate. Qed.
Lemma resolve_in T ts : forall cf e lv r, resolve_t T cf ts e lv = Ret r -> r < START_CONFLICT T /\ (r = e \/ In r (Conflict T)).
Proof.
  assert (Z : forall cf e lv r, resolve_t T cf ts e lv = Ret r -> r < START_CONFLICT T).
  { induction cf as [|k IH]; intros e lv r; cbn [resolve_t]; destruct (Nat.ltb_spec e (START_CONFLICT T)); try (intros Q; injection Q as <-; assumption); [discriminate|]. destruct (get (Conflict_row T) _) as [w| |]; cbn [bind]; [|discriminate|discriminate]. destruct (get (Conflict T) _) as [x| |]; cbn [bind]; [|discriminate|discriminate]. apply IH. }
  intros cf e lv r X. split; [exact (Z _ _ _ _ X)|]. revert e lv r X. induction cf as [|k IH]; intros e lv r; cbn [resolve_t]; destruct (e <? START_CONFLICT T); try (intros Q; injection Q as <-; left; reflexivity); [discriminate|]. destruct (get (Conflict_row T) _) as [w| |]; cbn [bind]; [|discriminate|discriminate]. unfold get.
  destruct (nth_error (Conflict T) (w + ts lv)) as [x|] eqn:N; cbn [bind]; [|discriminate]. intros X. right. apply IH in X. destruct X as [->|X]; [exact (nth_error_In _ _ N)|exact X].
Qed.
Lemma json_no_15 cf ts body : pick_t Json cf 15 0 ts <> Ret (Some body).
Proof.
  unfold pick_t. change (get (Parse_row Json) (15 - (START_SYMBOL Json - 1))) with (Ret 6). cbn [bind]. change (get (ParseArray Json) (6 + 0)) with (Ret 33). cbn [bind]. destruct (resolve_t Json cf ts 33 0) as [r| |] eqn:R; cbn [bind]; [|discriminate|discriminate].
  apply resolve_in in R. destruct R as (R1 & [->|R]); [cbn in R1; lia|]. cbn [Conflict Json In] in R. decompose [or] R; try contradiction; subst r; cbn; discriminate.
Qed.
(** After the name and the colon there is something. *)
Lemma json_ahead cf ts body : ts 0 = 2 -> ts 1 = 0 -> pick_t Json cf 13 1 ts <> Ret (Some body).
Proof. intros A B. destruct cf as [|[|[|cf]]]; intros X; lazy in X; try discriminate X; rewrite A in X; lazy in X; try discriminate X; rewrite B in X; lazy in X; discriminate X. Qed.

Section Pieces.
Context {E : Type} (H : string -> Z) (conv : string -> string -> option E) (text_of : value E -> option string) (vars : string -> option (list string)) (is_num : string -> bool)
        (eval : string -> string -> list (value E) -> option (value E)) (cf : nat).
Notation exe := (json_execute H conv text_of vars is_num eval).
Notation bad := (bad Json exe cf). Notation leads := (leads Json exe cf). Notation S0 := (S0 Json). Notation type := (token_type Json).
Definition all_lexed (l : list token) : Prop := forall t, In t l -> lexed t.
Lemma lexed_app a b : all_lexed (a ++ b) -> all_lexed b. Proof. intros X t I. apply X, in_or_app. right. exact I. Qed.
Lemma lexed_tl t l : all_lexed (t :: l) -> all_lexed l. Proof. intros X x I. apply X. right. exact I. Qed.
Definition closes (sk : list nat) : Prop := (exists t, In t sk /\ 0 < t < 10) /\ ~ In 0 sk /\ ~ In 10 sk.
Definition plain (sk : list nat) : Prop := ~ In 0 sk /\ ~ In 10 sk.
Lemma plain_cons x sk : x <> 0 -> x <> 10 -> plain sk -> plain (x :: sk). Proof. intros A B [C D]. split; (intros [Q|Q]; [congruence|contradiction]). Qed.
Lemma closes_here x sk : 0 < x < 10 -> plain sk -> closes (x :: sk).
Proof. intros R P. split; [exists x; split; [left; reflexivity|exact R]|]. apply plain_cons; [lia|lia|exact P]. Qed.
Lemma closes_cons x sk : x <> 0 -> x <> 10 -> closes sk -> closes (x :: sk).
Proof. intros A B ((t & I & R) & P). split; [exists t; split; [right; exact I|exact R]|]. apply plain_cons; assumption. Qed.
Lemma eof_bad l sk (u : cst E) : closes sk -> bad (mk l 10 sk u false true).
Proof. intros ((t & I & R) & Z & N) n s' X. refine (end_bad Json exe cf JS _ t _ _ n l sk u true s' I Z json_bodies N X); cbn; lia. Qed.
Lemma step_char t l sk u : all_lexed l -> 0 < t < 10 -> bad (S0 l (t :: sk) u) \/ exists x l', l = x :: l' /\ all_lexed l' /\ leads (S0 l (t :: sk) u) (S0 l' sk u) /\ jtoken t x.
Proof.
  intros A R. destruct (tm_cases Json exe cf JS t l (type (hd TEof l)) sk u false ltac:(cbn; lia)) as [B|(E0 & L)]; [left; exact B|]. right. destruct l as [|x l]; [cbn in E0; lia|]. exists x, l. split; [reflexivity|]. split; [exact (lexed_tl _ _ A)|]. split; [exact L|].
  cbn [hd] in E0. rewrite <- E0. apply jtype_inv, A. left. reflexivity.
Qed.
Lemma step_act a l sk u : 29 <= a -> bad (S0 l (a :: sk) u) \/ exists u', exe (a - 28) (hd TEof l) u = Ret (u', false) /\ leads (S0 l (a :: sk) u) (S0 l sk u').
Proof. intros R. exact (act_cases Json exe cf JS a l _ sk u false R). Qed.
Lemma step_nt N l sk u : 11 <= N < 29 -> List.length sk <= 501 ->
  bad (S0 l (N :: sk) u) \/
  (exists body, pick_t Json cf N (type (hd TEof l)) (ts_of Json l) = Ret (Some body) /\ In (N, body) (prods Json) /\ leads (S0 l (N :: sk) u) (S0 l (body ++ sk) u)) \/
  (type (hd TEof l) = 0 /\ leads (S0 l (N :: sk) u) (mk l 10 sk u false true)).
Proof.
  intros R L. destruct (nt_cases Json exe cf JS N l (type (hd TEof l)) sk u false R) as [B|[(body & P & I & X)|X]]; [left; exact B| |right; right; exact X].
  right. left. exists body. rewrite pick_ts in P. split; [exact P|]. split; [exact I|]. rewrite (push_all_app (fun _ _ _ => Undef : out (cst E * bool))) in X; [exact X|].
  rewrite json_prods in I. assert (List.length body <= 10); [|lia]. cbn [In] in I. decompose [or] I; try contradiction; match goal with Q : _ = _ |- _ => injection Q as <- <- end; cbn; lia.
Qed.
Lemma step_in N l sk u : 11 <= N < 29 -> List.length sk <= 501 -> closes sk -> bad (S0 l (N :: sk) u) \/ (exists body, In (N, body) (prods Json) /\ leads (S0 l (N :: sk) u) (S0 l (body ++ sk) u)).
Proof. intros R L C. destruct (step_nt N l sk u R L) as [B|[(body & _ & X)|(_ & X)]]; [left; exact B|right; exists body; exact X|left; exact (leads_bad _ _ _ _ _ X (eof_bad l sk u C))]. Qed.
Definition reads {X : Type} (wr : X -> list token) (N : nat) (l : list token) (sk : list nat) (u : cst E) : Prop :=
  bad (S0 l (N :: sk) u) \/ (exists x rest u', l = wr x ++ rest /\ leads (S0 l (N :: sk) u) (S0 rest sk u')).
Definition drops (N : nat) (l : list token) (sk : list nat) (u : cst E) : Prop := type (hd TEof l) = 0 /\ leads (S0 l (N :: sk) u) (mk l 10 sk u false true).
Ltac body_of I := rewrite json_prods in I; cbn [In] in I; decompose [or] I; try contradiction; match goal with Q : (_, _) = (_, _) |- _ => try discriminate Q; (injection Q as <-) end; clear I.
Ltac link Y X := let Z := fresh "Y" in pose proof (leads_trans _ _ _ _ _ _ Y X) as Z; clear X Y; rename Z into Y.
Ltac nt := match goal with Y : Slk_Sound.leads _ _ _ ?s (Slk_Proofs.S0 _ ?l (?N :: ?sk) ?u), C : closes ?sk |- _ => let B := fresh in let X := fresh in let I := fresh in let b := fresh in
  destruct (step_in N l sk u ltac:(lia) ltac:(cbn [List.length] in *; lia) C) as [B|(b & I & X)]; [left; exact (leads_bad _ _ _ _ _ Y B)|]; link Y X; body_of I; cbn [app] in * |- end.
Ltac act := match goal with Y : Slk_Sound.leads _ _ _ ?s (Slk_Proofs.S0 _ ?l (?N :: ?sk) ?u) |- _ => let B := fresh in let X := fresh in let v := fresh "u" in
  destruct (step_act N l sk u ltac:(lia)) as [B|(v & _ & X)]; [left; exact (leads_bad _ _ _ _ _ Y B)|]; link Y X end.
Ltac chr := match goal with Y : Slk_Sound.leads _ _ _ ?s (Slk_Proofs.S0 _ ?l (?t :: ?sk) ?u), A : all_lexed ?l |- _ => let B := fresh in let X := fresh in let D := fresh in let A1 := fresh "A" in let l1 := fresh "l" in let x := fresh "x" in
  destruct (step_char t l sk u A ltac:(lia)) as [B|(x & l1 & -> & A1 & X & D)]; [left; exact (leads_bad _ _ _ _ _ Y B)|]; link Y X; cbn [jtoken] in D; first [subst x|destruct D as [? ->]] end.
Ltac piece R := match goal with Y : Slk_Sound.leads _ _ _ ?s (Slk_Proofs.S0 _ ?l (?N :: ?sk) ?u), A : all_lexed ?l, C : closes ?sk |- _ => let B := fresh in let X := fresh in let A1 := fresh "A" in let l1 := fresh "l" in let x := fresh "x" in let v := fresh "u" in
  destruct (R l sk u A ltac:(cbn [List.length] in *; lia) C) as [B|(x & l1 & v & -> & X)]; [left; exact (leads_bad _ _ _ _ _ Y B)|]; link Y X; pose proof (lexed_app _ _ A) as A1 end.
Lemma elem_sees l sk u : all_lexed l -> List.length sk <= 490 -> plain sk -> reads (fun e => [tok e]) 15 l sk u \/ drops 15 l sk u.
Proof.
  intros A L P. destruct (step_nt 15 l sk u ltac:(lia) ltac:(lia)) as [B|[(body & PK & I & Y)|X]]; [left; left; exact B| |right; exact X]. body_of I. cbn [app] in Y.
  assert (NZ : type (hd TEof l) <> 0) by (intros Q; rewrite Q in PK; exact (json_no_15 _ _ _ PK)). left. act.
  destruct (step_nt 22 l sk u0 ltac:(lia) ltac:(lia)) as [B|[(body & _ & I & X)|(Q & _)]]; [left; exact (leads_bad _ _ _ _ _ Y B)| |contradiction]. link Y X. body_of I; cbn [app] in Y.
  - chr. right. eexists (Str _), _, _. split; [reflexivity|eassumption].
  - chr. right. eexists (Num _), _, _. split; [reflexivity|eassumption].
Qed.
Lemma elem_reads l sk u : all_lexed l -> List.length sk <= 490 -> closes sk -> reads (fun e => [tok e]) 15 l sk u.
Proof. intros A L C. destruct (elem_sees l sk u A L (proj2 C)) as [X|(_ & X)]; [exact X|left; exact (leads_bad _ _ _ _ _ X (eof_bad l sk u C))]. Qed.
Lemma elems_read l sk u : all_lexed l -> List.length sk <= 480 -> closes sk -> reads (map tok) 25 l sk u.
Proof.
  revert u. induction l as [l IH] using (well_founded_induction (Wf_nat.well_founded_ltof _ (@List.length token))). intros u A L C. pose proof (leads_refl Json exe cf (S0 l (25 :: sk) u)) as Y.
  assert (C2 : closes (25 :: sk)) by (apply closes_cons; [lia|lia|exact C]). nt.
  - piece elem_reads. destruct (IH l0 ltac:(unfold Wf_nat.ltof; cbn; lia) u0 A0 L C) as [B|(es & r2 & u2 & -> & Z)]; [left; exact (leads_bad _ _ _ _ _ Y B)|]. right. exists (x :: es), r2, u2. split; [reflexivity|]. exact (leads_trans _ _ _ _ _ _ Y Z).
  - act. right. exists [], l, u0. split; [reflexivity|assumption].
Qed.
Lemma row_sees l sk u : all_lexed l -> List.length sk <= 470 -> plain sk -> reads (write_row "[" "]") 17 l sk u \/ drops 17 l sk u.
Proof.
  intros A L P. destruct (step_nt 17 l sk u ltac:(lia) ltac:(lia)) as [B|[(body & _ & I & Y)|X]]; [left; left; exact B| |right; exact X]. body_of I. cbn [app] in Y. left.
  assert (C8 : closes (6 :: sk)) by (apply closes_here; [lia|exact P]). assert (C21 : closes (25 :: 6 :: sk)) by (apply closes_cons; [lia|lia|exact C8]).
  chr. piece elem_reads. piece elems_read. chr. right. eexists (_, _), _, _. split; [|eassumption]. unfold write_row, braces, row_elems. cbn [fst snd map app]. rewrite <- app_assoc. reflexivity.
Qed.
Lemma row_reads l sk u : all_lexed l -> List.length sk <= 470 -> closes sk -> reads (write_row "[" "]") 17 l sk u.
Proof. intros A L C. destruct (row_sees l sk u A L (proj2 C)) as [X|(_ & X)]; [exact X|left; exact (leads_bad _ _ _ _ _ X (eof_bad l sk u C))]. Qed.
Lemma rows_read l sk u : all_lexed l -> List.length sk <= 460 -> closes sk -> reads (flat_map (write_row "[" "]")) 26 l sk u.
Proof.
  revert u. induction l as [l IH] using (well_founded_induction (Wf_nat.well_founded_ltof _ (@List.length token))). intros u A L C. pose proof (leads_refl Json exe cf (S0 l (26 :: sk) u)) as Y.
  assert (C2 : closes (26 :: sk)) by (apply closes_cons; [lia|lia|exact C]). nt.
  - piece row_reads. destruct (IH l0 ltac:(unfold Wf_nat.ltof, write_row, braces; cbn [app List.length]; rewrite !app_length; lia) u0 A0 L C) as [B|(es & r2 & u2 & -> & Z)]; [left; exact (leads_bad _ _ _ _ _ Y B)|]. right. exists (x :: es), r2, u2. split; [cbn [flat_map]; apply app_assoc|]. exact (leads_trans _ _ _ _ _ _ Y Z).
  - act. right. exists [], l, u0. split; [reflexivity|assumption].
Qed.
Lemma drops_leads N M l sk u : leads (S0 l (N :: sk) u) (S0 l (M :: sk) u) -> drops M l sk u -> drops N l sk u.
Proof. intros X (Z & Y). split; [exact Z|exact (leads_trans _ _ _ _ _ _ X Y)]. Qed.
Lemma val_sees l sk u : all_lexed l -> List.length sk <= 450 -> plain sk -> reads (write_val "[" "]") 14 l sk u \/ drops 14 l sk u.
Proof.
  intros A L P. destruct (step_nt 14 l sk u ltac:(lia) ltac:(lia)) as [B|[(body & _ & I & Y)|X]]; [left; left; exact B| |right; exact X]. body_of I; cbn [app] in Y.
  - destruct (elem_sees l sk u A ltac:(lia) P) as [[B|(e & rest & u' & -> & X)]|X]; [left; left; exact (leads_bad _ _ _ _ _ Y B)| |right; exact (drops_leads _ _ _ _ _ Y X)]. link Y X. left. right. exists (Scalar e), rest, u'. split; [reflexivity|exact Y].
  - destruct (row_sees l sk u A ltac:(lia) P) as [[B|(w & rest & u' & -> & X)]|X]; [left; left; exact (leads_bad _ _ _ _ _ Y B)| |right; exact (drops_leads _ _ _ _ _ Y X)]. link Y X. left. right. exists (Vector w), rest, u'. split; [reflexivity|exact Y].
  - destruct (step_nt 18 l sk u ltac:(lia) ltac:(lia)) as [B|[(body & _ & I & X)|X]]; [left; left; exact (leads_bad _ _ _ _ _ Y B)| |right; exact (drops_leads _ _ _ _ _ Y X)]. link Y X. body_of I. cbn [app] in Y. left.
    assert (C8 : closes (6 :: sk)) by (apply closes_here; [lia|exact P]). assert (C22 : closes (26 :: 6 :: sk)) by (apply closes_cons; [lia|lia|exact C8]).
    chr. piece row_reads. piece rows_read. chr. right. eexists (Matrix _ _), _, _. split; [|eassumption]. cbn [write_val]. unfold braces. cbn [flat_map app]. rewrite <- !app_assoc. reflexivity.
Qed.

(** ** The values being read *)
Lemma mem_must s (o : op (value E)) u' b : must H s o = Ret (u', b) -> memory u' = memory s.
Proof. unfold must. destruct (call H (database s) o) as [[c d]| |]; cbn [bind]; [|discriminate|discriminate]. intros Q. injection Q as <- _. reflexivity. Qed.
Lemma mem_keep a t u u' : In a [2; 4; 5; 6; 8; 11; 12] -> exe a t u = Ret (u', false) -> memory u' = memory u.
Proof.
  cbn [In]. intros I X. decompose [or] I; try contradiction; subst a; cbn [json_execute nth] in X.
  - injection X as <-. reflexivity.
  - injection X as <-. reflexivity.
  - exact (mem_must _ _ _ _ X).
  - unfold create_node_v in X. destruct (call H _ _) as [[b1 v]| |]; cbn [bind] in X; try discriminate. destruct (call H v _) as [[b2 w]| |]; cbn [bind] in X; try discriminate. injection X as <- _. reflexivity.
  - unfold end_vector_b in X. destruct (step H (vectorStructureIdx u) GetName) as [[[?|?|?|n] ?]|]; try discriminate. destruct (call H _ _) as [[[|] v]| |]; cbn [bind] in X; try discriminate; [|injection X as <-; reflexivity].
    destruct n as [n|]; [|discriminate]. destruct (call H v _) as [[b2 w]| |]; cbn [bind] in X; try discriminate. injection X as <-. reflexivity.
  - exact (mem_must _ _ _ _ X).
  - unfold create_node_ve in X. destruct (read H _ _) as [i| |]; cbn [bind] in X; try discriminate. destruct (step H (vectorStructureIdx u) GetName) as [[[?|?|?|n] ?]|]; try discriminate. destruct n as [n|]; [|discriminate].
    destruct (call H (database u) _) as [[b1 v]| |]; cbn [bind] in X; try discriminate. destruct (call H (vectorStructureIdx u) _) as [[b2 w]| |]; cbn [bind] in X; try discriminate. injection X as <- _. reflexivity.
Qed.
Lemma mem_leaf t u u' : exe 3 t u = Ret (u', false) -> memory u' = None /\ memory u <> None.
Proof.
  cbn [json_execute nth]. unfold add_leaf, create_value. destruct (memory u) as [m|]; [|discriminate]. intros X. split; [|discriminate]. destruct (_ =? List.length m); [|discriminate]. destruct (_ && _); [|discriminate].
  destruct (call H _ _) as [[[|] d]| |]; cbn [bind] in X; try discriminate. injection X as <-. reflexivity.
Qed.
Lemma no_value l sk u : memory u = None -> bad (mk l 10 (31 :: sk) u false true).
Proof. intros M. destruct (act_cases Json exe cf JS 31 l 10 sk u true ltac:(cbn; lia)) as [B|(u' & X & _)]; [exact B|]. apply mem_leaf in X. destruct X; contradiction. Qed.
Lemma step_keep a l sk u : In a [30; 32; 33; 34; 36; 39; 40] -> memory u = None -> bad (S0 l (a :: sk) u) \/ exists u', memory u' = None /\ leads (S0 l (a :: sk) u) (S0 l sk u').
Proof.
  intros I M. destruct (step_act a l sk u) as [B|(u' & X & Y)]; [cbn [In] in I; lia|left; exact B|]. right. exists u'. split; [|exact Y]. rewrite <- M. refine (mem_keep (a - 28) _ _ _ _ X). cbn [In] in *. lia.
Qed.
Lemma leaf_sees l sk u : all_lexed l -> List.length sk <= 449 -> plain sk -> memory u = None ->
  bad (S0 l (14 :: 31 :: sk) u) \/ exists v rest u', l = write_val "[" "]" v ++ rest /\ leads (S0 l (14 :: 31 :: sk) u) (S0 rest sk u') /\ memory u' = None.
Proof.
  intros A L P M. destruct (val_sees l (31 :: sk) u A ltac:(cbn; lia) (plain_cons 31 sk ltac:(lia) ltac:(lia) P)) as [[B|(v & rest & u2 & -> & X)]|(_ & X)]; [left; exact B| |left; exact (leads_bad _ _ _ _ _ X (no_value l sk u M))].
  destruct (step_act 31 rest sk u2 ltac:(lia)) as [B|(u' & Y & Z)]; [left; exact (leads_bad _ _ _ _ _ X B)|]. right. exists v, rest, u'. split; [reflexivity|]. split; [exact (leads_trans _ _ _ _ _ _ X Z)|]. exact (proj1 (mem_leaf _ _ _ Y)).
Qed.
Ltac keep := match goal with Y : Slk_Sound.leads _ _ _ ?s (Slk_Proofs.S0 _ ?l (?N :: ?sk) ?u), M : memory ?u = None |- _ => let B := fresh in let X := fresh in let v := fresh "u" in let M1 := fresh "M" in
  destruct (step_keep N l sk u ltac:(cbn; auto 10) M) as [B|(v & M1 & X)]; [left; exact (leads_bad _ _ _ _ _ Y B)|]; link Y X end.

(** ** Items *)
(** [reads], and no value is left over *)
Definition kept {X : Type} (wr : X -> list token) (sk0 : list nat) (l : list token) (sk : list nat) (u : cst E) : Prop :=
  bad (S0 l (sk0 ++ sk) u) \/ (exists x rest u', l = wr x ++ rest /\ leads (S0 l (sk0 ++ sk) u) (S0 rest sk u') /\ memory u' = None).
Definition jitem_goal (l : list token) : Prop := forall sk u d, all_lexed l -> bw 220 d l -> d <= 220 -> List.length sk <= 2 * d + 2 -> plain sk -> memory u = None -> kept write_json [13] l sk u \/ drops 13 l sk u.
Lemma jwrite_cons i : exists t l, write_json i = t :: l. Proof. destruct (json_head i) as (t & l & X & _). exists t, l. exact X. Qed.
Lemma jitems_read n N : N = 27 \/ N = 28 -> (forall l, List.length l <= n -> jitem_goal l) -> forall k l sk u d, List.length l <= k -> k <= n -> all_lexed l -> bw 220 d l -> d <= 220 -> List.length sk + 1 <= 2 * d + 2 -> closes sk -> memory u = None -> kept (flat_map write_json) [N] l sk u.
Proof.
  intros HN G. induction k as [|k IH]; intros l sk u d Lk Kn A D Dm L C M; pose proof (leads_refl Json exe cf (S0 l ([N] ++ sk) u)) as Y; assert (C2 : closes (N :: sk)) by (apply closes_cons; [lia|lia|exact C]); cbn [app] in Y;
  (destruct (step_in N l sk u ltac:(lia) ltac:(lia) C) as [B|(body & I & X)]; [left; exact (leads_bad _ _ _ _ _ Y B)|]; link Y X;
   assert (Q : body = [13; N] \/ (N = 27 /\ body = [39]) \/ (N = 28 /\ body = [])) by (destruct HN; subst N; body_of I; auto); clear I; destruct Q as [->|[(-> & ->)|(-> & ->)]]; cbn [app] in Y);
  try (keep; right; exists [], l, u0; split; [reflexivity|split; assumption]); try (right; exists [], l, u; split; [reflexivity|split; assumption]).
  all: destruct (G l ltac:(lia) (N :: sk) u d A D Dm ltac:(cbn [List.length]; lia) (proj2 C2) M) as [[B|(i & rest & u' & -> & X & M')]|(_ & X)]; [left; exact (leads_bad _ _ _ _ _ Y B)| |left; exact (leads_bad _ _ _ _ _ Y (leads_bad _ _ _ _ _ X (eof_bad _ _ _ C2)))]; link Y X; destruct (jwrite_cons i) as (t & w & W).
  - rewrite W in Lk. cbn in Lk. lia.
  - destruct (IH rest sk u' d ltac:(rewrite W in Lk; cbn [app List.length] in Lk; rewrite app_length in Lk; lia) ltac:(lia) (lexed_app _ _ A) (bw_item _ _ _ _ D) Dm L C M') as [B|(c & r2 & u2 & -> & Z & M2)]; [left; exact (leads_bad _ _ _ _ _ Y B)|].
    right. exists (i :: c), r2, u2. split; [cbn [flat_map]; rewrite <- app_assoc; reflexivity|]. split; [exact (leads_trans _ _ _ _ _ _ Y Z)|exact M2].
Qed.
(** A block *)
Lemma jblock_reads n N : N = 27 \/ N = 28 -> (forall l, List.length l <= n -> jitem_goal l) -> forall l sk u d, List.length l <= S n -> all_lexed l -> bw 220 d l -> d <= 220 -> List.length sk <= 2 * d + 2 -> plain sk -> memory u = None -> kept write_jblock [7; 13; N; 8] l sk u.
Proof.
  intros HN IH l sk u d Ln A D Dm L P M. pose proof (leads_refl Json exe cf (S0 l ([7; 13; N; 8] ++ sk) u)) as Y. cbn [app] in Y. assert (C8 : closes (8 :: sk)) by (apply closes_here; [lia|exact P]). assert (CN : closes (N :: 8 :: sk)) by (apply closes_cons; [lia|lia|exact C8]).
  chr. bws D. destruct D as (Dm2 & D). cbn [List.length] in Ln.
  destruct (IH l0 ltac:(lia) (N :: 8 :: sk) u (S d) A0 D ltac:(lia) ltac:(cbn [List.length]; lia) (proj2 CN) M) as [[B|(i & l4 & u4 & -> & X & M4)]|(_ & X)]; [left; exact (leads_bad _ _ _ _ _ Y B)| |left; exact (leads_bad _ _ _ _ _ Y (leads_bad _ _ _ _ _ X (eof_bad _ _ _ CN)))]. link Y X. pose proof (lexed_app _ _ A0) as A4.
  apply bw_item in D. rewrite app_length in Ln.
  destruct (jitems_read n N HN IH _ l4 (8 :: sk) u4 (S d) (Nat.le_refl _) ltac:(lia) A4 D ltac:(lia) ltac:(cbn [List.length]; lia) C8 M4) as [B|(c & l5 & u5 & -> & X & M5)]; [left; exact (leads_bad _ _ _ _ _ Y B)|]. link Y X. pose proof (lexed_app _ _ A4) as A5.
  chr. right. exists (JB i c), l, u5. split; [|split; [exact Y|exact M5]]. cbn [write_jblock]. unfold braces. cbn [app]. rewrite <- !app_assoc. reflexivity.
Qed.
(** A block in a vector *)
Lemma jelem_reads n : (forall l, List.length l <= n -> jitem_goal l) -> forall l sk u d, List.length l <= S n -> all_lexed l -> bw 220 d l -> d <= 220 -> List.length sk <= 2 * d + 2 -> closes sk -> memory u = None -> kept write_jblock [20] l sk u.
Proof.
  intros IH l sk u d Ln A D Dm L C M. pose proof (leads_refl Json exe cf (S0 l ([20] ++ sk) u)) as Y. cbn [app] in Y. nt. keep. nt.
  destruct (jblock_reads n 27 (or_introl eq_refl) IH l sk u0 d Ln A D Dm L (proj2 C) M0) as [B|(b & r & u' & -> & X & M')]; [left; exact (leads_bad _ _ _ _ _ Y B)|]. link Y X. right. exists b, r, u'. split; [reflexivity|]. split; assumption.
Qed.
Lemma jwrite_block_cons b : exists t l, write_jblock b = t :: l. Proof. destruct b as [i l]. eexists; eexists; reflexivity. Qed.
Lemma jelems_read n : (forall l, List.length l <= n -> jitem_goal l) -> forall k l sk u d, List.length l <= k -> k <= S n -> all_lexed l -> bw 220 d l -> d <= 220 -> List.length sk + 1 <= 2 * d + 2 -> closes sk -> memory u = None -> kept (flat_map write_jblock) [24] l sk u.
Proof.
  intros G. induction k as [|k IH]; intros l sk u d Lk Kn A D Dm L C M; pose proof (leads_refl Json exe cf (S0 l ([24] ++ sk) u)) as Y; assert (C2 : closes (24 :: sk)) by (apply closes_cons; [lia|lia|exact C]); cbn [app] in Y; nt;
  try (keep; right; exists [], l, u0; split; [reflexivity|split; assumption]).
  all: destruct (jelem_reads n G l (24 :: sk) u d ltac:(lia) A D Dm ltac:(cbn [List.length]; lia) C2 M) as [B|(b & rest & u' & -> & X & M')]; [left; exact (leads_bad _ _ _ _ _ Y B)|]; link Y X; destruct (jwrite_block_cons b) as (t & w & W).
  - rewrite W in Lk. cbn in Lk. lia.
  - destruct (IH rest sk u' d ltac:(rewrite W in Lk; cbn [app List.length] in Lk; rewrite app_length in Lk; lia) ltac:(lia) (lexed_app _ _ A) (bw_block _ _ _ _ D) Dm L C M') as [B|(c & r2 & u2 & -> & Z & M2)]; [left; exact (leads_bad _ _ _ _ _ Y B)|].
    right. exists (b :: c), r2, u2. split; [cbn [flat_map]; rewrite <- app_assoc; reflexivity|]. split; [exact (leads_trans _ _ _ _ _ _ Y Z)|exact M2].
Qed.
Ltac none := match goal with Y : Slk_Sound.leads _ _ _ ?s (Slk_Proofs.S0 _ [] (?t :: ?sk) ?u), A : all_lexed [] |- _ => let B := fresh in let Q := fresh in
  destruct (step_char t [] sk u A ltac:(lia)) as [B|(? & ? & Q & _)]; [left; exact (leads_bad _ _ _ _ _ Y B)|discriminate Q] end.
Lemma jitem_reads : forall n l, List.length l <= n -> jitem_goal l.
Proof.
  induction n as [|n IH]; intros l Ln sk u d A D Dm L P M; (destruct (step_nt 13 l sk u ltac:(lia) ltac:(lia)) as [B|[(body & PK & I & Y)|X]]; [left; left; exact B| |right; exact X]); body_of I; cbn [app] in Y.
  - left. destruct l; [|cbn in Ln; lia]. keep. none.
  - left. destruct l; [|cbn in Ln; lia]. keep. none.
  - left. destruct l; [|cbn in Ln; lia]. keep. none.
  - left. destruct l; [|cbn in Ln; lia]. keep. none.
  - destruct l; [|cbn in Ln; lia]. destruct (step_nt 21 [] sk u ltac:(lia) ltac:(lia)) as [B|[(body & _ & I & X)|X]]; [left; left; exact (leads_bad _ _ _ _ _ Y B)| |right; exact (drops_leads _ _ _ _ _ Y X)]. link Y X. body_of I. cbn [app] in Y. left. none.
  - left. keep. chr. chr. match goal with Y : Slk_Sound.leads _ _ _ _ (Slk_Proofs.S0 _ ?l1 _ ?v), A1 : all_lexed ?l1, M1 : memory ?v = None |- _ => destruct (leaf_sees l1 sk v A1 ltac:(lia) P M1) as [B|(xv & lv & uv & -> & X & Mv)]; [left; exact (leads_bad _ _ _ _ _ Y B)|]; link Y X end.
    right. eexists (JLeaf _ None _), _, _. split; [|split; eassumption]. reflexivity.
  - left. keep. chr. chr. chr. keep. chr. chr. match goal with Y : Slk_Sound.leads _ _ _ _ (Slk_Proofs.S0 _ ?l1 _ ?v), A1 : all_lexed ?l1, M1 : memory ?v = None |- _ => destruct (leaf_sees l1 sk v A1 ltac:(lia) P M1) as [B|(xv & lv & uv & -> & X & Mv)]; [left; exact (leads_bad _ _ _ _ _ Y B)|]; link Y X end.
    right. eexists (JLeaf _ (Some _) _), _, _. split; [|split; eassumption]. reflexivity.
  - left. keep. chr. chr. bws D. cbn [List.length] in Ln. match goal with Y : Slk_Sound.leads _ _ _ _ (Slk_Proofs.S0 _ ?l1 _ ?v), A1 : all_lexed ?l1, M1 : memory ?v = None |- _ => 
      destruct (step_nt 19 l1 sk v ltac:(lia) ltac:(lia)) as [B|[(body & _ & I & X)|(Z & _)]]; [left; exact (leads_bad _ _ _ _ _ Y B)| |exfalso; refine (json_ahead cf _ _ _ _ PK); [reflexivity|destruct l1; exact Z]]; link Y X; body_of I; cbn [app] in Y;
      destruct (jblock_reads n 27 (or_introl eq_refl) IH l1 sk v d ltac:(lia) A1 D Dm L P M1) as [B|(b & r & u' & -> & X & M')]; [left; exact (leads_bad _ _ _ _ _ Y B)|]; link Y X end.
    right. eexists (JBlock _ _), _, _. split; [|split; eassumption]. reflexivity.
  - left. keep. chr. chr. bws D. cbn [List.length] in Ln. match goal with Y : Slk_Sound.leads _ _ _ _ (Slk_Proofs.S0 _ ?l1 _ ?v), A1 : all_lexed ?l1, M1 : memory ?v = None |- _ => 
      destruct (step_nt 16 l1 sk v ltac:(lia) ltac:(lia)) as [B|[(body & _ & I & X)|(Z & _)]]; [left; exact (leads_bad _ _ _ _ _ Y B)| |exfalso; refine (json_ahead cf _ _ _ _ PK); [reflexivity|destruct l1; exact Z]]; link Y X; body_of I; cbn [app] in Y end.
    chr. bws D. destruct D as (Dm2 & D). cbn [List.length] in Ln. assert (C6 : closes (6 :: sk)) by (apply closes_here; [lia|exact P]). assert (C24 : closes (24 :: 6 :: sk)) by (apply closes_cons; [lia|lia|exact C6]).
    match goal with Y : Slk_Sound.leads _ _ _ _ (Slk_Proofs.S0 _ ?l1 _ ?v), A1 : all_lexed ?l1, M1 : memory ?v = None |- _ => destruct (jelem_reads n IH l1 (24 :: 6 :: sk) v (S d) ltac:(lia) A1 D ltac:(lia) ltac:(cbn [List.length]; lia) C24 M1) as [B|(b & l5 & u5 & -> & X & M5)]; [left; exact (leads_bad _ _ _ _ _ Y B)|]; link Y X; pose proof (lexed_app _ _ A1) as A5 end.
    apply bw_block in D. rewrite app_length in Ln. destruct (jelems_read n IH _ l5 (6 :: sk) u5 (S d) (Nat.le_refl _) ltac:(lia) A5 D ltac:(lia) ltac:(cbn [List.length]; lia) C6 M5) as [B|(c & l6 & u6 & -> & X & M6)]; [left; exact (leads_bad _ _ _ _ _ Y B)|]. link Y X. pose proof (lexed_app _ _ A5) as A6.
    chr. right. eexists (JBlocks _ _ _), _, _. split; [|split; eassumption]. cbn [write_json]. unfold braces. cbn [app]. rewrite <- !app_assoc. reflexivity.
  - destruct (step_nt 21 l sk u ltac:(lia) ltac:(lia)) as [B|[(body & _ & I & X)|X]]; [left; left; exact (leads_bad _ _ _ _ _ Y B)| |right; exact (drops_leads _ _ _ _ _ Y X)]. link Y X. body_of I. cbn [app] in Y. left.
    destruct (jblock_reads n 28 (or_intror eq_refl) IH l sk u d Ln A D Dm L P M) as [B|(b & r & u' & -> & X & M')]; [left; exact (leads_bad _ _ _ _ _ Y B)|]. link Y X. right. exists (JItems b), r, u'. split; [reflexivity|]. split; assumption.
Qed.

(** ** The whole input *)
Definition ends (l : list token) (s : st (cst E)) : Prop := forall n s', loop Json exe n cf s = Ret s' -> err s' = true \/ ty s' <> 10 \/ exists config rest, l = flat_map write_json config ++ rest /\ json_stops rest.
Lemma ends_bad l s : bad s -> ends l s. Proof. intros B n s' X. left. exact (B n s' X). Qed.
Lemma ends_leads l s s' : leads s s' -> ends l s' -> ends l s. Proof. intros L X n r Y. destruct (L n r Y) as (m & Z). exact (X m r Z). Qed.
Lemma ends_here l s : all_lexed l -> type (hd TEof l) = 0 -> ends l s. Proof. intros A Z n s' _. right. right. exists [], l. split; [reflexivity|exact (jstops_0 l A Z)]. Qed.
Lemma plain_end : plain [23; 29]. Proof. split; cbn; intuition discriminate. Qed.
Lemma ends_item l i rest s : l = write_json i ++ rest -> ends rest s -> ends l s.
Proof. intros -> X n s' Y. destruct (X n s' Y) as [Q|[Q|(c & r & -> & Q)]]; [left; exact Q|right; left; exact Q|]. right. right. exists (i :: c), r. split; [cbn [flat_map]; apply app_assoc|exact Q]. Qed.
Lemma ends_empty l u : all_lexed l -> ends l (S0 l [] u).
Proof.
  intros A k s' Q. right. left. assert (T1 : type (hd TEof l) <= 9) by (apply jtype_le; destruct l as [|t l]; [exact Logic.I|exact (A t (or_introl eq_refl))]).
  unfold S0 in Q. destruct k; cbn [loop stk] in Q; injection Q as <-; cbn [ty]; lia.
Qed.
Lemma tail_ends : forall n l u, List.length l <= n -> all_lexed l -> bw 220 0 l -> memory u = None -> ends l (S0 l [23; 29] u).
Proof.
  induction n as [|n IH]; intros l u Ln A D M;
  (destruct (step_nt 23 l [29] u ltac:(lia) ltac:(cbn; lia)) as [B|[(body & _ & I & X)|(Z & X)]]; [exact (ends_bad _ _ B)| |exact (ends_here _ _ A Z)]); apply (ends_leads _ _ _ X); body_of I; cbn [app];
  try (destruct (step_act 29 l [] u ltac:(lia)) as [B|(u' & _ & Y)]; [exact (ends_bad _ _ B)|]; apply (ends_leads _ _ _ Y); exact (ends_empty l u' A)).
  all: destruct (jitem_reads _ l (Nat.le_refl _) [23; 29] u 0 A D ltac:(lia) ltac:(cbn; lia) plain_end M) as [[B|(i & rest & u' & Q & Y & M')]|(Z & _)]; [exact (ends_bad _ _ B)| |exact (ends_here _ _ A Z)]; apply (ends_leads _ _ _ Y), (ends_item l i rest _ Q); destruct (jwrite_cons i) as (t & w & W); subst l.
  - rewrite W in Ln. cbn in Ln. lia.
  - apply IH; [rewrite W in Ln; cbn [app List.length] in Ln; rewrite app_length in Ln; lia|exact (lexed_app _ _ A)|exact (bw_item _ _ _ _ D)|exact M'].
Qed.
Lemma start_ends l u : all_lexed l -> bw 220 0 l -> memory u = None -> ends l (S0 l [11] u).
Proof.
  intros A D M. destruct (step_nt 11 l [] u ltac:(lia) ltac:(cbn; lia)) as [B|[(body & _ & I & X)|(Z & X)]]; [exact (ends_bad _ _ B)| |exact (ends_here _ _ A Z)]. apply (ends_leads _ _ _ X). body_of I. cbn [app].
  destruct (step_nt 12 l [29] u ltac:(lia) ltac:(cbn; lia)) as [B|[(body & _ & I & Y)|(Z & _)]]; [exact (ends_bad _ _ B)| |exact (ends_here _ _ A Z)]. apply (ends_leads _ _ _ Y). body_of I. cbn [app].
  destruct (jitem_reads _ l (Nat.le_refl _) [23; 29] u 0 A D ltac:(lia) ltac:(cbn; lia) plain_end M) as [[B|(i & rest & u' & Q & W & M')]|(Z & _)]; [exact (ends_bad _ _ B)| |exact (ends_here _ _ A Z)]. apply (ends_leads _ _ _ W), (ends_item l i rest _ Q). subst l.
  exact (tail_ends _ rest u' (Nat.le_refl _) (lexed_app _ _ A) (bw_item _ _ _ _ D) M').
Qed.
Lemma json_sound l u rounds fuel u' : all_lexed l -> bw 220 0 l -> memory u = None -> parse Json exe rounds fuel cf l u = Ret (true, u') -> exists config rest, l = flat_map write_json config ++ rest /\ json_stops rest.
Proof.
  intros A D M. unfold parse. destruct rounds as [|r]; [discriminate|]. cbn [parses err eof orb inp usr]. unfold current. cbn [inp]. change (push (START_SYMBOL Json) []) with [11].
  destruct (loop Json exe fuel cf (mk l (type (hd TEof l)) [11] u false false)) as [s| |] eqn:X; [|discriminate|discriminate]. cbn [bind]. change (END_OF_SLK_INPUT Json) with 10.
  assert (F : forall s', err s' = true -> bind (parses Json exe r fuel cf s') (fun s => Ret (negb (err s), usr s)) <> Ret (true, u')) by (intros s' Q; destruct r; cbn [parses]; rewrite Q; cbn [orb bind]; rewrite Q; discriminate).
  destruct (start_ends l u A D M fuel s X) as [Q|[Q|Q]]; [| |intros _; exact Q].
  - intros Z. exfalso. refine (F _ _ Z). destruct (ty s =? 10); [exact Q|reflexivity].
  - intros Z. exfalso. refine (F _ _ Z). rewrite (proj2 (Nat.eqb_neq (ty s) 10) Q). reflexivity.
Qed.
End Pieces.
