(** C44: what MARTe's own syntax has read when the parse returns true. *)
From Coq Require Import String Ascii.
From Verif Require Import Base Paths ConfigDB_Model Slk_Model Slk_Proofs Slk_Sound Cfg_Model Cfg_Spec Cfg_Standard.
Open Scope string_scope. Open Scope nat_scope. Open Scope list_scope.

(** ** The types of tokens *)
Lemma term_type d : String.length d = 1 -> token_type Standard (TTerm d) =
  if String.eqb d "}" then 7 else if String.eqb d "{" then 6 else if String.eqb d "|" then 5 else if String.eqb d ")" then 4 else if String.eqb d "(" then 3 else if String.eqb d "=" then 2 else 0.
Proof.
  intros L. destruct d as [|c [|x d]]; [discriminate| |discriminate]. destruct c as [[|] [|] [|] [|] [|] [|] [|] [|]]; reflexivity.
Qed.
Lemma type_inv t : lexed t ->
  match token_type Standard t with
  | 0 => t = TEof \/ exists d, t = TTerm d /\ ~ In d ["="; "("; ")"; "|"; "{"; "}"]
  | 1 => exists d, t = TStr d | 8 => exists d, t = TNum d
  | 2 => t = TTerm "=" | 3 => t = TTerm "(" | 4 => t = TTerm ")" | 5 => t = TTerm "|" | 6 => t = TTerm "{" | 7 => t = TTerm "}"
  | _ => False
  end.
Proof.
  destruct t as [|d|d|d]; intros L.
  - left. reflexivity.
  - exists d. reflexivity.
  - exists d. reflexivity.
  - rewrite term_type by exact L. repeat (match goal with |- context [String.eqb d ?x] => destruct (String.eqb_spec d x) end; [subst; reflexivity|]).
    right. exists d. split; [reflexivity|]. cbn [In]. intros I. decompose [or] I; congruence.
Qed.
Lemma type_le t : lexed t -> token_type Standard t <= 8.
Proof. intros L. pose proof (type_inv t L) as X. destruct (token_type Standard t) as [|[|[|[|[|[|[|[|[|n]]]]]]]]]; try lia; destruct X. Qed.
Lemma stops_0 l : (forall t, In t l -> lexed t) -> token_type Standard (hd TEof l) = 0 -> stops l.
Proof.
  intros L Z. destruct l as [|t l]; [exact I|]. cbn [hd] in Z. pose proof (type_inv t (L t (or_introl eq_refl))) as X. rewrite Z in X. destruct X as [->|(d & -> & X)]; [exact I|exact X].
Qed.

(** ** What is left of the nesting after a piece *)
Lemma nest_elems m d es r : braces_within m d (map tok es ++ r) -> braces_within m d r. Proof. induction es as [|[x|x] es IH]; cbn [map tok app braces_within]; auto. Qed.
Lemma nest_row m d (w : row) r : braces_within m d (braces "{" "}" (map tok (row_elems w)) ++ r) -> braces_within m d r.
Proof. unfold braces. cbn [app braces_within]. rewrite String.eqb_refl. intros (_ & X). rewrite <- app_assoc in X. apply nest_elems in X. exact X. Qed.
Lemma nest_rows m d l r : braces_within m d (flat_map (write_row "{" "}") l ++ r) -> braces_within m d r.
Proof. induction l as [|w l IH]; [auto|]. cbn [flat_map]. rewrite <- app_assoc. intros X. apply IH, (nest_row _ _ w), X. Qed.
Lemma nest_val m d v r : braces_within m d (write_val "{" "}" v ++ r) -> braces_within m d r.
Proof.
  destruct v as [e|w|w l]; cbn [write_val].
  - intros X. apply (nest_elems m d [e]). exact X.
  - apply nest_row.
  - unfold braces. cbn [app braces_within]. rewrite String.eqb_refl. intros (_ & X). rewrite <- app_assoc in X. apply nest_rows in X. exact X.
Qed.
Lemma nest_item m i : forall d r, braces_within m d (write i ++ r) -> braces_within m d r.
Proof.
  induction i as [n [c|] v|n o e|n i l II IL] using item_ind2; intros d r; cbn [write app braces_within String.eqb Ascii.eqb Bool.eqb].
  - apply nest_val.
  - apply nest_val.
  - intros X. apply (nest_elems m d [e]) in X. exact X.
  - unfold braces. cbn [app braces_within String.eqb Ascii.eqb Bool.eqb]. intros (_ & X). rewrite <- !app_assoc in X. apply II in X. revert X. cut (braces_within m (S d) ([TTerm "}"] ++ r) -> braces_within m d r); [|auto]. intros Z X. apply Z. clear Z II i n. revert X. induction IL as [|i l Hi _ IH]; [auto|]. cbn [flat_map]. rewrite <- app_assoc. intros X. apply IH, Hi, X.
Qed.

(** ** The table *)
Lemma std_prods : prods Standard = [(3, []); (10, [11; 23]); (11, [12; 19]); (12, [24; 1; 2; 13; 25]); (12, [24; 1; 2; 3; 26; 1; 4; 13; 25]); (12, [24; 1; 2; 3; 27; 1; 5; 14; 4; 25]);
  (12, [28; 1; 2; 17]); (13, [14]); (13, [15]); (13, [16]); (14, [29; 18]); (15, [6; 14; 20; 7]); (16, [6; 15; 21; 7]); (17, [6; 12; 22; 7]); (18, [1]); (18, [8]); (19, [12; 19]); (19, []);
  (20, [14; 20]); (20, [30]); (21, [15; 21]); (21, [31]); (22, [12; 22]); (22, [32]); (3, [])].
Proof. reflexivity. Qed.
Lemma std_bodies N body : In (N, body) (prods Standard) -> START_SYMBOL Standard <= N < START_ACTION Standard -> ~ In 0 body /\ ~ In (END_OF_SLK_INPUT Standard) body.
Proof. rewrite std_prods. intros I _. cbn [In] in I. decompose [or] I; try contradiction; match goal with Q : _ = _ |- _ => injection Q as <- <- end; cbn; intuition discriminate. Qed.
Lemma no_14 cf ts : pick_t Standard cf 14 0 ts = Ret None. Proof. destruct cf; reflexivity. Qed.
(** A block is chosen only if its brace is there. *)
Lemma block_ahead cf ts body : ts 0 = 2 -> ts 1 = 0 -> pick_t Standard cf 12 1 ts <> Ret (Some body).
Proof. intros A B. destruct cf as [|[|[|cf]]]; intros X; lazy in X; try discriminate X; rewrite A in X; lazy in X; try discriminate X; rewrite B in X; lazy in X; discriminate X. Qed.

(** ** The pieces *)
Section Pieces.
Context {E : Type} (H : string -> Z) (conv : string -> string -> option E) (text_of : value E -> option string) (vars : string -> option (list string)) (is_num : string -> bool)
        (eval : string -> string -> list (value E) -> option (value E)) (cf : nat).
Notation exe := (standard_execute H conv text_of vars is_num eval).
Notation bad := (bad Standard exe cf). Notation leads := (leads Standard exe cf). Notation S0 := (S0 Standard). Notation type := (token_type Standard).
Definition all_lexed (l : list token) : Prop := forall t, In t l -> lexed t.
Lemma lexed_app a b : all_lexed (a ++ b) -> all_lexed b. Proof. intros X t I. apply X, in_or_app. right. exact I. Qed.
Lemma lexed_tl t l : all_lexed (t :: l) -> all_lexed l. Proof. intros X x I. apply X. right. exact I. Qed.
(** A terminal that closes a piece is on the stack *)
Definition closes (sk : list nat) : Prop := (exists t, In t sk /\ 0 < t < 9) /\ ~ In 0 sk /\ ~ In 9 sk.
Lemma eof_bad l sk (u : cst E) : closes sk -> bad (mk l 9 sk u false true).
Proof.
  intros ((t & I & R) & Z & N) n s' X. refine (end_bad Standard exe cf SS _ t _ _ n l sk u true s' I Z std_bodies N X); cbn; lia.
Qed.
Lemma step_tm t l sk u : 0 < t < 9 -> bad (S0 l (t :: sk) u) \/ exists x l', l = x :: l' /\ type x = t /\ leads (S0 l (t :: sk) u) (S0 l' sk u).
Proof.
  intros R. destruct (tm_cases Standard exe cf SS t l (type (hd TEof l)) sk u false ltac:(cbn; lia)) as [B|(E0 & L)]; [left; exact B|]. right. destruct l as [|x l]; [cbn in E0; lia|]. exists x, l. split; [reflexivity|]. split; [exact E0|exact L].
Qed.
Lemma step_act a l sk u : 23 <= a -> bad (S0 l (a :: sk) u) \/ exists u', exe (a - 22) (hd TEof l) u = Ret (u', false) /\ leads (S0 l (a :: sk) u) (S0 l sk u').
Proof. intros R. exact (act_cases Standard exe cf SS a l _ sk u false R). Qed.
Lemma step_nt N l sk u : 10 <= N < 23 -> List.length sk <= 501 ->
  bad (S0 l (N :: sk) u) \/
  (exists body, pick_t Standard cf N (type (hd TEof l)) (ts_of Standard l) = Ret (Some body) /\ In (N, body) (prods Standard) /\ leads (S0 l (N :: sk) u) (S0 l (body ++ sk) u)) \/
  (type (hd TEof l) = 0 /\ leads (S0 l (N :: sk) u) (mk l 9 sk u false true)).
Proof.
  intros R L. destruct (nt_cases Standard exe cf SS N l (type (hd TEof l)) sk u false R) as [B|[(body & P & I & X)|X]]; [left; exact B| |right; right; exact X].
  right. left. exists body. rewrite pick_ts in P. split; [exact P|]. split; [exact I|]. rewrite (push_all_app (fun _ _ _ => Undef : out (cst E * bool))) in X; [exact X|].
  rewrite std_prods in I. assert (List.length body <= 10); [|lia]. cbn [In] in I. decompose [or] I; try contradiction; match goal with Q : _ = _ |- _ => injection Q as <- <- end; cbn; lia.
Qed.
(** A piece [wr x] is read, or the input ends before it. *)
Definition sees {X : Type} (wr : X -> list token) (N : nat) (l : list token) (sk : list nat) (u : cst E) : Prop :=
  bad (S0 l (N :: sk) u) \/ (exists x rest u', l = wr x ++ rest /\ leads (S0 l (N :: sk) u) (S0 rest sk u')) \/ (type (hd TEof l) = 0 /\ leads (S0 l (N :: sk) u) (mk l 9 sk u false true)).
Lemma sees_closed {X : Type} (wr : X -> list token) N l sk u : closes sk -> sees wr N l sk u ->
  bad (S0 l (N :: sk) u) \/ (exists x rest u', l = wr x ++ rest /\ leads (S0 l (N :: sk) u) (S0 rest sk u')).
Proof. intros C [B|[Y|(_ & Z)]]; [left; exact B|right; exact Y|]. left. exact (leads_bad _ _ _ _ _ Z (eof_bad l sk u C)). Qed.
Ltac body_of I := rewrite std_prods in I; cbn [In] in I; decompose [or] I; try contradiction; match goal with Q : (_, _) = (_, _) |- _ => try discriminate Q; (injection Q as <-) end; clear I.
(** An element *)
Lemma elem_sees l sk u : all_lexed l -> List.length sk <= 490 -> sees (fun e => [tok e]) 14 l sk u.
Proof.
  intros A L. destruct (step_nt 14 l sk u ltac:(lia) ltac:(lia)) as [B|[(body & P & I & X)|X]]; [left; exact B| |right; right; exact X]. body_of I. cbn [app] in X.
  assert (NZ : type (hd TEof l) <> 0) by (intros Q; rewrite Q, no_14 in P; discriminate).
  destruct (step_act 29 l (18 :: sk) u ltac:(lia)) as [B|(u' & _ & X2)]; [left; exact (leads_bad _ _ _ _ _ X B)|]. pose proof (leads_trans _ _ _ _ _ _ X X2) as Y. clear X X2.
  destruct (step_nt 18 l sk u' ltac:(lia) ltac:(lia)) as [B|[(body & _ & I & X)|(Q & _)]]; [left; exact (leads_bad _ _ _ _ _ Y B)| |contradiction]. pose proof (leads_trans _ _ _ _ _ _ Y X) as Y2. clear Y X. body_of I; cbn [app] in Y2.
  - destruct (step_tm 1 l sk u' ltac:(lia)) as [B|(x & l' & -> & T1 & X)]; [left; exact (leads_bad _ _ _ _ _ Y2 B)|]. pose proof (type_inv x (A x (or_introl eq_refl))) as D. rewrite T1 in D. destruct D as (d & ->).
    right. left. exists (Str d), l', u'. split; [reflexivity|]. exact (leads_trans _ _ _ _ _ _ Y2 X).
  - destruct (step_tm 8 l sk u' ltac:(lia)) as [B|(x & l' & -> & T1 & X)]; [left; exact (leads_bad _ _ _ _ _ Y2 B)|]. pose proof (type_inv x (A x (or_introl eq_refl))) as D. rewrite T1 in D. destruct D as (d & ->).
    right. left. exists (Num d), l', u'. split; [reflexivity|]. exact (leads_trans _ _ _ _ _ _ Y2 X).
Qed.
(** The elements of a row after the first *)
Lemma elems_see : forall n l sk u, List.length l <= n -> all_lexed l -> List.length sk <= 480 -> closes sk ->
  bad (S0 l (20 :: sk) u) \/ (exists es rest u', l = map tok es ++ rest /\ leads (S0 l (20 :: sk) u) (S0 rest sk u')).
Proof.
  induction n as [|n IH]; intros l sk u Ln A L C; (destruct (step_nt 20 l sk u ltac:(lia) ltac:(lia)) as [B|[(body & P & I & X)|(_ & X)]]; [left; exact B| |left; exact (leads_bad _ _ _ _ _ X (eof_bad l sk u C))]); body_of I; cbn [app] in X.
  - destruct l; [|cbn in Ln; lia]. assert (C2 : closes (20 :: sk)) by (destruct C as ((t & I & R) & Z & N9); split; [exists t; split; [right; exact I|exact R]|split; (intros [Q|Q]; [lia|contradiction])]).
    destruct (sees_closed _ _ _ _ _ C2 (elem_sees [] (20 :: sk) u A ltac:(cbn; lia))) as [B|(e & rest & u' & Q & _)]; [left; exact (leads_bad _ _ _ _ _ X B)|discriminate].
  - destruct (step_act 30 l sk u ltac:(lia)) as [B|(u' & _ & X2)]; [left; exact (leads_bad _ _ _ _ _ X B)|]. right. exists [], l, u'. split; [reflexivity|]. exact (leads_trans _ _ _ _ _ _ X X2).
  - assert (C2 : closes (20 :: sk)) by (destruct C as ((t & I & R) & Z & N9); split; [exists t; split; [right; exact I|exact R]|split; (intros [Q|Q]; [lia|contradiction])]).
    destruct (sees_closed _ _ _ _ _ C2 (elem_sees l (20 :: sk) u A ltac:(cbn; lia))) as [B|(e & rest & u' & -> & Y)]; [left; exact (leads_bad _ _ _ _ _ X B)|]. pose proof (leads_trans _ _ _ _ _ _ X Y) as XY.
    destruct (IH rest sk u' ltac:(cbn in Ln; lia) (lexed_app _ _ A) L C) as [B|(es & r2 & u2 & -> & Z)]; [left; exact (leads_bad _ _ _ _ _ XY B)|]. right. exists (e :: es), r2, u2. split; [reflexivity|]. exact (leads_trans _ _ _ _ _ _ XY Z).
  - destruct (step_act 30 l sk u ltac:(lia)) as [B|(u' & _ & X2)]; [left; exact (leads_bad _ _ _ _ _ X B)|]. right. exists [], l, u'. split; [reflexivity|]. exact (leads_trans _ _ _ _ _ _ X X2).
Qed.
Definition plain (sk : list nat) : Prop := ~ In 0 sk /\ ~ In 9 sk.
Lemma plain_cons x sk : x <> 0 -> x <> 9 -> plain sk -> plain (x :: sk). Proof. intros A B [C D]. split; (intros [Q|Q]; [congruence|contradiction]). Qed.
Lemma closes_here x sk : 0 < x < 9 -> plain sk -> closes (x :: sk).
Proof. intros R P. split; [exists x; split; [left; reflexivity|exact R]|]. apply plain_cons; [lia|lia|exact P]. Qed.
Lemma closes_cons x sk : x <> 0 -> x <> 9 -> closes sk -> closes (x :: sk).
Proof. intros A B ((t & I & R) & P). split; [exists t; split; [right; exact I|exact R]|]. apply plain_cons; assumption. Qed.
(** A terminal with the token it stands for *)
Lemma step_char t l sk u : all_lexed l -> 0 < t < 9 -> bad (S0 l (t :: sk) u) \/ exists x l', l = x :: l' /\ all_lexed l' /\ type x = t /\ leads (S0 l (t :: sk) u) (S0 l' sk u) /\
  match t with 1 => exists d, x = TStr d | 8 => exists d, x = TNum d | 2 => x = TTerm "=" | 3 => x = TTerm "(" | 4 => x = TTerm ")" | 5 => x = TTerm "|" | 6 => x = TTerm "{" | 7 => x = TTerm "}" | _ => False end.
Proof.
  intros A R. destruct (step_tm t l sk u R) as [B|(x & l' & -> & T1 & X)]; [left; exact B|]. right. exists x, l'. split; [reflexivity|]. split; [exact (lexed_tl _ _ A)|]. split; [exact T1|]. split; [exact X|].
  pose proof (type_inv x (A x (or_introl eq_refl))) as D. rewrite T1 in D. destruct t as [|[|[|[|[|[|[|[|[|n]]]]]]]]]; try exact D; lia.
Qed.
Lemma row_sees l sk u : all_lexed l -> List.length sk <= 470 -> plain sk -> sees (write_row "{" "}") 15 l sk u.
Proof.
  intros A L P. destruct (step_nt 15 l sk u ltac:(lia) ltac:(lia)) as [B|[(body & _ & I & X)|X]]; [left; exact B| |right; right; exact X]. body_of I. cbn [app] in X.
  destruct (step_char 6 l (14 :: 20 :: 7 :: sk) u A ltac:(lia)) as [B|(x & l1 & -> & A1 & _ & X2 & ->)]; [left; exact (leads_bad _ _ _ _ _ X B)|]. pose proof (leads_trans _ _ _ _ _ _ X X2) as Y. clear X X2.
  assert (C7 : closes (7 :: sk)) by (apply closes_here; [lia|exact P]). assert (C20 : closes (20 :: 7 :: sk)) by (apply closes_cons; [lia|lia|exact C7]).
  destruct (sees_closed _ _ _ _ _ C20 (elem_sees l1 (20 :: 7 :: sk) u A1 ltac:(cbn; lia))) as [B|(e & l2 & u2 & -> & X)]; [left; exact (leads_bad _ _ _ _ _ Y B)|]. pose proof (leads_trans _ _ _ _ _ _ Y X) as Y2. clear X Y.
  pose proof (lexed_app _ _ A1) as A2. destruct (elems_see _ l2 (7 :: sk) u2 (Nat.le_refl _) A2 ltac:(cbn; lia) C7) as [B|(es & l3 & u3 & -> & X)]; [left; exact (leads_bad _ _ _ _ _ Y2 B)|]. pose proof (leads_trans _ _ _ _ _ _ Y2 X) as Y3. clear X Y2.
  destruct (step_char 7 l3 sk u3 (lexed_app _ _ A2) ltac:(lia)) as [B|(x & l4 & -> & _ & _ & X & ->)]; [left; exact (leads_bad _ _ _ _ _ Y3 B)|].
  right. left. exists (e, es), l4, u3. split; [|exact (leads_trans _ _ _ _ _ _ Y3 X)]. unfold write_row, braces, row_elems. cbn [fst snd map app]. rewrite <- app_assoc. reflexivity.
Qed.
Lemma rows_see : forall n l sk u, List.length l <= n -> all_lexed l -> List.length sk <= 460 -> closes sk ->
  bad (S0 l (21 :: sk) u) \/ (exists ws rest u', l = flat_map (write_row "{" "}") ws ++ rest /\ leads (S0 l (21 :: sk) u) (S0 rest sk u')).
Proof.
  induction n as [|n IH]; intros l sk u Ln A L C; (destruct (step_nt 21 l sk u ltac:(lia) ltac:(lia)) as [B|[(body & P & I & X)|(_ & X)]]; [left; exact B| |left; exact (leads_bad _ _ _ _ _ X (eof_bad l sk u C))]); body_of I; cbn [app] in X;
  try (destruct (step_act 31 l sk u ltac:(lia)) as [B|(u' & _ & X2)]; [left; exact (leads_bad _ _ _ _ _ X B)|]; right; exists [], l, u'; split; [reflexivity|]; exact (leads_trans _ _ _ _ _ _ X X2)).
  all: assert (C2 : closes (21 :: sk)) by (apply closes_cons; [lia|lia|exact C]); destruct (sees_closed _ _ _ _ _ C2 (row_sees l (21 :: sk) u A ltac:(cbn; lia) (proj2 C2))) as [B|(w & rest & u' & -> & Y)]; [left; exact (leads_bad _ _ _ _ _ X B)|].
  - cbn in Ln. lia.
  - pose proof (leads_trans _ _ _ _ _ _ X Y) as XY. destruct (IH rest sk u' ltac:(unfold write_row, braces in Ln; cbn [app List.length] in Ln; rewrite app_length in Ln; lia) (lexed_app _ _ A) L C) as [B|(ws & r2 & u2 & -> & Z)]; [left; exact (leads_bad _ _ _ _ _ XY B)|].
    right. exists (w :: ws), r2, u2. split; [cbn [flat_map]; rewrite <- app_assoc; reflexivity|]. exact (leads_trans _ _ _ _ _ _ XY Z).
Qed.
(** A value; the end of the input in the place of one leaves the parser as it was *)
Lemma val_sees l sk u : all_lexed l -> List.length sk <= 450 -> plain sk -> sees (write_val "{" "}") 13 l sk u.
Proof.
  intros A L P. destruct (step_nt 13 l sk u ltac:(lia) ltac:(lia)) as [B|[(body & _ & I & X)|X]]; [left; exact B| |right; right; exact X]. body_of I; cbn [app] in X.
  - destruct (elem_sees l sk u A ltac:(lia)) as [B|[(e & rest & u' & -> & Y)|(Z & Y)]]; [left; exact (leads_bad _ _ _ _ _ X B)| |right; right; split; [exact Z|exact (leads_trans _ _ _ _ _ _ X Y)]].
    right. left. exists (Scalar e), rest, u'. split; [reflexivity|exact (leads_trans _ _ _ _ _ _ X Y)].
  - destruct (row_sees l sk u A ltac:(lia) P) as [B|[(w & rest & u' & -> & Y)|(Z & Y)]]; [left; exact (leads_bad _ _ _ _ _ X B)| |right; right; split; [exact Z|exact (leads_trans _ _ _ _ _ _ X Y)]].
    right. left. exists (Vector w), rest, u'. split; [reflexivity|exact (leads_trans _ _ _ _ _ _ X Y)].
  - destruct (step_nt 16 l sk u ltac:(lia) ltac:(lia)) as [B|[(body & _ & I & Y)|(Z & Y)]]; [left; exact (leads_bad _ _ _ _ _ X B)| |right; right; split; [exact Z|exact (leads_trans _ _ _ _ _ _ X Y)]]. pose proof (leads_trans _ _ _ _ _ _ X Y) as W. clear X Y. body_of I. cbn [app] in W.
    destruct (step_char 6 l (15 :: 21 :: 7 :: sk) u A ltac:(lia)) as [B|(x & l1 & -> & A1 & _ & X & ->)]; [left; exact (leads_bad _ _ _ _ _ W B)|]. pose proof (leads_trans _ _ _ _ _ _ W X) as Y. clear W X.
    assert (C7 : closes (7 :: sk)) by (apply closes_here; [lia|exact P]). assert (C21 : closes (21 :: 7 :: sk)) by (apply closes_cons; [lia|lia|exact C7]).
    destruct (sees_closed _ _ _ _ _ C21 (row_sees l1 (21 :: 7 :: sk) u A1 ltac:(cbn; lia) (proj2 C21))) as [B|(w & l2 & u2 & -> & X)]; [left; exact (leads_bad _ _ _ _ _ Y B)|]. pose proof (leads_trans _ _ _ _ _ _ Y X) as Y2. clear X Y.
    pose proof (lexed_app _ _ A1) as A2. destruct (rows_see _ l2 (7 :: sk) u2 (Nat.le_refl _) A2 ltac:(cbn; lia) C7) as [B|(ws & l3 & u3 & -> & X)]; [left; exact (leads_bad _ _ _ _ _ Y2 B)|]. pose proof (leads_trans _ _ _ _ _ _ Y2 X) as Y3. clear X Y2.
    destruct (step_char 7 l3 sk u3 (lexed_app _ _ A2) ltac:(lia)) as [B|(x & l4 & -> & _ & _ & X & ->)]; [left; exact (leads_bad _ _ _ _ _ Y3 B)|].
    right. left. exists (Matrix w ws), l4, u3. split; [|exact (leads_trans _ _ _ _ _ _ Y3 X)]. cbn [write_val]. unfold braces. cbn [flat_map app]. rewrite <- !app_assoc. reflexivity.
Qed.
(** ** The values being read *)
Lemma mem_must s (o : op (value E)) u' b : must H s o = Ret (u', b) -> memory u' = memory s.
Proof. unfold must. destruct (call H (database s) o) as [[c d]| |]; cbn [bind]; [|discriminate|discriminate]. intros Q. injection Q as <- _. reflexivity. Qed.
Lemma mem_keep a t u u' : In a [2; 4; 5; 6; 10] -> exe a t u = Ret (u', false) -> memory u' = memory u.
Proof.
  cbn [In]. intros I X. decompose [or] I; try contradiction; subst a; cbn [standard_execute nth] in X.
  - injection X as <-. reflexivity.
  - injection X as <-. reflexivity.
  - unfold get_expr_cast in X. destruct (path_up H _ _ _); cbn [bind] in X; [|discriminate|discriminate]. injection X as <-. reflexivity.
  - exact (mem_must _ _ _ _ X).
  - exact (mem_must _ _ _ _ X).
Qed.
Lemma mem_leaf t u u' : exe 3 t u = Ret (u', false) -> memory u' = None /\ memory u <> None.
Proof.
  cbn [standard_execute nth]. unfold add_leaf, create_value. destruct (memory u) as [m|]; [|discriminate]. intros X. split; [|discriminate]. destruct (_ =? List.length m); [|discriminate]. destruct (_ && _); [|discriminate].
  destruct (call H _ _) as [[[|] d]| |]; cbn [bind] in X; try discriminate. injection X as <-. reflexivity.
Qed.
Lemma no_value l sk u : memory u = None -> bad (mk l 9 (25 :: sk) u false true).
Proof. intros M. destruct (act_cases Standard exe cf SS 25 l 9 sk u true ltac:(cbn; lia)) as [B|(u' & X & _)]; [exact B|]. apply mem_leaf in X. destruct X; contradiction. Qed.
Lemma step_keep a l sk u : In a [24; 26; 27; 28; 32] -> bad (S0 l (a :: sk) u) \/ exists u', memory u' = memory u /\ leads (S0 l (a :: sk) u) (S0 l sk u').
Proof.
  intros I. destruct (step_act a l sk u) as [B|(u' & X & Y)]; [cbn [In] in I; lia|left; exact B|]. right. exists u'. split; [|exact Y]. refine (mem_keep (a - 22) _ _ _ _ X). cbn [In] in *. lia.
Qed.
(** A value and the action that ends a leaf *)
Lemma leaf_sees l sk u : all_lexed l -> List.length sk <= 449 -> plain sk -> memory u = None ->
  bad (S0 l (13 :: 25 :: sk) u) \/ exists v rest u', l = write_val "{" "}" v ++ rest /\ leads (S0 l (13 :: 25 :: sk) u) (S0 rest sk u') /\ memory u' = None.
Proof.
  intros A L P M. destruct (val_sees l (25 :: sk) u A ltac:(cbn; lia) (plain_cons 25 sk ltac:(lia) ltac:(lia) P)) as [B|[(v & rest & u2 & -> & X)|(_ & X)]]; [left; exact B| |left; exact (leads_bad _ _ _ _ _ X (no_value l sk u M))].
  destruct (step_act 25 rest sk u2 ltac:(lia)) as [B|(u' & Y & Z)]; [left; exact (leads_bad _ _ _ _ _ X B)|]. right. exists v, rest, u'. split; [reflexivity|]. split; [exact (leads_trans _ _ _ _ _ _ X Z)|]. exact (proj1 (mem_leaf _ _ _ Y)).
Qed.

(** ** Items *)
Definition item_goal (l : list token) : Prop := forall sk u d, all_lexed l -> braces_within 220 d l -> d <= 220 -> List.length sk <= 2 * d + 2 -> plain sk -> memory u = None ->
  bad (S0 l (12 :: sk) u) \/ (exists i rest u', l = write i ++ rest /\ leads (S0 l (12 :: sk) u) (S0 rest sk u') /\ memory u' = None) \/ (type (hd TEof l) = 0 /\ leads (S0 l (12 :: sk) u) (mk l 9 sk u false true)).
Lemma write_cons i : exists t l, write i = t :: l. Proof. destruct (write_head i) as (n & l & X). exists (TStr n), l. exact X. Qed.
(** The items of a block after the first, and the action at its end *)
Lemma items_see n : (forall l, List.length l <= n -> item_goal l) -> forall k l sk u d, List.length l <= k -> k <= n -> all_lexed l -> braces_within 220 d l -> d <= 220 -> List.length sk + 1 <= 2 * d + 2 -> closes sk -> memory u = None ->
  bad (S0 l (22 :: sk) u) \/ exists c rest u', l = flat_map write c ++ rest /\ leads (S0 l (22 :: sk) u) (S0 rest sk u') /\ memory u' = None.
Proof.
  intros G. induction k as [|k IH]; intros l sk u d Lk Kn A D Dm L C M;
  (destruct (step_nt 22 l sk u ltac:(lia) ltac:(lia)) as [B|[(body & _ & I & X)|(_ & X)]]; [left; exact B| |left; exact (leads_bad _ _ _ _ _ X (eof_bad l sk u C))]); body_of I; cbn [app] in X;
  try (destruct (step_keep 32 l sk u ltac:(cbn; auto 10)) as [B|(u' & M' & X2)]; [left; exact (leads_bad _ _ _ _ _ X B)|]; right; exists [], l, u'; split; [reflexivity|]; split; [exact (leads_trans _ _ _ _ _ _ X X2)|congruence]).
  all: assert (C2 : closes (22 :: sk)) by (apply closes_cons; [lia|lia|exact C]); destruct (G l ltac:(lia) (22 :: sk) u d A D Dm ltac:(cbn [List.length]; lia) (proj2 C2) M) as [B|[(i & rest & u' & -> & Y & M')|(_ & Y)]];
    [left; exact (leads_bad _ _ _ _ _ X B)| |left; exact (leads_bad _ _ _ _ _ X (leads_bad _ _ _ _ _ Y (eof_bad _ _ _ C2)))]; destruct (write_cons i) as (t & w & W).
  - rewrite W in Lk. cbn in Lk. lia.
  - pose proof (leads_trans _ _ _ _ _ _ X Y) as XY. destruct (IH rest sk u' d ltac:(rewrite W in Lk; cbn [app List.length] in Lk; rewrite app_length in Lk; lia) ltac:(lia) (lexed_app _ _ A) (nest_item _ _ _ _ D) Dm L C M') as [B|(c & r2 & u2 & -> & Z & M2)]; [left; exact (leads_bad _ _ _ _ _ XY B)|].
    right. exists (i :: c), r2, u2. split; [cbn [flat_map]; rewrite <- app_assoc; reflexivity|]. split; [exact (leads_trans _ _ _ _ _ _ XY Z)|exact M2].
Qed.
Lemma item_sees : forall n l, List.length l <= n -> item_goal l.
Proof.
  induction n as [|n IH]; intros l Ln sk u d A D Dm L P M; (destruct (step_nt 12 l sk u ltac:(lia) ltac:(lia)) as [B|[(body & PK & I & X)|X]]; [left; exact B| |right; right; exact X]).
  { destruct l; [|cbn in Ln; lia]. exfalso. clear -PK. change (type (hd TEof [])) with 0 in PK. destruct cf as [|[|k]]; lazy in PK; discriminate. }
  body_of I; cbn [app] in X.
  - destruct (step_keep 24 l (1 :: 2 :: 13 :: 25 :: sk) u ltac:(cbn; auto 10)) as [B|(u1 & M1 & X2)]; [left; exact (leads_bad _ _ _ _ _ X B)|]. pose proof (leads_trans _ _ _ _ _ _ X X2) as Y. clear X X2.
    destruct (step_char 1 l (2 :: 13 :: 25 :: sk) u1 A ltac:(lia)) as [B|(x & l1 & -> & A1 & _ & X & (nm & ->))]; [left; exact (leads_bad _ _ _ _ _ Y B)|]. pose proof (leads_trans _ _ _ _ _ _ Y X) as Y1. clear X Y.
    destruct (step_char 2 l1 (13 :: 25 :: sk) u1 A1 ltac:(lia)) as [B|(x & l2 & -> & A2 & _ & X & ->)]; [left; exact (leads_bad _ _ _ _ _ Y1 B)|]. pose proof (leads_trans _ _ _ _ _ _ Y1 X) as Y2. clear X Y1.
    destruct (leaf_sees l2 sk u1 A2 ltac:(lia) P ltac:(congruence)) as [B|(v & rest & u2 & -> & X & M2)]; [left; exact (leads_bad _ _ _ _ _ Y2 B)|].
    right. left. exists (Leaf nm None v), rest, u2. split; [reflexivity|]. split; [exact (leads_trans _ _ _ _ _ _ Y2 X)|exact M2].
  - destruct (step_keep 24 l (1 :: 2 :: 3 :: 26 :: 1 :: 4 :: 13 :: 25 :: sk) u ltac:(cbn; auto 10)) as [B|(u1 & M1 & X2)]; [left; exact (leads_bad _ _ _ _ _ X B)|]. pose proof (leads_trans _ _ _ _ _ _ X X2) as Y. clear X X2.
    destruct (step_char 1 l (2 :: 3 :: 26 :: 1 :: 4 :: 13 :: 25 :: sk) u1 A ltac:(lia)) as [B|(x & l1 & -> & A1 & _ & X & (nm & ->))]; [left; exact (leads_bad _ _ _ _ _ Y B)|]. pose proof (leads_trans _ _ _ _ _ _ Y X) as Y1. clear X Y.
    destruct (step_char 2 l1 (3 :: 26 :: 1 :: 4 :: 13 :: 25 :: sk) u1 A1 ltac:(lia)) as [B|(x & l2 & -> & A2 & _ & X & ->)]; [left; exact (leads_bad _ _ _ _ _ Y1 B)|]. pose proof (leads_trans _ _ _ _ _ _ Y1 X) as Y2. clear X Y1.
    destruct (step_char 3 l2 (26 :: 1 :: 4 :: 13 :: 25 :: sk) u1 A2 ltac:(lia)) as [B|(x & l3 & -> & A3 & _ & X & ->)]; [left; exact (leads_bad _ _ _ _ _ Y2 B)|]. pose proof (leads_trans _ _ _ _ _ _ Y2 X) as Y3. clear X Y2.
    destruct (step_keep 26 l3 (1 :: 4 :: 13 :: 25 :: sk) u1 ltac:(cbn; auto 10)) as [B|(u2 & M2 & X)]; [left; exact (leads_bad _ _ _ _ _ Y3 B)|]. pose proof (leads_trans _ _ _ _ _ _ Y3 X) as Y4. clear X Y3.
    destruct (step_char 1 l3 (4 :: 13 :: 25 :: sk) u2 A3 ltac:(lia)) as [B|(x & l4 & -> & A4 & _ & X & (ct & ->))]; [left; exact (leads_bad _ _ _ _ _ Y4 B)|]. pose proof (leads_trans _ _ _ _ _ _ Y4 X) as Y5. clear X Y4.
    destruct (step_char 4 l4 (13 :: 25 :: sk) u2 A4 ltac:(lia)) as [B|(x & l5 & -> & A5 & _ & X & ->)]; [left; exact (leads_bad _ _ _ _ _ Y5 B)|]. pose proof (leads_trans _ _ _ _ _ _ Y5 X) as Y6. clear X Y5.
    destruct (leaf_sees l5 sk u2 A5 ltac:(lia) P ltac:(congruence)) as [B|(v & rest & u3 & -> & X & M3)]; [left; exact (leads_bad _ _ _ _ _ Y6 B)|].
    right. left. exists (Leaf nm (Some ct) v), rest, u3. split; [reflexivity|]. split; [exact (leads_trans _ _ _ _ _ _ Y6 X)|exact M3].
  - destruct (step_keep 24 l (1 :: 2 :: 3 :: 27 :: 1 :: 5 :: 14 :: 4 :: 25 :: sk) u ltac:(cbn; auto 10)) as [B|(u1 & M1 & X2)]; [left; exact (leads_bad _ _ _ _ _ X B)|]. pose proof (leads_trans _ _ _ _ _ _ X X2) as Y. clear X X2.
    destruct (step_char 1 l (2 :: 3 :: 27 :: 1 :: 5 :: 14 :: 4 :: 25 :: sk) u1 A ltac:(lia)) as [B|(x & l1 & -> & A1 & _ & X & (nm & ->))]; [left; exact (leads_bad _ _ _ _ _ Y B)|]. pose proof (leads_trans _ _ _ _ _ _ Y X) as Y1. clear X Y.
    destruct (step_char 2 l1 (3 :: 27 :: 1 :: 5 :: 14 :: 4 :: 25 :: sk) u1 A1 ltac:(lia)) as [B|(x & l2 & -> & A2 & _ & X & ->)]; [left; exact (leads_bad _ _ _ _ _ Y1 B)|]. pose proof (leads_trans _ _ _ _ _ _ Y1 X) as Y2. clear X Y1.
    destruct (step_char 3 l2 (27 :: 1 :: 5 :: 14 :: 4 :: 25 :: sk) u1 A2 ltac:(lia)) as [B|(x & l3 & -> & A3 & _ & X & ->)]; [left; exact (leads_bad _ _ _ _ _ Y2 B)|]. pose proof (leads_trans _ _ _ _ _ _ Y2 X) as Y3. clear X Y2.
    destruct (step_keep 27 l3 (1 :: 5 :: 14 :: 4 :: 25 :: sk) u1 ltac:(cbn; auto 10)) as [B|(u2 & M2 & X)]; [left; exact (leads_bad _ _ _ _ _ Y3 B)|]. pose proof (leads_trans _ _ _ _ _ _ Y3 X) as Y4. clear X Y3.
    destruct (step_char 1 l3 (5 :: 14 :: 4 :: 25 :: sk) u2 A3 ltac:(lia)) as [B|(x & l4 & -> & A4 & _ & X & (ct & ->))]; [left; exact (leads_bad _ _ _ _ _ Y4 B)|]. pose proof (leads_trans _ _ _ _ _ _ Y4 X) as Y5. clear X Y4.
    destruct (step_char 5 l4 (14 :: 4 :: 25 :: sk) u2 A4 ltac:(lia)) as [B|(x & l5 & -> & A5 & _ & X & ->)]; [left; exact (leads_bad _ _ _ _ _ Y5 B)|]. pose proof (leads_trans _ _ _ _ _ _ Y5 X) as Y6. clear X Y5.
    assert (C4 : closes (4 :: 25 :: sk)) by (apply closes_here; [lia|apply plain_cons; [lia|lia|exact P]]).
    destruct (sees_closed _ _ _ _ _ C4 (elem_sees l5 (4 :: 25 :: sk) u2 A5 ltac:(cbn; lia))) as [B|(e & l6 & u3 & -> & X)]; [left; exact (leads_bad _ _ _ _ _ Y6 B)|]. pose proof (leads_trans _ _ _ _ _ _ Y6 X) as Y7. clear X Y6. pose proof (lexed_app _ _ A5) as A6.
    destruct (step_char 4 l6 (25 :: sk) u3 A6 ltac:(lia)) as [B|(x & l7 & -> & A7 & _ & X & ->)]; [left; exact (leads_bad _ _ _ _ _ Y7 B)|]. pose proof (leads_trans _ _ _ _ _ _ Y7 X) as Y8. clear X Y7.
    destruct (step_act 25 l7 sk u3 ltac:(lia)) as [B|(u4 & Z & X)]; [left; exact (leads_bad _ _ _ _ _ Y8 B)|].
    right. left. exists (Expr nm ct e), l7, u4. split; [reflexivity|]. split; [exact (leads_trans _ _ _ _ _ _ Y8 X)|exact (proj1 (mem_leaf _ _ _ Z))].
  - destruct (step_keep 28 l (1 :: 2 :: 17 :: sk) u ltac:(cbn; auto 10)) as [B|(u1 & M1 & X2)]; [left; exact (leads_bad _ _ _ _ _ X B)|]. pose proof (leads_trans _ _ _ _ _ _ X X2) as Y. clear X X2.
    destruct (step_char 1 l (2 :: 17 :: sk) u1 A ltac:(lia)) as [B|(x & l1 & -> & A1 & _ & X & (nm & ->))]; [left; exact (leads_bad _ _ _ _ _ Y B)|]. pose proof (leads_trans _ _ _ _ _ _ Y X) as Y1. clear X Y.
    destruct (step_char 2 l1 (17 :: sk) u1 A1 ltac:(lia)) as [B|(x & l2 & -> & A2 & _ & X & ->)]; [left; exact (leads_bad _ _ _ _ _ Y1 B)|]. pose proof (leads_trans _ _ _ _ _ _ Y1 X) as Y2. clear X Y1.
    destruct (step_nt 17 l2 sk u1 ltac:(lia) ltac:(lia)) as [B|[(body & _ & I & X)|(Z & _)]]; [left; exact (leads_bad _ _ _ _ _ Y2 B)| |exfalso; refine (block_ahead cf _ _ _ _ PK); [reflexivity|destruct l2; exact Z]].
    body_of I. cbn [app] in X. pose proof (leads_trans _ _ _ _ _ _ Y2 X) as Y3. clear X Y2.
    destruct (step_char 6 l2 (12 :: 22 :: 7 :: sk) u1 A2 ltac:(lia)) as [B|(x & l3 & -> & A3 & _ & X & ->)]; [left; exact (leads_bad _ _ _ _ _ Y3 B)|]. pose proof (leads_trans _ _ _ _ _ _ Y3 X) as Y4. clear X Y3.
    cbn [braces_within String.eqb Ascii.eqb Bool.eqb] in D. destruct D as (Dm2 & D). cbn [List.length] in Ln.
    assert (C7 : closes (7 :: sk)) by (apply closes_here; [lia|exact P]). assert (C22 : closes (22 :: 7 :: sk)) by (apply closes_cons; [lia|lia|exact C7]).
    destruct (IH l3 ltac:(lia) (22 :: 7 :: sk) u1 (S d) A3 D ltac:(lia) ltac:(cbn [List.length]; lia) (proj2 C22) ltac:(congruence)) as [B|[(i & l4 & u2 & -> & X & M2)|(_ & X)]];
      [left; exact (leads_bad _ _ _ _ _ Y4 B)| |left; exact (leads_bad _ _ _ _ _ Y4 (leads_bad _ _ _ _ _ X (eof_bad _ _ _ C22)))]. pose proof (leads_trans _ _ _ _ _ _ Y4 X) as Y5. clear X Y4. pose proof (lexed_app _ _ A3) as A4. apply nest_item in D. rewrite app_length in Ln.
    destruct (items_see n IH _ l4 (7 :: sk) u2 (S d) (Nat.le_refl _) ltac:(lia) A4 D ltac:(lia) ltac:(cbn [List.length]; lia) C7 M2) as [B|(c & l5 & u3 & -> & X & M3)]; [left; exact (leads_bad _ _ _ _ _ Y5 B)|]. pose proof (leads_trans _ _ _ _ _ _ Y5 X) as Y6. clear X Y5.
    destruct (step_char 7 l5 sk u3 (lexed_app _ _ A4) ltac:(lia)) as [B|(x & l6 & -> & A6 & _ & X & ->)]; [left; exact (leads_bad _ _ _ _ _ Y6 B)|].
    right. left. exists (Block nm i c), l6, u3. split; [cbn [write]; unfold braces; cbn [app]; rewrite <- !app_assoc; reflexivity|]. split; [exact (leads_trans _ _ _ _ _ _ Y6 X)|exact M3].
Qed.

(** ** The whole input *)
Definition ends (l : list token) (s : st (cst E)) : Prop := forall n s', loop Standard exe n cf s = Ret s' -> err s' = true \/ ty s' <> 9 \/ exists config rest, l = flat_map write config ++ rest /\ stops rest.
Lemma ends_bad l s : bad s -> ends l s. Proof. intros B n s' X. left. exact (B n s' X). Qed.
Lemma ends_leads l s s' : leads s s' -> ends l s' -> ends l s. Proof. intros L X n r Y. destruct (L n r Y) as (m & Z). exact (X m r Z). Qed.
Lemma ends_here l s : all_lexed l -> type (hd TEof l) = 0 -> ends l s. Proof. intros A Z n s' _. right. right. exists [], l. split; [reflexivity|exact (stops_0 l A Z)]. Qed.
Lemma plain_end : plain [19; 23]. Proof. split; cbn; intuition discriminate. Qed.
Lemma ends_item l i rest s : l = write i ++ rest -> ends rest s -> ends l s.
Proof. intros -> X n s' Y. destruct (X n s' Y) as [Q|[Q|(c & r & -> & Q)]]; [left; exact Q|right; left; exact Q|]. right. right. exists (i :: c), r. split; [cbn [flat_map]; apply app_assoc|exact Q]. Qed.
Lemma ends_empty l u : all_lexed l -> ends l (S0 l [] u).
Proof.
  intros A k s' Q. right. left. assert (T1 : type (hd TEof l) <= 8) by (apply type_le; destruct l as [|t l]; [exact Logic.I|exact (A t (or_introl eq_refl))]).
  unfold S0 in Q. destruct k; cbn [loop stk] in Q; injection Q as <-; cbn [ty]; lia.
Qed.
Lemma tail_ends : forall n l u, List.length l <= n -> all_lexed l -> braces_within 220 0 l -> memory u = None -> ends l (S0 l [19; 23] u).
Proof.
  induction n as [|n IH]; intros l u Ln A D M;
  (destruct (step_nt 19 l [23] u ltac:(lia) ltac:(cbn; lia)) as [B|[(body & _ & I & X)|(Z & X)]]; [exact (ends_bad _ _ B)| |exact (ends_here _ _ A Z)]); apply (ends_leads _ _ _ X); body_of I; cbn [app];
  try (destruct (step_act 23 l [] u ltac:(lia)) as [B|(u' & _ & Y)]; [exact (ends_bad _ _ B)|]; apply (ends_leads _ _ _ Y); exact (ends_empty l u' A)).
  all: destruct (item_sees _ l (Nat.le_refl _) [19; 23] u 0 A D ltac:(lia) ltac:(cbn; lia) plain_end M) as [B|[(i & rest & u' & Q & Y & M')|(Z & _)]]; [exact (ends_bad _ _ B)| |exact (ends_here _ _ A Z)]; apply (ends_leads _ _ _ Y), (ends_item l i rest _ Q); destruct (write_cons i) as (t & w & W); subst l.
  - rewrite W in Ln. cbn in Ln. lia.
  - apply IH; [rewrite W in Ln; cbn [app List.length] in Ln; rewrite app_length in Ln; lia|exact (lexed_app _ _ A)|exact (nest_item _ _ _ _ D)|exact M'].
Qed.
Lemma start_ends l u : all_lexed l -> braces_within 220 0 l -> memory u = None -> ends l (S0 l [10] u).
Proof.
  intros A D M. destruct (step_nt 10 l [] u ltac:(lia) ltac:(cbn; lia)) as [B|[(body & _ & I & X)|(Z & X)]]; [exact (ends_bad _ _ B)| |exact (ends_here _ _ A Z)]. apply (ends_leads _ _ _ X). body_of I. cbn [app].
  destruct (step_nt 11 l [23] u ltac:(lia) ltac:(cbn; lia)) as [B|[(body & _ & I & Y)|(Z & _)]]; [exact (ends_bad _ _ B)| |exact (ends_here _ _ A Z)]. apply (ends_leads _ _ _ Y). body_of I. cbn [app].
  destruct (item_sees _ l (Nat.le_refl _) [19; 23] u 0 A D ltac:(lia) ltac:(cbn; lia) plain_end M) as [B|[(i & rest & u' & Q & W & M')|(Z & _)]]; [exact (ends_bad _ _ B)| |exact (ends_here _ _ A Z)]. apply (ends_leads _ _ _ W), (ends_item l i rest _ Q). subst l.
  exact (tail_ends _ rest u' (Nat.le_refl _) (lexed_app _ _ A) (nest_item _ _ _ _ D) M').
Qed.
Lemma parse_sound l u rounds fuel u' : all_lexed l -> braces_within 220 0 l -> memory u = None -> parse Standard exe rounds fuel cf l u = Ret (true, u') -> exists config rest, l = flat_map write config ++ rest /\ stops rest.
Proof.
  intros A D M. unfold parse. destruct rounds as [|r]; [discriminate|]. cbn [parses err eof orb inp usr]. unfold current. cbn [inp]. change (push (START_SYMBOL Standard) []) with [10].
  destruct (loop Standard exe fuel cf (mk l (type (hd TEof l)) [10] u false false)) as [s| |] eqn:X; [|discriminate|discriminate]. cbn [bind]. change (END_OF_SLK_INPUT Standard) with 9.
  assert (F : forall s', err s' = true -> bind (parses Standard exe r fuel cf s') (fun s => Ret (negb (err s), usr s)) <> Ret (true, u')) by (intros s' Q; destruct r; cbn [parses]; rewrite Q; cbn [orb bind]; rewrite Q; discriminate).
  destruct (start_ends l u A D M fuel s X) as [Q|[Q|Q]]; [| |intros _; exact Q].
  - intros Z. exfalso. refine (F _ _ Z). destruct (ty s =? 9); [exact Q|reflexivity].
  - intros Z. exfalso. refine (F _ _ Z). rewrite (proj2 (Nat.eqb_neq (ty s) 9) Q). reflexivity.
Qed.
End Pieces.
