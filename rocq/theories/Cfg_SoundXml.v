(** C44: what the XML parser has read when the parse returns true. *)
From Coq Require Import String Ascii.
From Verif Require Import Base Paths ConfigDB_Model Slk_Model Slk_Proofs Slk_Sound Cfg_Model Cfg_Spec Cfg_Standard Cfg_Xml.
Open Scope string_scope. Open Scope nat_scope. Open Scope list_scope.

Lemma xterm_type d : String.length d = 1 -> token_type Xml (TTerm d) =
  if String.eqb d "}" then 8 else if String.eqb d "{" then 7 else if String.eqb d ")" then 6 else if String.eqb d "(" then 5 else if String.eqb d "/" then 4 else if String.eqb d ">" then 3 else if String.eqb d "<" then 1 else 0.
Proof. intros L. destruct d as [|c [|x d]]; [discriminate| |discriminate]. destruct c as [[|] [|] [|] [|] [|] [|] [|] [|]]; reflexivity. Qed.
Definition xtoken (k : nat) (t : token) : Prop :=
  match k with
  | 0 => t = TEof \/ exists d, t = TTerm d /\ ~ In d ["<"; ">"; "/"; "("; ")"; "{"; "}"]
  | 1 => t = TTerm "<" | 2 => exists d, t = TStr d | 3 => t = TTerm ">" | 4 => t = TTerm "/" | 5 => t = TTerm "(" | 6 => t = TTerm ")" | 7 => t = TTerm "{" | 8 => t = TTerm "}" | 9 => exists d, t = TNum d
  | _ => False
  end.
Lemma xtype_inv t : lexed t -> xtoken (token_type Xml t) t.
Proof.
  destruct t as [|d|d|d]; intros L.
  - left. reflexivity.
  - exists d. reflexivity.
  - exists d. reflexivity.
  - rewrite xterm_type by exact L. repeat (match goal with |- context [String.eqb d ?x] => destruct (String.eqb_spec d x) end; [subst; reflexivity|]).
    right. exists d. split; [reflexivity|]. cbn [In]. intros I. decompose [or] I; congruence.
Qed.
Lemma xtype_le t : lexed t -> token_type Xml t <= 9.
Proof. intros L. pose proof (xtype_inv t L) as X. destruct (token_type Xml t) as [|[|[|[|[|[|[|[|[|[|n]]]]]]]]]]; try lia; destruct X. Qed.
Lemma xstops_0 l : (forall t, In t l -> lexed t) -> token_type Xml (hd TEof l) = 0 -> xml_stops l.
Proof.
  intros L Z. destruct l as [|t l]; [exact I|]. cbn [hd] in Z. pose proof (xtype_inv t (L t (or_introl eq_refl))) as X. rewrite Z in X. destruct X as [->|(d & -> & X)]; [exact I|exact X].
Qed.

(** ** What is left of the open tags after a piece *)
Definition quiet_tokens (l : list token) : Prop := forall t, In t l -> match t with TTerm c => String.eqb c "<" = false | _ => True end.
Lemma tw_quiet m d l r : quiet_tokens l -> tags_within m d (l ++ r) -> tags_within m d r.
Proof.
  induction l as [|t l IH]; intros Q; [auto|]. cbn [app tags_within]. pose proof (Q t (or_introl eq_refl)) as Qt. assert (Ql : quiet_tokens l) by (intros x I; apply Q; right; exact I). destruct t as [|x|x|x]; try exact (IH Ql). rewrite Qt. exact (IH Ql).
Qed.
Lemma quiet_elems es : quiet_tokens (map tok es). Proof. intros t I. apply in_map_iff in I. destruct I as ([x|x] & <- & _); exact Logic.I. Qed.
Lemma quiet_row w : quiet_tokens (write_row "{" "}" w).
Proof. intros t [<-|I]; [reflexivity|]. apply in_app_or in I. destruct I as [I|[<-|[]]]; [exact (quiet_elems _ t I)|reflexivity]. Qed.
Lemma quiet_val v : quiet_tokens (write_val "{" "}" v).
Proof.
  destruct v as [e|w|w l]; [exact (quiet_elems [e])|exact (quiet_row w)|]. intros t [<-|I]; [reflexivity|]. apply in_app_or in I. destruct I as [I|[<-|[]]]; [|reflexivity]. apply in_flat_map in I. destruct I as (x & _ & I). exact (quiet_row x t I).
Qed.
Lemma tw_tags m d n l n' r : (forall r, tags_within m (S d) (l ++ r) -> tags_within m (S d) r) -> tags_within m d (tags n l n' ++ r) -> tags_within m d r.
Proof.
  intros G. unfold tags. cbn [app tags_within String.eqb Ascii.eqb Bool.eqb]. intros (_ & X). rewrite <- app_assoc in X. apply G in X. cbn [app tags_within String.eqb Ascii.eqb Bool.eqb pred] in X. exact X.
Qed.
Lemma tw_item m i : forall d r, tags_within m d (write_xml i ++ r) -> tags_within m d r.
Proof.
  induction i as [n [c|] v n'|n i l n' II IL] using xitem_ind2; intros d r; cbn [write_xml]; apply tw_tags; clear r; intros r.
  - cbn [app tags_within String.eqb Ascii.eqb Bool.eqb]. apply tw_quiet, quiet_val.
  - apply tw_quiet, quiet_val.
  - rewrite <- app_assoc. intros X. apply II in X. revert X. clear II. induction IL as [|j l Hj _ IH]; [auto|]. cbn [flat_map]. rewrite <- app_assoc. intros X. apply IH, Hj, X.
Qed.

(** ** The table *)
Lemma xml_prods : prods Xml = [(3, []); (11, [12; 24]); (12, [13; 20]); (13, [1; 25; 2; 3; 14; 1; 4; 2; 3; 26]); (13, [1; 25; 2; 3; 5; 27; 2; 6; 14; 1; 4; 2; 3; 26]); (13, [1; 28; 2; 3; 18; 1; 4; 2; 3]);
  (14, [15]); (14, [16]); (14, [17]); (15, [29; 19]); (16, [7; 15; 21; 8]); (17, [7; 16; 22; 8]); (18, [13; 23]); (19, [2]); (19, [9]); (20, [13; 20]); (20, []);
  (21, [15; 21]); (21, [30]); (22, [16; 22]); (22, [31]); (23, [13; 23]); (23, [32]); (3, [])].
Proof. reflexivity. Qed.
Lemma xml_bodies N body : In (N, body) (prods Xml) -> START_SYMBOL Xml <= N < START_ACTION Xml -> ~ In 0 body /\ ~ In (END_OF_SLK_INPUT Xml) body.
Proof. rewrite xml_prods. intros I _. cbn [In] in I. decompose [or] I; try contradiction; match goal with Q : _ = _ |- _ => injection Q as <- <- end; cbn; intuition discriminate. Qed.

Section Pieces.
Context {E : Type} (H : string -> Z) (conv : string -> string -> option E) (text_of : value E -> option string) (vars : string -> option (list string)) (is_num : string -> bool)
        (eval : string -> string -> list (value E) -> option (value E)) (cf : nat).
Notation exe := (xml_execute H conv text_of vars is_num eval).
Notation bad := (bad Xml exe cf). Notation leads := (leads Xml exe cf). Notation S0 := (S0 Xml). Notation type := (token_type Xml).
Definition all_lexed (l : list token) : Prop := forall t, In t l -> lexed t.
Lemma lexed_app a b : all_lexed (a ++ b) -> all_lexed b. Proof. intros X t I. apply X, in_or_app. right. exact I. Qed.
Lemma lexed_tl t l : all_lexed (t :: l) -> all_lexed l. Proof. intros X x I. apply X. right. exact I. Qed.
Definition closes (sk : list nat) : Prop := (exists t, In t sk /\ 0 < t < 10) /\ ~ In 0 sk /\ ~ In 10 sk.
Definition plain (sk : list nat) : Prop := ~ In 0 sk /\ ~ In 10 sk.
Lemma plain_cons x sk : x <> 0 -> x <> 10 -> plain sk -> plain (x :: sk). Proof. intros A B [C D]. split; (intros [Q|Q]; [congruence|contradiction]). Qed.
Lemma closes_here x sk : 0 < x < 10 -> plain sk -> closes (x :: sk).
Proof. intros R P. split; [exists x; split; [left; reflexivity|exact R]|]. apply plain_cons; [lia|lia|exact P]. Qed.
Lemma closes_cons x sk : x <> 0 -> x <> 10 -> closes sk -> closes (x :: sk).
Proof. intros A B ((t & I & R) & P). split; [exists t; split; [right; exact I|exact R]|]. apply plain_cons; assumption. Qed.
Lemma eof_bad l sk (u : cst E) : closes sk -> bad (mk l 10 sk u false true).
Proof. intros ((t & I & R) & Z & N) n s' X. refine (end_bad Xml exe cf XS _ t _ _ n l sk u true s' I Z xml_bodies N X); cbn; lia. Qed.
Lemma step_char t l sk u : all_lexed l -> 0 < t < 10 -> bad (S0 l (t :: sk) u) \/ exists x l', l = x :: l' /\ all_lexed l' /\ leads (S0 l (t :: sk) u) (S0 l' sk u) /\ xtoken t x.
Proof.
  intros A R. destruct (tm_cases Xml exe cf XS t l (type (hd TEof l)) sk u false ltac:(cbn; lia)) as [B|(E0 & L)]; [left; exact B|]. right. destruct l as [|x l]; [cbn in E0; lia|]. exists x, l. split; [reflexivity|]. split; [exact (lexed_tl _ _ A)|]. split; [exact L|].
  cbn [hd] in E0. rewrite <- E0. apply xtype_inv, A. left. reflexivity.
Qed.
Lemma step_act a l sk u : 24 <= a -> bad (S0 l (a :: sk) u) \/ exists u', leads (S0 l (a :: sk) u) (S0 l sk u').
Proof. intros R. destruct (act_cases Xml exe cf XS a l (type (hd TEof l)) sk u false R) as [B|(u' & _ & X)]; [left; exact B|right; exists u'; exact X]. Qed.
Lemma step_nt N l sk u : 11 <= N < 24 -> List.length sk <= 497 ->
  bad (S0 l (N :: sk) u) \/ (exists body, In (N, body) (prods Xml) /\ leads (S0 l (N :: sk) u) (S0 l (body ++ sk) u)) \/ (type (hd TEof l) = 0 /\ leads (S0 l (N :: sk) u) (mk l 10 sk u false true)).
Proof.
  intros R L. destruct (nt_cases Xml exe cf XS N l (type (hd TEof l)) sk u false R) as [B|[(body & P & I & X)|X]]; [left; exact B| |right; right; exact X].
  right. left. exists body. split; [exact I|]. rewrite (push_all_app (fun _ _ _ => Undef : out (cst E * bool))) in X; [exact X|].
  rewrite xml_prods in I. assert (List.length body <= 14); [|lia]. cbn [In] in I. decompose [or] I; try contradiction; match goal with Q : _ = _ |- _ => injection Q as <- <- end; cbn; lia.
Qed.
(** Inside a piece that is closed by a terminal *)
Lemma step_in N l sk u : 11 <= N < 24 -> List.length sk <= 497 -> closes sk -> bad (S0 l (N :: sk) u) \/ (exists body, In (N, body) (prods Xml) /\ leads (S0 l (N :: sk) u) (S0 l (body ++ sk) u)).
Proof. intros R L C. destruct (step_nt N l sk u R L) as [B|[X|(_ & X)]]; [left; exact B|right; exact X|left; exact (leads_bad _ _ _ _ _ X (eof_bad l sk u C))]. Qed.
Definition reads {X : Type} (wr : X -> list token) (N : nat) (l : list token) (sk : list nat) (u : cst E) : Prop :=
  bad (S0 l (N :: sk) u) \/ (exists x rest u', l = wr x ++ rest /\ leads (S0 l (N :: sk) u) (S0 rest sk u')).
Ltac body_of I := rewrite xml_prods in I; cbn [In] in I; decompose [or] I; try contradiction; match goal with Q : (_, _) = (_, _) |- _ => try discriminate Q; (injection Q as <-) end; clear I.
(** The next step of the run [Y] *)
Ltac link Y X := let Z := fresh "Y" in pose proof (leads_trans _ _ _ _ _ _ Y X) as Z; clear X Y; rename Z into Y.
Ltac nt := match goal with Y : Slk_Sound.leads _ _ _ ?s (Slk_Proofs.S0 _ ?l (?N :: ?sk) ?u), C : closes ?sk |- _ => let B := fresh in let X := fresh in let I := fresh in let b := fresh in
  destruct (step_in N l sk u ltac:(lia) ltac:(cbn [List.length] in *; lia) C) as [B|(b & I & X)]; [left; exact (leads_bad _ _ _ _ _ Y B)|]; link Y X; body_of I; cbn [app] in * |- end.
Ltac act := match goal with Y : Slk_Sound.leads _ _ _ ?s (Slk_Proofs.S0 _ ?l (?N :: ?sk) ?u) |- _ => let B := fresh in let X := fresh in let v := fresh "u" in
  destruct (step_act N l sk u ltac:(lia)) as [B|(v & X)]; [left; exact (leads_bad _ _ _ _ _ Y B)|]; link Y X end.
Ltac chr := match goal with Y : Slk_Sound.leads _ _ _ ?s (Slk_Proofs.S0 _ ?l (?t :: ?sk) ?u), A : all_lexed ?l |- _ => let B := fresh in let X := fresh in let D := fresh in let A1 := fresh "A" in let l1 := fresh "l" in let x := fresh "x" in
  destruct (step_char t l sk u A ltac:(lia)) as [B|(x & l1 & -> & A1 & X & D)]; [left; exact (leads_bad _ _ _ _ _ Y B)|]; link Y X; cbn [xtoken] in D; first [subst x|destruct D as [? ->]] end.
Ltac piece R := match goal with Y : Slk_Sound.leads _ _ _ ?s (Slk_Proofs.S0 _ ?l (?N :: ?sk) ?u), A : all_lexed ?l, C : closes ?sk |- _ => let B := fresh in let X := fresh in let A1 := fresh "A" in let l1 := fresh "l" in let x := fresh "x" in let v := fresh "u" in
  destruct (R l sk u A ltac:(cbn [List.length] in *; lia) C) as [B|(x & l1 & v & -> & X)]; [left; exact (leads_bad _ _ _ _ _ Y B)|]; link Y X; pose proof (lexed_app _ _ A) as A1 end.
Lemma elem_reads l sk u : all_lexed l -> List.length sk <= 490 -> closes sk -> reads (fun e => [tok e]) 15 l sk u.
Proof.
  intros A L C. pose proof (leads_refl Xml exe cf (S0 l (15 :: sk) u)) as Y. nt. act. nt.
  - chr. right. eexists (Str _), _, _. split; [reflexivity|eassumption].
  - chr. right. eexists (Num _), _, _. split; [reflexivity|eassumption].
Qed.
Lemma elems_read l sk u : all_lexed l -> List.length sk <= 480 -> closes sk -> reads (map tok) 21 l sk u.
Proof.
  revert u. induction l as [l IH] using (well_founded_induction (Wf_nat.well_founded_ltof _ (@List.length token))). intros u A L C. pose proof (leads_refl Xml exe cf (S0 l (21 :: sk) u)) as Y.
  assert (C2 : closes (21 :: sk)) by (apply closes_cons; [lia|lia|exact C]). nt.
  - piece elem_reads. destruct (IH l0 ltac:(unfold Wf_nat.ltof; cbn; lia) u0 A0 L C) as [B|(es & r2 & u2 & -> & Z)]; [left; exact (leads_bad _ _ _ _ _ Y B)|]. right. exists (x :: es), r2, u2. split; [reflexivity|]. exact (leads_trans _ _ _ _ _ _ Y Z).
  - act. right. exists [], l, u0. split; [reflexivity|assumption].
Qed.
Lemma row_reads l sk u : all_lexed l -> List.length sk <= 470 -> closes sk -> reads (write_row "{" "}") 16 l sk u.
Proof.
  intros A L C. pose proof (leads_refl Xml exe cf (S0 l (16 :: sk) u)) as Y.
  assert (C8 : closes (8 :: sk)) by (apply closes_cons; [lia|lia|exact C]). assert (C21 : closes (21 :: 8 :: sk)) by (apply closes_cons; [lia|lia|exact C8]).
  nt. chr. piece elem_reads. piece elems_read. chr. right. eexists (_, _), _, _. split; [|eassumption]. unfold write_row, braces, row_elems. cbn [fst snd map app]. rewrite <- app_assoc. reflexivity.
Qed.
Lemma rows_read l sk u : all_lexed l -> List.length sk <= 460 -> closes sk -> reads (flat_map (write_row "{" "}")) 22 l sk u.
Proof.
  revert u. induction l as [l IH] using (well_founded_induction (Wf_nat.well_founded_ltof _ (@List.length token))). intros u A L C. pose proof (leads_refl Xml exe cf (S0 l (22 :: sk) u)) as Y.
  assert (C2 : closes (22 :: sk)) by (apply closes_cons; [lia|lia|exact C]). nt.
  - piece row_reads. destruct (IH l0 ltac:(unfold Wf_nat.ltof, write_row, braces; cbn [app List.length]; rewrite !app_length; lia) u0 A0 L C) as [B|(es & r2 & u2 & -> & Z)]; [left; exact (leads_bad _ _ _ _ _ Y B)|]. right. exists (x :: es), r2, u2. split; [cbn [flat_map]; apply app_assoc|]. exact (leads_trans _ _ _ _ _ _ Y Z).
  - act. right. exists [], l, u0. split; [reflexivity|assumption].
Qed.
Lemma val_reads l sk u : all_lexed l -> List.length sk <= 450 -> closes sk -> reads (write_val "{" "}") 14 l sk u.
Proof.
  intros A L C. pose proof (leads_refl Xml exe cf (S0 l (14 :: sk) u)) as Y. assert (C8 : closes (8 :: sk)) by (apply closes_cons; [lia|lia|exact C]). assert (C22 : closes (22 :: 8 :: sk)) by (apply closes_cons; [lia|lia|exact C8]). nt.
  - piece elem_reads. right. eexists (Scalar _), _, _. split; [reflexivity|eassumption].
  - piece row_reads. right. eexists (Vector _), _, _. split; [reflexivity|eassumption].
  - nt. chr. piece row_reads. piece rows_read. chr. right. eexists (Matrix _ _), _, _. split; [|eassumption]. cbn [write_val]. unfold braces. cbn [flat_map app]. rewrite <- !app_assoc. reflexivity.
Qed.
Definition xitem_goal (l : list token) : Prop := forall sk u d, all_lexed l -> tags_within 85 d l -> d <= 85 -> List.length sk <= 5 * d + 2 -> plain sk ->
  reads write_xml 13 l sk u \/ (type (hd TEof l) = 0 /\ leads (S0 l (13 :: sk) u) (mk l 10 sk u false true)).
Lemma xwrite_cons i : exists t l, write_xml i = t :: l. Proof. destruct (xml_head i) as (n & l & X). eexists; eexists; exact X. Qed.
Lemma xitems_read n : (forall l, List.length l <= n -> xitem_goal l) -> forall k l sk u d, List.length l <= k -> k <= n -> all_lexed l -> tags_within 85 d l -> d <= 85 -> List.length sk + 1 <= 5 * d + 2 -> closes sk -> reads (flat_map write_xml) 23 l sk u.
Proof.
  intros G. induction k as [|k IH]; intros l sk u d Lk Kn A D Dm L C; pose proof (leads_refl Xml exe cf (S0 l (23 :: sk) u)) as Y; assert (C2 : closes (23 :: sk)) by (apply closes_cons; [lia|lia|exact C]); nt;
  try (act; right; exists [], l, u0; split; [reflexivity|assumption]).
  all: destruct (G l ltac:(lia) (23 :: sk) u d A D Dm ltac:(cbn [List.length]; lia) (proj2 C2)) as [[B|(i & rest & u' & -> & X)]|(_ & X)]; [left; exact (leads_bad _ _ _ _ _ Y B)| |left; exact (leads_bad _ _ _ _ _ Y (leads_bad _ _ _ _ _ X (eof_bad _ _ _ C2)))]; link Y X; destruct (xwrite_cons i) as (t & w & W).
  - rewrite W in Lk. cbn in Lk. lia.
  - destruct (IH rest sk u' d ltac:(rewrite W in Lk; cbn [app List.length] in Lk; rewrite app_length in Lk; lia) ltac:(lia) (lexed_app _ _ A) (tw_item _ _ _ _ D) Dm L C) as [B|(c & r2 & u2 & -> & Z)]; [left; exact (leads_bad _ _ _ _ _ Y B)|].
    right. exists (i :: c), r2, u2. split; [cbn [flat_map]; rewrite <- app_assoc; reflexivity|exact (leads_trans _ _ _ _ _ _ Y Z)].
Qed.
Ltac tw_open D := cbn [app tags_within String.eqb Ascii.eqb Bool.eqb] in D.
Lemma xitem_reads : forall n l, List.length l <= n -> xitem_goal l.
Proof.
  induction n as [|n IH]; intros l Ln sk u d A D Dm L P; (destruct (step_nt 13 l sk u ltac:(lia) ltac:(lia)) as [B|[(body & I & Y)|X]]; [left; left; exact B| |right; exact X]); left; body_of I; cbn [app] in Y;
  assert (C3 : closes (3 :: sk)) by (apply closes_here; [lia|exact P]); assert (C26 : closes (3 :: 26 :: sk)) by (apply closes_here; [lia|apply plain_cons; [lia|lia|exact P]]);
  assert (C1 : closes (1 :: 4 :: 2 :: 3 :: 26 :: sk)) by (do 3 (apply closes_cons; [lia|lia|]); exact C26); assert (C1b : closes (1 :: 4 :: 2 :: 3 :: sk)) by (do 3 (apply closes_cons; [lia|lia|]); exact C3);
  assert (C23 : closes (23 :: 1 :: 4 :: 2 :: 3 :: sk)) by (apply closes_cons; [lia|lia|exact C1b]).
  1-3: chr; cbn in Ln; lia.
  - chr. act. chr. chr. piece val_reads. chr. chr. chr. chr. act. right. eexists (XLeaf _ None _ _), _, _. split; [|eassumption]. cbn [write_xml]. unfold tags. cbn [app]. rewrite <- app_assoc. reflexivity.
  - chr. act. chr. chr. chr. act. chr. chr. piece val_reads. chr. chr. chr. chr. act. right. eexists (XLeaf _ (Some _) _ _), _, _. split; [|eassumption]. cbn [write_xml]. unfold tags. cbn [app]. rewrite <- app_assoc. reflexivity.
  - chr. act. chr. chr. nt. tw_open D. destruct D as (Dm2 & D). cbn [List.length] in Ln.
    match goal with Y : Slk_Sound.leads _ _ _ _ (Slk_Proofs.S0 _ ?l1 _ ?v), A1 : all_lexed ?l1 |- _ => destruct (IH l1 ltac:(lia) (23 :: 1 :: 4 :: 2 :: 3 :: sk) v (S d) A1 D ltac:(lia) ltac:(cbn [List.length]; lia) (proj2 C23)) as [[B|(i & l4 & u4 & -> & X)]|(_ & X)];
      [left; exact (leads_bad _ _ _ _ _ Y B)| |left; exact (leads_bad _ _ _ _ _ Y (leads_bad _ _ _ _ _ X (eof_bad _ _ _ C23)))]; link Y X; pose proof (lexed_app _ _ A1) as A4 end.
    apply tw_item in D. rewrite app_length in Ln.
    destruct (xitems_read n IH _ l4 (1 :: 4 :: 2 :: 3 :: sk) u4 (S d) (Nat.le_refl _) ltac:(lia) A4 D ltac:(lia) ltac:(cbn [List.length]; lia) C1b) as [B|(c & l5 & u5 & -> & X)]; [left; exact (leads_bad _ _ _ _ _ Y B)|]. link Y X. pose proof (lexed_app _ _ A4) as A5.
    chr. chr. chr. chr. right. eexists (XBlock _ _ _ _), _, _. split; [|eassumption]. cbn [write_xml]. unfold tags. cbn [app]. rewrite <- !app_assoc. reflexivity.
Qed.

(** ** The whole input *)
Definition ends (l : list token) (s : st (cst E)) : Prop := forall n s', loop Xml exe n cf s = Ret s' -> err s' = true \/ ty s' <> 10 \/ exists config rest, l = flat_map write_xml config ++ rest /\ xml_stops rest.
Lemma ends_bad l s : bad s -> ends l s. Proof. intros B n s' X. left. exact (B n s' X). Qed.
Lemma ends_leads l s s' : leads s s' -> ends l s' -> ends l s. Proof. intros L X n r Y. destruct (L n r Y) as (m & Z). exact (X m r Z). Qed.
Lemma ends_here l s : all_lexed l -> type (hd TEof l) = 0 -> ends l s. Proof. intros A Z n s' _. right. right. exists [], l. split; [reflexivity|exact (xstops_0 l A Z)]. Qed.
Lemma plain_end : plain [20; 24]. Proof. split; cbn; intuition discriminate. Qed.
Lemma ends_item l i rest s : l = write_xml i ++ rest -> ends rest s -> ends l s.
Proof. intros -> X n s' Y. destruct (X n s' Y) as [Q|[Q|(c & r & -> & Q)]]; [left; exact Q|right; left; exact Q|]. right. right. exists (i :: c), r. split; [cbn [flat_map]; apply app_assoc|exact Q]. Qed.
Lemma ends_empty l u : all_lexed l -> ends l (S0 l [] u).
Proof.
  intros A k s' Q. right. left. assert (T1 : type (hd TEof l) <= 9) by (apply xtype_le; destruct l as [|t l]; [exact Logic.I|exact (A t (or_introl eq_refl))]).
  unfold S0 in Q. destruct k; cbn [loop stk] in Q; injection Q as <-; cbn [ty]; lia.
Qed.
Lemma tail_ends : forall n l u, List.length l <= n -> all_lexed l -> tags_within 85 0 l -> ends l (S0 l [20; 24] u).
Proof.
  induction n as [|n IH]; intros l u Ln A D;
  (destruct (step_nt 20 l [24] u ltac:(lia) ltac:(cbn; lia)) as [B|[(body & I & X)|(Z & X)]]; [exact (ends_bad _ _ B)| |exact (ends_here _ _ A Z)]); apply (ends_leads _ _ _ X); body_of I; cbn [app];
  try (destruct (step_act 24 l [] u ltac:(lia)) as [B|(u' & Y)]; [exact (ends_bad _ _ B)|]; apply (ends_leads _ _ _ Y); exact (ends_empty l u' A)).
  all: destruct (xitem_reads _ l (Nat.le_refl _) [20; 24] u 0 A D ltac:(lia) ltac:(cbn; lia) plain_end) as [[B|(i & rest & u' & Q & Y)]|(Z & _)]; [exact (ends_bad _ _ B)| |exact (ends_here _ _ A Z)]; apply (ends_leads _ _ _ Y), (ends_item l i rest _ Q); destruct (xwrite_cons i) as (t & w & W); subst l.
  - rewrite W in Ln. cbn in Ln. lia.
  - apply IH; [rewrite W in Ln; cbn [app List.length] in Ln; rewrite app_length in Ln; lia|exact (lexed_app _ _ A)|exact (tw_item _ _ _ _ D)].
Qed.
Lemma start_ends l u : all_lexed l -> tags_within 85 0 l -> ends l (S0 l [11] u).
Proof.
  intros A D. destruct (step_nt 11 l [] u ltac:(lia) ltac:(cbn; lia)) as [B|[(body & I & X)|(Z & X)]]; [exact (ends_bad _ _ B)| |exact (ends_here _ _ A Z)]. apply (ends_leads _ _ _ X). body_of I. cbn [app].
  destruct (step_nt 12 l [24] u ltac:(lia) ltac:(cbn; lia)) as [B|[(body & I & Y)|(Z & _)]]; [exact (ends_bad _ _ B)| |exact (ends_here _ _ A Z)]. apply (ends_leads _ _ _ Y). body_of I. cbn [app].
  destruct (xitem_reads _ l (Nat.le_refl _) [20; 24] u 0 A D ltac:(lia) ltac:(cbn; lia) plain_end) as [[B|(i & rest & u' & Q & W)]|(Z & _)]; [exact (ends_bad _ _ B)| |exact (ends_here _ _ A Z)]. apply (ends_leads _ _ _ W), (ends_item l i rest _ Q). subst l.
  exact (tail_ends _ rest u' (Nat.le_refl _) (lexed_app _ _ A) (tw_item _ _ _ _ D)).
Qed.
Lemma xml_sound l u rounds fuel u' : all_lexed l -> tags_within 85 0 l -> parse Xml exe rounds fuel cf l u = Ret (true, u') -> exists config rest, l = flat_map write_xml config ++ rest /\ xml_stops rest.
Proof.
  intros A D. unfold parse. destruct rounds as [|r]; [discriminate|]. cbn [parses err eof orb inp usr]. unfold current. cbn [inp]. change (push (START_SYMBOL Xml) []) with [11].
  destruct (loop Xml exe fuel cf (mk l (type (hd TEof l)) [11] u false false)) as [s| |] eqn:X; [|discriminate|discriminate]. cbn [bind]. change (END_OF_SLK_INPUT Xml) with 10.
  assert (F : forall s', err s' = true -> bind (parses Xml exe r fuel cf s') (fun s => Ret (negb (err s), usr s)) <> Ret (true, u')) by (intros s' Q; destruct r; cbn [parses]; rewrite Q; cbn [orb bind]; rewrite Q; discriminate).
  destruct (start_ends l u A D fuel s X) as [Q|[Q|Q]]; [| |intros _; exact Q].
  - intros Z. exfalso. refine (F _ _ Z). destruct (ty s =? 10); [exact Q|reflexivity].
  - intros Z. exfalso. refine (F _ _ Z). rewrite (proj2 (Nat.eqb_neq (ty s) 10) Q). reflexivity.
Qed.
End Pieces.
