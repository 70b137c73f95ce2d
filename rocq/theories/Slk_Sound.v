(** What the table driven parser has read when it ends without an error, for any tables and actions. *)
From Coq Require Import String Ascii.
From Verif Require Import Base Slk_Model Slk_Proofs.
Open Scope string_scope. Open Scope nat_scope. Open Scope list_scope.

Section Sound.
Context (T : tables) {A : Type} (execute : nat -> token -> A -> out (A * bool)) (cf : nat).
Notation loop := (loop T execute). Notation token_type := (token_type T). Notation S0 := (S0 T (A := A)).
Hypothesis S1 : 1 <= START_SYMBOL T <= START_ACTION T.

(** No run from here ends without an error. *)
Definition bad (s : st A) : Prop := forall n s', loop n cf s = Ret s' -> err s' = true.
(** A run from [s] that ends is a run from [s']. *)
Definition leads (s s' : st A) : Prop := forall n r, loop n cf s = Ret r -> exists m, loop m cf s' = Ret r.
Lemma leads_refl s : leads s s. Proof. intros n r H. exists n. exact H. Qed.
Lemma leads_trans a b c : leads a b -> leads b c -> leads a c.
Proof. intros X Y n r H. destruct (X n r H) as (m & H2). exact (Y m r H2). Qed.
Lemma leads_bad a b : leads a b -> bad b -> bad a.
Proof. intros X Y n r H. destruct (X n r H) as (m & H2). exact (Y m r H2). Qed.
Lemma err_bad s : err s = true -> bad s.
Proof. intros E n s' H. destruct n; cbn [Slk_Model.loop] in H; destruct (stk s); rewrite ?E, ?orb_true_r in H; try (injection H as <-; exact E). Qed.

(** The productions of a symbol *)
Definition prod_at (entry : nat) : list (nat * list nat) :=
  match nth_error (Production_row T) entry with
  | Some row => match nth_error (Production T) row, nth_error (Production T) (S row) with
                | Some len, Some h => [(h, firstn (len - 1) (skipn (S (S row)) (Production T)))]
                | _, _ => []
                end
  | None => []
  end.
Definition prods : list (nat * list nat) := flat_map prod_at (seq 0 (List.length (Production_row T))).
Lemma pick_prod N k l body : pick T cf N k l = Ret (Some body) -> In (N, body) prods.
Proof.
  unfold pick, get. destruct (nth_error (Parse_row T) _) as [row|]; cbn [bind]; [|discriminate]. destruct (nth_error (ParseArray T) _) as [e|]; cbn [bind]; [|discriminate].
  destruct (resolve T cf l e 0) as [entry| |]; cbn [bind]; [|discriminate|discriminate]. destruct (entry =? 0); [discriminate|].
  destruct (nth_error (Production_row T) entry) as [r|] eqn:E1; cbn [bind]; [|discriminate]. destruct (nth_error (Production T) r) as [len|] eqn:E2; cbn [bind]; [|discriminate].
  destruct (nth_error (Production T) (S r)) as [h|] eqn:E3; cbn [bind]; [|discriminate]. destruct (Nat.eqb_spec h N) as [->|]; [|discriminate]. intros H. injection H as <-.
  unfold prods. apply in_flat_map. exists entry. split; [apply in_seq; split; [lia|]; cbn [plus]; apply nth_error_Some; congruence|]. unfold prod_at. rewrite E1, E2, E3. left. reflexivity.
Qed.

(** ** The steps *)
Lemma loop_cons n x l k sk u f : x <> 0 -> loop (S n) cf (mk l k (x :: sk) u false f) = bind (iter T execute cf x (mk l k sk u false f)) (loop n cf).
Proof. intros N. cbn [Slk_Model.loop stk err inp ty usr eof]. rewrite (proj2 (Nat.eqb_neq x 0)) by exact N. reflexivity. Qed.
Lemma loop_zero x l k sk u f r : x <> 0 -> loop 0 cf (mk l k (x :: sk) u false f) = Ret r -> False.
Proof. intros N. cbn [Slk_Model.loop stk err]. rewrite (proj2 (Nat.eqb_neq x 0)) by exact N. discriminate. Qed.
Lemma act_cases a l k sk u f : START_ACTION T <= a ->
  bad (mk l k (a :: sk) u false f) \/ exists u', execute (a - (START_ACTION T - 1)) (hd TEof l) u = Ret (u', false) /\ leads (mk l k (a :: sk) u false f) (mk l k sk u' false f).
Proof.
  intros R. assert (I : iter T execute cf a (mk l k sk u false f) = bind (execute (a - (START_ACTION T - 1)) (hd TEof l) u) (fun '(u, e) => Ret (mk l k sk u e f))).
  { unfold iter. rewrite (proj2 (Nat.leb_le (START_ACTION T) a)) by exact R. reflexivity. }
  destruct (execute (a - (START_ACTION T - 1)) (hd TEof l) u) as [(u', [|])| |] eqn:E; cbn [bind] in I.
  - left. intros [|n] s' H; [destruct (loop_zero a l k sk u f s' ltac:(lia) H)|]. rewrite loop_cons, I in H by lia. cbn [bind] in H. refine (err_bad _ _ n s' H); reflexivity.
  - right. exists u'. split; [reflexivity|]. intros [|n] r H; [destruct (loop_zero a l k sk u f r ltac:(lia) H)|]. rewrite loop_cons, I in H by lia. cbn [bind] in H. exists n. exact H.
  - left. intros [|n] s' H; [destruct (loop_zero a l k sk u f s' ltac:(lia) H)|]. rewrite loop_cons, I in H by lia. discriminate.
  - left. intros [|n] s' H; [destruct (loop_zero a l k sk u f s' ltac:(lia) H)|]. rewrite loop_cons, I in H by lia. discriminate.
Qed.
Lemma iter_tm t l k sk u f : 0 < t < START_SYMBOL T -> iter T execute cf t (mk l k sk u false f) =
  Ret (if t =? k then mk (tl l) (token_type (hd TEof (tl l))) sk u false f else mk l (END_OF_SLK_INPUT T) sk u true f).
Proof. intros R. unfold iter. rewrite (proj2 (Nat.leb_gt (START_ACTION T) t)), (proj2 (Nat.leb_gt (START_SYMBOL T) t)) by lia. cbn [ty inp stk usr err eof]. destruct (t =? k); reflexivity. Qed.
Lemma tm_cases t l k sk u f : 0 < t < START_SYMBOL T ->
  bad (mk l k (t :: sk) u false f) \/ (k = t /\ leads (mk l k (t :: sk) u false f) (mk (tl l) (token_type (hd TEof (tl l))) sk u false f)).
Proof.
  intros R. destruct (Nat.eqb_spec t k) as [E|E].
  - right. split; [congruence|]. intros [|n] r H; [destruct (loop_zero t l k sk u f r ltac:(lia) H)|]. rewrite loop_cons, iter_tm in H by lia. rewrite (proj2 (Nat.eqb_eq t k) E) in H. cbn [bind] in H. exists n. exact H.
  - left. intros [|n] s' H; [destruct (loop_zero t l k sk u f s' ltac:(lia) H)|]. rewrite loop_cons, iter_tm in H by lia. rewrite (proj2 (Nat.eqb_neq t k) E) in H. cbn [bind] in H. refine (err_bad _ _ n s' H); reflexivity.
Qed.
Lemma nt_cases N l k sk u f : START_SYMBOL T <= N < START_ACTION T ->
  bad (mk l k (N :: sk) u false f) \/
  (exists body, pick T cf N k l = Ret (Some body) /\ In (N, body) prods /\ leads (mk l k (N :: sk) u false f) (mk l k (push_all body sk) u false f)) \/
  (k = 0 /\ leads (mk l k (N :: sk) u false f) (mk l (END_OF_SLK_INPUT T) sk u false true)).
Proof.
  intros R. pose proof (iter_nt T execute cf N l k sk u false f R) as I. destruct (pick T cf N k l) as [[body|]| |] eqn:P.
  - right. left. exists body. split; [reflexivity|]. split; [exact (pick_prod _ _ _ _ P)|]. intros [|n] r H; [destruct (loop_zero N l k sk u f r ltac:(lia) H)|]. rewrite loop_cons, I in H by lia. cbn [bind] in H. exists n. exact H.
  - destruct (Nat.eqb_spec k 0) as [E|E].
    + right. right. split; [exact E|]. intros [|n] r H; [destruct (loop_zero N l k sk u f r ltac:(lia) H)|]. rewrite loop_cons, I in H by lia. unfold syntax in H. cbn [bind ty inp stk usr err eof] in H. rewrite (proj2 (Nat.eqb_eq k 0) E) in H. exists n. exact H.
    + left. intros [|n] r H; [destruct (loop_zero N l k sk u f r ltac:(lia) H)|]. rewrite loop_cons, I in H by lia. unfold syntax in H. cbn [bind ty inp stk usr err eof] in H. rewrite (proj2 (Nat.eqb_neq k 0) E) in H. refine (err_bad _ _ n r H); reflexivity.
  - left. intros [|n] r H; [destruct (loop_zero N l k sk u f r ltac:(lia) H)|]. rewrite loop_cons, I in H by lia. discriminate.
  - left. intros [|n] r H; [destruct (loop_zero N l k sk u f r ltac:(lia) H)|]. rewrite loop_cons, I in H by lia. discriminate.
Qed.

(** ** After the end of the input: a terminal that is still to come is an error *)
Hypothesis S2 : END_OF_SLK_INPUT T <> 0.
Lemma push_all_in t p l : In t l -> In t (push_all p l).
Proof. intros I. induction p as [|x p IH]; [exact I|]. cbn [push_all fold_right]. fold (push_all p l). unfold push. destruct (_ <? _); [right; exact IH|exact IH]. Qed.
Lemma end_bad t : 0 < t < START_SYMBOL T -> t <> END_OF_SLK_INPUT T -> forall n l sk u f s', In t sk -> ~ In 0 sk -> (forall N body, In (N, body) prods -> START_SYMBOL T <= N < START_ACTION T -> ~ In 0 body /\ ~ In (END_OF_SLK_INPUT T) body) -> ~ In (END_OF_SLK_INPUT T) sk ->
  loop n cf (mk l (END_OF_SLK_INPUT T) sk u false f) = Ret s' -> err s' = true.
Proof.
  intros R NE. induction n as [|n IH]; intros l sk u f s' I Z PB Ne H; (destruct sk as [|x sk]; [destruct I|]).
  - assert (X0 : x <> 0) by (intros ->; apply Z; left; reflexivity). destruct (loop_zero x l _ sk u f s' X0 H).
  - assert (X0 : x <> 0) by (intros ->; apply Z; left; reflexivity). rewrite loop_cons in H by exact X0. assert (Z2 : ~ In 0 sk) by (intros Q; apply Z; right; exact Q). assert (Ne2 : ~ In (END_OF_SLK_INPUT T) sk) by (intros Q; apply Ne; right; exact Q).
    destruct (Nat.le_gt_cases (START_ACTION T) x) as [L|L].
    + unfold iter in H. rewrite (proj2 (Nat.leb_le _ _) L) in H. cbn [inp ty stk usr eof current] in H. destruct (execute _ _ u) as [(u', e)| |]; cbn [bind] in H; [|discriminate|discriminate].
      destruct e; [refine (err_bad _ _ n s' H); reflexivity|]. destruct I as [->|I]; [lia|]. exact (IH _ _ _ _ _ I Z2 PB Ne2 H).
    + destruct (Nat.le_gt_cases (START_SYMBOL T) x) as [L2|L2].
      * rewrite iter_nt in H by lia. destruct (pick T cf x (END_OF_SLK_INPUT T) l) as [[body|]| |] eqn:P; cbn [bind] in H; try discriminate.
        -- destruct I as [->|I]; [lia|]. destruct (PB x body (pick_prod _ _ _ _ P) ltac:(lia)) as (B0 & B9).
           refine (IH _ _ _ _ _ _ _ PB _ H); [apply push_all_in, I| |].
           ++ clear -B0 Z2. induction body as [|y b IHb]; [exact Z2|]. cbn [push_all fold_right]. fold (push_all b sk). unfold push. destruct (_ <? _); [intros [->|Q]; [apply B0; left; reflexivity|]|intros Q]; revert Q; apply IHb; intros Q2; apply B0; right; exact Q2.
           ++ clear -B9 Ne2. induction body as [|y b IHb]; [exact Ne2|]. cbn [push_all fold_right]. fold (push_all b sk). unfold push. destruct (_ <? _); [intros [->|Q]; [apply B9; left; reflexivity|]|intros Q]; revert Q; apply IHb; intros Q2; apply B9; right; exact Q2.
        -- unfold syntax in H. cbn [ty inp stk usr err eof] in H. rewrite (proj2 (Nat.eqb_neq _ 0) S2) in H. refine (err_bad _ _ n s' H); reflexivity.
      * rewrite iter_tm in H by lia. rewrite (proj2 (Nat.eqb_neq x (END_OF_SLK_INPUT T))) in H by (intros ->; apply Ne; left; reflexivity). cbn [bind] in H. refine (err_bad _ _ n s' H); reflexivity.
Qed.
End Sound.
