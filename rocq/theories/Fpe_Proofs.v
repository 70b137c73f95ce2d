From Verif Require Import Fpe_Model Fpe_Spec.
From Coq Require Import List ZArith Lia Bool Arith.
Import ListNotations.
Open Scope Z_scope.

Lemma run_snoc l : forall s e, run s (l ++ [e]) = match run s l with Some s => step s e | None => None end.
Proof. induction l as [|x l IH]; intros s e; cbn; [destruct (step s e); reflexivity|]. destruct (step s x); [apply IH|reflexivity]. Qed.
Lemma run_app l m : forall s, run s (l ++ m) = match run s l with Some s => run s m | None => None end.
Proof. induction l as [|x l IH]; intros s; cbn; [reflexivity|]. destruct (step s x); [apply IH|reflexivity]. Qed.
Lemma elapsed_app a b : elapsed (a ++ b) = elapsed a + elapsed b.
Proof. induction a as [|x a IH]; cbn; [reflexivity|]. destruct x; unfold elapsed in *; lia. Qed.

Lemma open_snoc h e : is_open (h ++ [e]) <-> opens e = true \/ (is_open h /\ closes e = false).
Proof.
  split.
  - intros (a & x & b & E & O & C). destruct (exists_last (l := x :: b) ltac:(discriminate)) as (m & y & F).
    rewrite F, app_assoc in E. apply app_inj_tail in E as [E1 <-]. destruct m as [|z m]; cbn in F; injection F as -> F.
    + left. exact O.
    + right. split; [|apply C; rewrite F; apply in_or_app; right; left; reflexivity]. exists a, z, m. split; [exact E1|]. split; [exact O|]. intros w W. apply C. rewrite F. apply in_or_app. left. exact W.
  - intros [O|((a & x & b & -> & O & C) & K)].
    + exists h, e, []. repeat split; [exact O|]. intros x [].
    + exists a, x, (b ++ [e]). rewrite <- app_assoc. repeat split; [exact O|]. intros y Y. apply in_app_or in Y as [Y|[<-|[]]]; [apply C; exact Y|exact K].
Qed.
Lemma open_nil : ~ is_open []. Proof. intros (a & x & b & E & _). destruct a; discriminate. Qed.
Lemma nb_snoc t h e : no_begin t h -> (forall ticks inf, e <> Begin t ticks inf) -> no_begin t (h ++ [e]).
Proof. intros H N k i X. apply in_app_or in X as [X|[X|[]]]; [exact (H k i X)|exact (N k i X)]. Qed.

(** What is known of a thread after a history *)
Definition waiting c t h stop inf := exists h0 ticks a, h = h0 ++ Begin t ticks inf :: a /\ no_begin t a /\ stop = ticks + (c + elapsed h0).
Definition known (c : Z) (t : nat) (h : list event) (p : pc) : Prop :=
  match p with
  | Idle => True
  | AtFlag stop inf => waiting c t h stop inf
  | AtClock stop => exists h0 ticks a b, h = h0 ++ Begin t ticks false :: a ++ Check t :: b /\ no_begin t a /\ no_begin t b /\ stop = ticks + (c + elapsed h0)
                      /\ ~ is_open (h0 ++ Begin t ticks false :: a)
  | Returned true => exists h0 ticks inf a b, h = h0 ++ Begin t ticks inf :: a ++ Check t :: b /\ no_begin t a /\ no_begin t b /\ is_open (h0 ++ Begin t ticks inf :: a)
  | Returned false => exists h0 ticks a b d, h = h0 ++ Begin t ticks false :: a ++ Check t :: b ++ Clock t :: d /\ no_begin t a /\ no_begin t b /\ no_begin t d
                      /\ ~ is_open (h0 ++ Begin t ticks false :: a) /\ elapsed (a ++ Check t :: b) > ticks
  end.
Lemma known_later c t h p e : known c t h p -> (forall ticks inf, e <> Begin t ticks inf) -> known c t (h ++ [e]) p.
Proof.
  intros K N. destruct p as [|stop inf|stop|[|]]; cbn [known] in *; [exact I|..].
  - destruct K as (h0 & k & a & -> & A & S). exists h0, k, (a ++ [e]). rewrite <- app_assoc. split; [reflexivity|]. split; [apply nb_snoc; assumption|exact S].
  - destruct K as (h0 & k & a & b & -> & A & B & S & O). exists h0, k, a, (b ++ [e]). rewrite <- app_assoc. cbn [app]. rewrite <- app_assoc. split; [reflexivity|].
    split; [exact A|]. split; [apply nb_snoc; assumption|]. split; assumption.
  - destruct K as (h0 & k & i & a & b & -> & A & B & O). exists h0, k, i, a, (b ++ [e]). rewrite <- app_assoc. cbn [app]. rewrite <- app_assoc. split; [reflexivity|].
    split; [exact A|]. split; [apply nb_snoc; assumption|exact O].
  - destruct K as (h0 & k & a & b & d & -> & A & B & D & O). exists h0, k, a, b, (d ++ [e]). rewrite <- app_assoc. cbn [app]. rewrite <- app_assoc. cbn [app]. rewrite <- app_assoc. split; [reflexivity|].
    split; [exact A|]. split; [exact B|]. split; [apply nb_snoc; assumption|exact O].
Qed.
Definition Inv (c : Z) (h : list event) (s : state) : Prop :=
  (flag s = 0 \/ flag s = 1) /\ (flag s <> 0 <-> is_open h) /\ clock s = c + elapsed h /\ forall t, known c t h (thread s t).
Lemma flag_quiet h e f : (f <> 0 <-> is_open h) -> opens e = false -> closes e = false -> (f <> 0 <-> is_open (h ++ [e])).
Proof. intros H O C. rewrite open_snoc, O, C, H. intuition congruence. Qed.
Lemma nb_nil t : no_begin t []. Proof. intros k i []. Qed.

Lemma run_inv c h : forall s, run (start c) h = Some s -> Inv c h s.
Proof.
  induction h as [|e h IH] using rev_ind; intros s E.
  - injection E as <-. split; [left; reflexivity|]. split; [split; [cbn; congruence|intros X; destruct (open_nil X)]|]. split; [cbn; lia|]. intros t. exact I.
  - rewrite run_snoc in E. destruct (run (start c) h) as [q|]; [|discriminate]. destruct (IH q eq_refl) as (F & O & K & T). clear IH.
    assert (EL : elapsed (h ++ [e]) = elapsed h + match e with Elapse k => k | _ => 0 end) by (rewrite elapsed_app; destruct e; cbn; lia).
    destruct e as [w| | |n|t k i|t|t]; cbn [step] in E.
    + injection E as <-. split; [destruct w; cbn; auto|]. cbn [flag clock thread]. split; [rewrite open_snoc; destruct w; cbn; intuition congruence|].
      split; [lia|]. intros u. apply known_later; [apply T|discriminate].
    + injection E as <-. split; [cbn; auto|]. cbn [flag clock thread]. split; [rewrite open_snoc; cbn; intuition congruence|]. split; [lia|]. intros u. apply known_later; [apply T|discriminate].
    + injection E as <-. split; [cbn; auto|]. cbn [flag clock thread]. split; [rewrite open_snoc; cbn; intuition congruence|]. split; [lia|]. intros u. apply known_later; [apply T|discriminate].
    + destruct (n <? 0); [discriminate|]. injection E as <-. split; [exact F|]. cbn [flag clock thread]. split; [apply flag_quiet; auto|]. split; [lia|]. intros u. apply known_later; [apply T|discriminate].
    + assert (E' : s = set q t (AtFlag (k + clock q) i)) by (destruct (thread q t); congruence). subst s. split; [exact F|]. cbn [flag clock thread set]. split; [apply flag_quiet; auto|]. split; [lia|].
      intros u. destruct (Nat.eqb_spec u t) as [->|N]; [|apply known_later; [apply T|congruence]].
      exists h, k, []. split; [reflexivity|]. split; [apply nb_nil|]. lia.
    + destruct (thread q t) as [|stop i|stop|r] eqn:P; try discriminate. injection E as <-. split; [exact F|]. cbn [flag clock thread set]. split; [apply flag_quiet; auto|]. split; [lia|].
      intros u. destruct (Nat.eqb_spec u t) as [->|N]; [|apply known_later; [apply T|congruence]].
      pose proof (T t) as Kt. rewrite P in Kt. destruct (Z.eqb_spec (flag q) 0) as [Z|Z].
      * destruct i; [apply (known_later c t h (AtFlag stop true)); [exact Kt|discriminate]|]. destruct Kt as (h0 & k & a & -> & A & S).
        exists h0, k, a, []. rewrite <- app_assoc. split; [reflexivity|]. split; [exact A|]. split; [apply nb_nil|]. split; [exact S|]. rewrite <- O. lia.
      * destruct Kt as (h0 & k & a & -> & A & S). exists h0, k, i, a, []. rewrite <- app_assoc. split; [reflexivity|]. split; [exact A|]. split; [apply nb_nil|]. apply O. exact Z.
    + destruct (thread q t) as [|stop i|stop|r] eqn:P; try discriminate. injection E as <-. split; [exact F|]. cbn [flag clock thread set]. split; [apply flag_quiet; auto|]. split; [lia|].
      intros u. destruct (Nat.eqb_spec u t) as [->|N]; [|apply known_later; [apply T|congruence]].
      pose proof (T t) as Kt. rewrite P in Kt. destruct Kt as (h0 & k & a & b & -> & A & B & S & X). destruct (clock q >? stop) eqn:G.
      * exists h0, k, a, b, []. rewrite <- app_assoc. cbn [app]. rewrite <- app_assoc. split; [reflexivity|]. split; [exact A|]. split; [exact B|]. split; [apply nb_nil|]. split; [exact X|].
        rewrite K, elapsed_app in G. change (elapsed (Begin t k false :: a ++ Check t :: b)) with (elapsed (a ++ Check t :: b)) in G. lia.
      * exists h0, k, (a ++ Check t :: b ++ [Clock t]). rewrite <- app_assoc. cbn [app]. rewrite <- app_assoc. split; [reflexivity|]. split; [|exact S].
        intros k' i' W. apply in_app_or in W as [W|[W|W]]; [exact (A _ _ W)|discriminate|]. apply in_app_or in W as [W|[W|[]]]; [exact (B _ _ W)|discriminate].
Qed.

Lemma open_later h h' : is_open h -> (forall e, In e h' -> closes e = false) -> is_open (h ++ h').
Proof.
  induction h' as [|e h' IH] using rev_ind; intros O C; [rewrite app_nil_r; exact O|]. rewrite app_assoc, open_snoc. right.
  split; [apply IH; [exact O|intros x X; apply C; apply in_or_app; left; exact X]|apply C; apply in_or_app; right; left; reflexivity].
Qed.
Lemma prompt c h t : forall h' s s' stop inf, run (start c) h = Some s -> is_open h -> thread s t = AtFlag stop inf ->
  run s h' = Some s' -> (forall e, In e h' -> closes e = false) -> no_begin t h' ->
  (In (Check t) h' -> thread s' t = Returned true) /\ (~ In (Check t) h' -> thread s' t = AtFlag stop inf).
Proof.
  induction h' as [|e h' IH] using rev_ind; intros s s' stop inf R O P E C N.
  - injection E as <-. split; [intros []|intros _; exact P].
  - rewrite run_snoc in E. destruct (run s h') as [q|] eqn:Q; [|discriminate].
    assert (C' : forall x, In x h' -> closes x = false) by (intros x X; apply C; apply in_or_app; left; exact X).
    assert (N' : no_begin t h') by (intros k i X; apply (N k i); apply in_or_app; left; exact X).
    destruct (IH s q stop inf R O P Q C' N') as (I1 & I2).
    assert (RQ : run (start c) (h ++ h') = Some q) by (rewrite run_app, R; exact Q).
    pose proof (run_inv _ _ _ RQ) as (_ & FO & _ & _). assert (Z : flag q <> 0) by (apply FO; apply open_later; assumption).
    assert (J : thread q t = Returned true \/ thread q t = AtFlag stop inf).
    { destruct (in_dec (fun x y : event => ltac:(decide equality; try apply Z.eq_dec; try apply Nat.eq_dec; apply Bool.bool_dec)) (Check t) h'); auto. }
    assert (D : e = Check t -> thread s' t = Returned true).
    { intros ->. cbn [step] in E. destruct J as [J|J]; rewrite J in E; [discriminate|]. injection E as <-. cbn. rewrite Nat.eqb_refl. destruct (Z.eqb_spec (flag q) 0); [contradiction|reflexivity]. }
    assert (D' : e <> Check t -> thread s' t = thread q t).
    { intros X. destruct e as [w| | |n|u k i|u|u]; cbn [step] in E; try (injection E as <-; reflexivity).
      - destruct (n <? 0); [discriminate|]. injection E as <-. reflexivity.
      - assert (u <> t) by (intros ->; apply (N k i); apply in_or_app; right; left; reflexivity).
        destruct (thread q u); try discriminate; injection E as <-; cbn; destruct (Nat.eqb_spec t u); congruence.
      - assert (u <> t) by congruence. destruct (thread q u); try discriminate; injection E as <-; cbn; destruct (Nat.eqb_spec t u); congruence.
      - destruct (Nat.eq_dec u t) as [->|Y]; [destruct J as [J|J]; rewrite J in E; discriminate|].
        destruct (thread q u); try discriminate; injection E as <-; cbn; destruct (Nat.eqb_spec t u); congruence. }
    split.
    + intros X. apply in_app_or in X as [X|[X|[]]]; [|apply D; exact X].
      assert (e <> Check t). { intros ->. cbn [step] in E. rewrite (I1 X) in E. discriminate. } rewrite D' by assumption. apply I1. exact X.
    + intros X. rewrite D'; [apply I2; intros Y; apply X; apply in_or_app; left; exact Y|]. intros ->. apply X. apply in_or_app. right. left. reflexivity.
Qed.
