From Verif Require Import Base Token_Model Token_Spec.

Lemma in_set_iff set c : in_set set c = true <-> c = 0 \/ In c set.
Proof.
  unfold in_set. rewrite orb_true_iff, Z.eqb_eq, existsb_exists. split.
  - intros [H|(x & H & E)]; [auto|]. apply Z.eqb_eq in E. subst. auto.
  - intros [H|H]; [auto|]. right. exists c. rewrite Z.eqb_refl. auto.
Qed.
Lemma in_set_no set c : in_set set c = false <-> ~ (c = 0 \/ In c set).
Proof. rewrite <- in_set_iff. destruct (in_set set c); split; intros; try discriminate; auto. exfalso; auto. Qed.
Lemma end_test term c : (in_set term c || (c =? 0)) = in_set term c.
Proof. unfold in_set. destruct (c =? 0); cbn; [reflexivity|apply orb_false_r]. Qed.

Section K.
Variables term skip : list Z.
Notation keeps := (keeps term skip).
Notation stops := (stops term skip).
Lemma keeps_snoc_keep p k c : keeps p k -> kept term skip c -> keeps (p ++ [c]) (k ++ [c]).
Proof. intros H K. induction H; cbn; constructor; auto. constructor. Qed.
Lemma keeps_snoc_drop p k c : keeps p k -> ~ kept term skip c -> keeps (p ++ [c]) k.
Proof. intros H K. induction H; cbn; try (constructor; auto; fail). apply KDrop; [auto|constructor]. Qed.
Lemma keeps_fun p k k' : keeps p k -> keeps p k' -> k = k'.
Proof.
  intros H. revert k'. induction H; intros k' H'; inversion H'; subst; try contradiction; auto.
  f_equal. auto.
Qed.
Lemma keeps_length p k : keeps p k -> (length k <= length p)%nat.
Proof. induction 1; cbn; lia. Qed.
Definition nostop p := forall p' c' q, p = p' ++ c' :: q -> ~ stops p' c'.
Lemma nostop_nil : nostop [].
Proof. intros p' c' q E. destruct p'; discriminate. Qed.
Lemma nostop_snoc p c : nostop p -> ~ stops p c -> nostop (p ++ [c]).
Proof.
  intros H K p' c' q E. destruct (list_eq_dec Z.eq_dec q []) as [->|N].
  - apply app_inj_tail in E. destruct E as [-> ->]. auto.
  - destruct (exists_last N) as (q' & z & ->).
    replace (p' ++ c' :: q' ++ [z]) with ((p' ++ c' :: q') ++ [z]) in E by (rewrite <- app_assoc; reflexivity).
    apply app_inj_tail in E. destruct E as [E _]. eapply H. exact E.
Qed.
End K.

Section Tok.
Context {S T : Type} (getc : S -> option (option Z * S)) (putc : T -> Z -> option (bool * T)).
Context (R : S -> list Z -> Prop) (Q : T -> list Z -> Prop) (cap : nat).
Hypothesis (HS : source getc R) (HQ : sink putc Q cap).

Lemma gt_loop_ok term skip o : forall l fuel s t p tok,
  (length l < fuel)%nat -> R s l -> Q t (o ++ tok) -> nostop term skip p -> keeps term skip p tok ->
  (length o + length p + length l <= cap)%nat -> Z.of_nat (length p + length l) < 2 ^ 32 ->
  exists ok c s' t' tok' rest, gt_loop getc putc fuel term skip s t (Z.of_nat (length tok)) = Some (ok, c, s', t') /\
    token_of term skip (p ++ l) ok tok' c rest /\ R s' rest /\ Q t' (o ++ tok').
Proof.
  induction l as [|c l IH]; intros fuel s t p tok Lf HR Ht Hn Hk Hc Hw; (destruct fuel as [|fuel]; [cbn in Lf; lia|]); cbn [gt_loop].
  - destruct HS as [H0 _]. destruct (H0 _ HR) as (s' & -> & R').
    do 6 eexists. split; [reflexivity|]. split; [|split; [exact R'|exact Ht]].
    rewrite app_nil_r. apply TEnd; auto.
    destruct tok; cbn; split; intros; try congruence; try (exfalso; congruence); auto.
  - destruct HS as [_ H1]. destruct (H1 _ _ _ HR) as (s' & -> & R'). rewrite end_test. cbn [length] in *.
    pose proof (keeps_length _ _ _ _ Hk) as LK.
    assert (AP : p ++ c :: l = (p ++ [c]) ++ l) by (rewrite <- app_assoc; reflexivity).
    destruct (in_set term c) eqn:ET.
    + apply in_set_iff in ET.
      assert (ND : ~ kept term skip c) by (intros [X _]; apply X; exact ET).
      destruct (negb (Z.of_nat (length tok) =? 0) || negb (in_set skip c)) eqn:EQ.
      * do 6 eexists. split; [reflexivity|]. split; [|split; [exact R'|exact Ht]].
        apply TStop with (p := p); auto. split; [exact ET|].
        apply orb_true_iff in EQ. destruct EQ as [EQ|EQ].
        -- left. intros X. pose proof (keeps_fun _ _ _ _ _ Hk X). subst tok. discriminate.
        -- right. apply negb_true_iff in EQ. apply in_set_no in EQ. exact EQ.
      * apply orb_false_iff in EQ. destruct EQ as [E1 E2]. apply negb_false_iff in E1, E2. apply Z.eqb_eq in E1.
        destruct tok; [|cbn in E1; lia]. apply in_set_iff in E2. rewrite AP.
        apply IH; auto; try lia.
        -- apply nostop_snoc; auto. intros [_ [X|X]]; auto.
        -- apply keeps_snoc_drop; auto.
        -- rewrite app_length; cbn; lia.
        -- rewrite app_length; cbn; lia.
    + apply in_set_no in ET.
      assert (NS : ~ stops term skip p c) by (intros [X _]; auto).
      destruct (in_set skip c) eqn:ES; cbn [negb].
      * apply in_set_iff in ES. rewrite AP.
        apply IH; auto; try lia; [apply nostop_snoc; auto| |rewrite app_length; cbn; lia|rewrite app_length; cbn; lia].
        apply keeps_snoc_drop; auto. intros [_ X]; auto.
      * apply in_set_no in ES. destruct (HQ t (o ++ tok) c Ht) as (t' & -> & Q').
        { rewrite app_length. lia. }
        rewrite uwrap_id by lia.
        replace (Z.of_nat (length tok) + 1) with (Z.of_nat (length (tok ++ [c]))) by (rewrite app_length; cbn; lia).
        rewrite AP. apply IH; auto; try lia; [rewrite app_assoc; auto|apply nostop_snoc; auto| |rewrite app_length; cbn; lia|rewrite app_length; cbn; lia].
        apply keeps_snoc_keep; auto. split; auto.
Qed.

Lemma get_token_ok term skip s t o l fuel : (length l < fuel)%nat -> R s l -> Q t o -> (length o + length l <= cap)%nat ->
  Z.of_nat (length l) < 2 ^ 32 ->
  exists ok c s' t' tok rest, get_token getc putc fuel term skip s t = Some (ok, c, s', t') /\
    token_of term (match skip with None => term | Some k => k end) l ok tok c rest /\ R s' rest /\ Q t' (o ++ tok).
Proof.
  intros. apply (gt_loop_ok term (match skip with None => term | Some k => k end) o l fuel s t [] []); cbn [length]; try lia; auto.
  - rewrite app_nil_r. auto.
  - apply nostop_nil.
  - constructor.
Qed.

Lemma token_rest term skip l ok tok c rest : token_of term skip l ok tok c rest ->
  (length rest <= length l)%nat /\ (ok = true -> (length rest < length l)%nat).
Proof.
  intros [p c0 rest0 tok0 -> |tok0 ok0].
  - rewrite app_length. cbn. split; intros; lia.
  - cbn. split; [lia|]. intros E. apply H1 in E. pose proof (keeps_length _ _ _ _ H0). destruct tok0; [congruence|]. cbn in *; lia.
Qed.

Lemma all_tokens_ok term skip t0 o fuel : Q t0 o -> forall n l s, (length l < n)%nat -> (length l < fuel)%nat -> R s l ->
  (length o + length l <= cap)%nat -> Z.of_nat (length l) < 2 ^ 32 ->
  exists outs toks, all_tokens getc putc n fuel term skip s t0 = Some outs /\
    tokens_of term (match skip with None => term | Some k => k end) l toks /\
    Forall2 (fun a b => Q (fst a) (o ++ fst b) /\ snd a = snd b) outs toks.
Proof.
  intros Q0. induction n as [|n IH]; intros l s Ln Lf HR Hc Hw; [lia|]. cbn [all_tokens].
  destruct (get_token_ok term skip s t0 o l fuel Lf HR Q0 Hc Hw) as (ok & c & s' & t' & tok & rest & E & K & R' & Q').
  rewrite E. pose proof (token_rest _ _ _ _ _ _ _ K) as [L1 L2]. destruct ok.
  - specialize (L2 eq_refl). destruct (IH rest s' ltac:(lia) ltac:(lia) R' ltac:(lia) ltac:(lia)) as (outs & toks & -> & T1 & F).
    exists ((t', c) :: outs), ((tok, c) :: toks). split; [reflexivity|]. split; [econstructor; eauto|]. constructor; auto.
  - exists [], []. split; [reflexivity|]. split; [econstructor; eauto|constructor].
Qed.

(** SkipTokens *)
Lemma skip_loop_ok term : forall l fuel s (count : nat) r, (length l < fuel)%nat -> R s l -> 
  Forall (fun c => ~ ends_token term c) r -> Z.of_nat (length r + length l) < 2 ^ 32 -> (r <> [] -> (0 < count)%nat) ->
  exists ok s' rest, skip_loop getc fuel term s (Z.of_nat count) (Z.of_nat (length r)) = Some (ok, s') /\
    skipped (ends_token term) count (r ++ l) ok rest /\ R s' rest.
Proof.
  induction l as [|c l IH]; intros fuel s count r Lf HR Fr Hw Hr; (destruct fuel as [|fuel]; [cbn in Lf; lia|]);
    (destruct count as [|count];
     [cbn; do 3 eexists; split; [reflexivity|]; destruct r; [|exfalso; assert (0 < 0)%nat by (apply Hr; congruence); lia]; split; [cbn [app]; apply SDone|exact HR]|]); cbn [skip_loop];
    replace (Z.of_nat (Datatypes.S count) >? 0) with true by lia.
  - destruct HS as [H0 _]. destruct (H0 _ HR) as (s' & -> & R'). do 3 eexists. split; [reflexivity|]. split; [|exact R'].
    rewrite app_nil_r. apply (SFail _ count [] r); auto.
  - destruct HS as [_ H1]. destruct (H1 _ _ _ HR) as (s' & -> & R'). rewrite end_test. cbn [length] in *.
    destruct (in_set term c) eqn:ET.
    + apply in_set_iff in ET. destruct (Z.of_nat (length r) =? 0) eqn:E0; cbn [negb].
      * destruct r; [|cbn in E0; lia]. destruct (IH fuel s' (Datatypes.S count) [] ltac:(lia) R' ltac:(constructor) ltac:(cbn [length]; lia) ltac:(congruence)) as (ok & s2 & rest & E & K & R2).
        exists ok, s2, rest. split; [exact E|]. split; [|exact R2]. cbn [app] in *. inversion K; subst.
        -- apply (SOne _ count (c :: s0) r c0 l0); auto.
        -- apply (SFail _ count (c :: s0) r); auto.
      * replace (Z.of_nat (Datatypes.S count) - 1) with (Z.of_nat count) by lia.
        destruct (IH fuel s' count [] ltac:(lia) R' ltac:(constructor) ltac:(cbn [length]; lia) ltac:(congruence)) as (ok & s2 & rest & E & K & R2).
        exists ok, s2, rest. split; [exact E|]. split; [|exact R2]. apply (SOne _ count [] r c l); auto.
        split; auto. destruct r; [discriminate|congruence].
    + apply in_set_no in ET. rewrite uwrap_id by lia.
      replace (Z.of_nat (length r) + 1) with (Z.of_nat (length (r ++ [c]))) by (rewrite app_length; cbn; lia).
      replace (r ++ c :: l) with ((r ++ [c]) ++ l) by (rewrite <- app_assoc; reflexivity).
      apply IH; auto; try lia.
      * apply Forall_app. split; auto.
      * rewrite app_length; cbn; lia.
Qed.

(** GetToken into an array *)
Lemma store_ok tok x out c : store (tok ++ x :: out) (Z.of_nat (length tok)) c = Some (tok ++ c :: out).
Proof.
  unfold store. rewrite app_length. cbn [length]. replace ((0 <=? _) && _) with true by lia.
  rewrite Nat2Z.id, firstn_app, firstn_all, Nat.sub_diag. cbn [firstn]. rewrite app_nil_r.
  replace (length tok + 1)%nat with (length (tok ++ [x])) by (rewrite app_length; reflexivity).
  replace (tok ++ x :: out) with ((tok ++ [x]) ++ out) by (rewrite <- app_assoc; reflexivity).
  rewrite skipn_app, skipn_all, Nat.sub_diag. reflexivity.
Qed.

Lemma gtb_loop_ok term skip n : (2 <= n)%nat -> Z.of_nat n < 2 ^ 32 -> forall l fuel s p tok out,
  (length l < fuel)%nat -> R s l -> nostop term skip p -> keeps term skip p tok -> (length tok + length out = n)%nat ->
  (length tok < n - 1)%nat -> 
  exists ok c s' tok' out' rest, gtb_loop getc fuel term skip s (tok ++ out) (Z.of_nat n - 1) (Z.of_nat (length tok)) = Some (ok, c, s', tok' ++ 0 :: out') /\
    token_buf term skip (p ++ l) n ok tok' c rest /\ R s' rest /\ (length tok' + 1 + length out' = n)%nat.
Proof.
  intros Hn Hn2. induction l as [|c l IH]; intros fuel s p tok out Lf HR Hs Hk Ho Ht; (destruct fuel as [|fuel]; [cbn in Lf; lia|]); cbn [gtb_loop];
    (destruct out as [|o1 out]; [cbn in Ho; lia|]); (destruct out as [|o2 out]; [cbn in Ho; lia|]).
  - destruct HS as [H0 _]. destruct (H0 _ HR) as (s' & -> & R'). rewrite store_ok.
    do 6 eexists. split; [reflexivity|]. split; [|split; [exact R'|cbn in *; lia]].
    apply BFits; [|lia]. rewrite app_nil_r. apply TEnd; auto.
    destruct tok; cbn; split; intros; try congruence; try (exfalso; congruence); auto.
  - destruct HS as [_ H1]. destruct (H1 _ _ _ HR) as (s' & -> & R'). rewrite end_test. cbn [length] in *.
    assert (AP : p ++ c :: l = (p ++ [c]) ++ l) by (rewrite <- app_assoc; reflexivity).
    destruct (in_set term c) eqn:ET.
    + apply in_set_iff in ET.
      assert (ND : ~ kept term skip c) by (intros [X _]; apply X; exact ET).
      destruct (negb (Z.of_nat (length tok) =? 0) || negb (in_set skip c)) eqn:EQ.
      * rewrite store_ok. do 6 eexists. split; [reflexivity|]. split; [|split; [exact R'|cbn in *; lia]].
        apply BFits; [|lia]. apply TStop with (p := p); auto. split; [exact ET|].
        apply orb_true_iff in EQ. destruct EQ as [EQ|EQ].
        -- left. intros X. pose proof (keeps_fun _ _ _ _ _ Hk X). subst tok. discriminate.
        -- right. apply negb_true_iff in EQ. apply in_set_no in EQ. exact EQ.
      * apply orb_false_iff in EQ. destruct EQ as [E1 E2]. apply negb_false_iff in E1, E2. apply Z.eqb_eq in E1.
        destruct tok; [|cbn in E1; lia]. apply in_set_iff in E2. rewrite AP.
        apply (IH fuel s' (p ++ [c]) [] (o1 :: o2 :: out)); auto; try lia.
        -- apply nostop_snoc; auto. intros [_ [X|X]]; auto.
        -- apply keeps_snoc_drop; auto.
    + apply in_set_no in ET.
      assert (NS : ~ stops term skip p c) by (intros [X _]; auto).
      destruct (in_set skip c) eqn:ES; cbn [negb].
      * apply in_set_iff in ES. rewrite AP.
        apply IH; auto; try lia; [apply nostop_snoc; auto|].
        apply keeps_snoc_drop; auto. intros [_ X]; auto.
      * apply in_set_no in ES. rewrite store_ok. rewrite uwrap_id by lia.
        assert (KC : kept term skip c) by (split; auto).
        replace (Z.of_nat (length tok) + 1) with (Z.of_nat (length (tok ++ [c]))) by (rewrite app_length; cbn; lia).
        replace (tok ++ c :: o2 :: out) with ((tok ++ [c]) ++ o2 :: out) by (rewrite <- app_assoc; reflexivity).
        destruct (_ >=? _) eqn:EG.
        -- rewrite store_ok. do 6 eexists. split; [reflexivity|]. rewrite app_length in *. cbn [length] in *.
           split; [|split; [exact R'|lia]].
           apply BFull with (p := p); auto; [|rewrite app_length; cbn [length]; lia].
           apply keeps_snoc_keep; auto.
        -- rewrite app_length in EG. cbn [length] in EG. rewrite AP. apply IH; auto; try lia.
           ++ apply nostop_snoc; auto.
           ++ apply keeps_snoc_keep; auto.
           ++ rewrite app_length. cbn [length]. lia.
           ++ rewrite app_length. cbn [length]. lia.
Qed.
End Tok.

(** Consequences of the specification *)
Lemma ends_dec term c : {ends_token term c} + {~ ends_token term c}.
Proof. unfold ends_token. destruct (Z.eq_dec c 0); [left; auto|]. destruct (in_dec Z.eq_dec c term); [left; auto|right; tauto]. Defined.
Lemma kept_same term c : kept term term c <-> ~ ends_token term c.
Proof. unfold kept, skippable, ends_token. tauto. Qed.
Lemma keeps_nil_same term p : keeps term term p [] <-> Forall (ends_token term) p.
Proof.
  split.
  - intros H. remember [] as k. induction H; subst; try discriminate; constructor; auto.
    rewrite kept_same in H. destruct (ends_dec term c); tauto.
  - induction 1; constructor; auto. rewrite kept_same. tauto.
Qed.
(** a prefix without stop: separators followed by a run *)
Lemma nostop_shape term p tok : nostop term term p -> keeps term term p tok ->
  exists s, p = s ++ tok /\ Forall (ends_token term) s /\ Forall (fun c => ~ ends_token term c) tok.
Proof.
  revert tok. induction p as [|c p IH] using rev_ind; intros tok Hn Hk.
  - inversion Hk. exists []. auto.
  - assert (Hn' : nostop term term p).
    { intros p' c' q ->. apply (Hn p' c' (q ++ [c])). rewrite <- app_assoc. reflexivity. }
    assert (EK : exists k, keeps term term p k).
    { clear. induction p as [|a p [k K]]; [exists []; constructor|].
      destruct (ends_dec term a) as [E|E]; [exists k; apply KDrop; auto; rewrite kept_same; tauto|exists (a :: k); apply KKeep; auto; apply kept_same; auto]. }
    destruct EK as [k K]. destruct (IH k Hn' K) as (s & -> & Fs & Fk).
    destruct (ends_dec term c) as [E|E].
    + assert (NK : ~ kept term term c) by (rewrite kept_same; tauto).
      pose proof (keeps_fun _ _ _ _ _ Hk (keeps_snoc_drop _ _ _ _ _ K NK)) as ->.
      destruct k as [|k0 k].
      * exists (s ++ [c]). rewrite !app_nil_r. split; auto. split; auto. apply Forall_app; auto.
      * exfalso. apply (Hn (s ++ k0 :: k) c []); auto. split; auto. left. intros X.
        pose proof (keeps_fun _ _ _ _ _ K X). discriminate.
    + assert (NK : kept term term c) by (rewrite kept_same; tauto).
      pose proof (keeps_fun _ _ _ _ _ Hk (keeps_snoc_keep _ _ _ _ _ K NK)) as ->.
      exists s. rewrite app_assoc. split; auto. split; auto. apply Forall_app; auto.
Qed.
Lemma token_same term l ok tok c rest : token_of term term l ok tok c rest ->
  (ok = false /\ Forall (ends_token term) l) \/
  (ok = true /\ exists s, Forall (ends_token term) s /\ run_of (ends_token term) tok /\
     ((l = s ++ tok /\ c = 0 /\ rest = []) \/ (l = s ++ tok ++ c :: rest /\ ends_token term c))).
Proof.
  intros [p c0 rest0 tok0 -> [E S] N K|tok0 ok0 N K O].
  - right. split; auto. destruct (nostop_shape term p tok0 N K) as (s & -> & Fs & Ft). exists s. split; auto. split.
    + split; auto. destruct S as [S|S]; [|exfalso; apply S; exact E]. intros ->. auto.
    + right. rewrite <- app_assoc. auto.
  - destruct (nostop_shape term l tok0 N K) as (s & -> & Fs & Ft). destruct tok0 as [|t0 tok0].
    + left. split; [destruct ok0; auto; destruct (proj1 O eq_refl); auto|]. rewrite app_nil_r. auto.
    + right. split; [apply O; congruence|]. exists s. split; auto. split; [split; auto; congruence|]. left. auto.
Qed.
Lemma tokens_runs term l toks : tokens_of term term l toks -> runs (ends_token term) l toks.
Proof.
  induction 1 as [l tok c rest H|l tok c rest toks H H0 IH].
  - destruct (token_same _ _ _ _ _ _ H) as [[_ F]|[E _]]; [|discriminate]. apply RNone. auto.
  - destruct (token_same _ _ _ _ _ _ H) as [[E _]|[_ (s & Fs & Ft & [(-> & -> & ->)|(-> & Ec)])]]; [discriminate| |].
    + inversion H0; subst.
      * apply RLast; auto.
      * exfalso. match goal with K : token_of _ _ [] true _ _ _ |- _ => destruct (token_rest _ _ _ _ _ _ _ K) as [_ X]; specialize (X eq_refl); cbn in X; lia end.
    + apply RMore; auto.
Qed.

(** With an empty skip set nothing is lost *)
Lemma keeps_none term p tok : keeps term [] p tok -> (forall c, In c p -> c <> 0) -> nostop term [] p -> tok = p.
Proof.
  intros K Z0 N. assert (NE : forall c, In c p -> ~ ends_token term c).
  { intros c Hc E. apply in_split in Hc. destruct Hc as (a & b & ->). apply (N a c b eq_refl). split; auto. right.
    intros [X|X]; [|destruct X]. apply (Z0 c); auto. apply in_or_app. right. left. auto. }
  clear N. induction K; auto.
  - f_equal. apply IHK; intros; [apply Z0|apply NE]; right; auto.
  - exfalso. apply H. split; [apply NE; left; auto|]. intros [X|X]; [|destruct X]. apply (Z0 c); [left|]; auto.
Qed.
Lemma tokens_flat term l toks : tokens_of term [] l toks -> (forall c, In c l -> c <> 0) ->
  let all := flat_map (fun tc => fst tc ++ [snd tc]) toks in all = l \/ (exists a b, l = a ++ [b] /\ ~ In b term /\ all = l ++ [0]).
Proof.
  cbn zeta. intros H. induction H as [l tok c rest H|l tok c rest toks H H0 IH]; intros Z0.
  - left. cbn. inversion H as [|tok0 ok0 N K O]; subst. pose proof (keeps_none _ _ _ K Z0 N). subst. destruct l; auto. exfalso. assert (false = true) by (apply O; congruence). discriminate.
  - cbn [flat_map fst snd]. inversion H as [p c0 rest0 tok0 E S N K|tok0 ok0 N K O]; subst.
    + assert (tok = p) by (apply (keeps_none term p tok K); auto; intros; apply Z0; apply in_or_app; left; auto). subst tok.
      destruct IH as [->|(a & b & E & Nb & ->)].
      * intros; apply Z0; apply in_or_app; right; right; auto.
      * left. rewrite <- app_assoc. reflexivity.
      * right. exists (p ++ c :: a), b. rewrite E. rewrite <- !app_assoc. cbn. rewrite <- !app_assoc. auto.
    + pose proof (keeps_none _ _ _ K Z0 N). subst tok. 
      assert (toks = []).
      { inversion H0; subst; auto. exfalso. match goal with K : token_of _ _ [] true _ _ _ |- _ => destruct (token_rest _ _ _ _ _ _ _ K) as [_ X]; specialize (X eq_refl); cbn in X; lia end. }
      subst toks. cbn. rewrite app_nil_r. destruct (exists_last (proj1 O eq_refl)) as (a & b & ->).
      right. exists a, b. split; auto. split; auto. intros I. apply (N a b [] eq_refl). split; [right; auto|]. right. intros [X|X]; [|destruct X].
      apply (Z0 b); auto. apply in_or_app; right; left; auto.
Qed.
