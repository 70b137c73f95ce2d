(** Proofs about the types described by the configuration. *)
From Verif Require Import Base IntText_Model IntText_Spec IntText_Proofs Isr_Model Isr_Spec.

(** ** The modifiers *)

Lemma is_digit_range c : is_digit 10 c -> 48 <= c <= 57 /\ digit_val c = c - 48.
Proof.
  unfold is_digit, digit_val. destruct ((48 <=? c) && (c <=? 57)) eqn:A; [lia|].
  destruct ((65 <=? c) && (c <=? 90)) eqn:B; [lia|]. destruct ((97 <=? c) && (c <=? 122)) eqn:C; lia.
Qed.

Lemma fold_value_mono s a : 0 <= a -> Forall (is_digit 10) s -> a <= fold_left (fun acc c => acc * 10 + digit_val c) s a.
Proof.
  revert a. induction s as [|c s IH]; intros a Ha F; cbn [fold_left]; [lia|].
  pose proof (is_digit_range c (Forall_inv F)) as [R V].
  specialize (IH (a * 10 + digit_val c) ltac:(lia) (Forall_inv_tail F)). lia.
Qed.

Lemma scan_digits s r ds a :
  Forall (is_digit 10) s -> 0 <= a -> fold_left (fun acc c => acc * 10 + digit_val c) s a < 2 ^ 32 ->
  scan (s ++ 93 :: r) (Some a) ds = scan r None (ds ++ [fold_left (fun acc c => acc * 10 + digit_val c) s a]).
Proof.
  revert a. induction s as [|c s IH]; intros a F Ha L; cbn [app fold_left] in *.
  - cbn [scan]. reflexivity.
  - pose proof (is_digit_range c (Forall_inv F)) as [R V].
    pose proof (fold_value_mono s (a * 10 + digit_val c) ltac:(lia) (Forall_inv_tail F)) as M.
    rewrite <- IH; [|exact (Forall_inv_tail F)|lia|exact L].
    cbn [scan]. unfold ch_close, ch_0.
    replace (c =? 93) with false by lia. replace ((0 <=? c - 48) && (c - 48 <=? 9)) with true by lia.
    rewrite (uwrap_id 32 (a * 10)) by lia. rewrite uwrap_id by lia. do 2 f_equal. lia.
Qed.

Lemma scan_dims ds t acc :
  writes_dimensions ds t -> Forall (fun d => 0 <= d < 2 ^ 32) ds -> (length acc + length ds <= 3)%nat ->
  scan t None acc = Some (acc ++ ds).
Proof.
  intros W; revert acc. induction W as [|d ds s t D W IH]; intros acc F L.
  - cbn. rewrite app_nil_r; reflexivity.
  - cbn [length] in L. cbn [scan]. replace (length acc <? 3)%nat with true by (symmetry; apply Nat.ltb_lt; lia).
    change (91 =? ch_open) with true. cbv iota.
    pose proof (Forall_inv F) as B. cbv beta in B.
    unfold decimal_text in D. replace (d <? 0) with false in D by lia. destruct D as ((Dg & V) & _ & _).
    unfold value in V. rewrite scan_digits; [|exact Dg|lia|lia]. rewrite V.
    rewrite IH; [rewrite <- app_assoc; reflexivity|exact (Forall_inv_tail F)|rewrite app_length; cbn [length]; lia].
Qed.

Lemma scan_plain p t acc :
  (forall c, In c p -> c <> 91) -> (length acc < 3)%nat -> scan (p ++ t) None acc = scan t None acc.
Proof.
  intros H L. induction p as [|c p IH]; [reflexivity|]. cbn [app scan].
  replace (length acc <? 3)%nat with true by (symmetry; apply Nat.ltb_lt; lia).
  replace (c =? ch_open) with false by (pose proof (H c ltac:(left; reflexivity)); unfold ch_open; lia).
  apply IH. intros c' I; apply H; right; exact I.
Qed.

Lemma marks_plain b ps : forall c, In c (const_mark b ++ flat_map (fun b => 42 :: const_mark b) ps) -> c <> 91.
Proof.
  intros c I. apply in_app_or in I. destruct I as [I|I].
  - destruct b; cbn in I; intuition lia.
  - apply in_flat_map in I. destruct I as (x & _ & I). destruct x; cbn in I; intuition lia.
Qed.

Lemma scan_writes d t :
  writes d t -> (length (arrays d) <= 3)%nat -> Forall (fun n => 0 <= n < 2 ^ 32) (arrays d) -> scan t None [] = Some (arrays d).
Proof.
  intros (s & W & ->) L F. rewrite app_assoc. rewrite scan_plain; [|apply marks_plain|cbn; lia].
  rewrite (scan_dims (arrays d) s [] W F ltac:(cbn; lia)). reflexivity.
Qed.

Lemma dims_no_marks ds t : writes_dimensions ds t -> Forall (fun d => 0 <= d) ds -> forall c, In c t -> c <> 42 /\ c <> 67.
Proof.
  intros W. induction W as [|d ds s t D W IH]; intros F c I; [destruct I|].
  pose proof (Forall_inv F) as B. cbv beta in B.
  unfold decimal_text in D. replace (d <? 0) with false in D by lia. destruct D as ((Dg & V) & _ & _).
  destruct I as [<-|I]; [lia|]. apply in_app_or in I. destruct I as [I|[<-|I]]; [|lia|apply IH; [exact (Forall_inv_tail F)|exact I]].
  pose proof (is_digit_range c (proj1 (Forall_forall _ _) Dg c I)). lia.
Qed.

(** counting the stars *)
Definition stars (t : text) (n : Z) : Z := fold_left (fun n c => if c =? ch_star then n + 1 else n) t n.
Lemma stars_app a b n : stars (a ++ b) n = stars b (stars a n).
Proof. apply fold_left_app. Qed.
Lemma stars_none t n : (forall c, In c t -> c <> 42) -> stars t n = n.
Proof.
  revert n. induction t as [|c t IH]; intros n H; [reflexivity|]. unfold stars; cbn [fold_left].
  replace (c =? ch_star) with false by (pose proof (H c ltac:(left; reflexivity)); unfold ch_star; lia).
  apply IH. intros; apply H; right; assumption.
Qed.
Lemma stars_pointers ps n : stars (flat_map (fun b => 42 :: const_mark b) ps) n = n + Z.of_nat (length ps).
Proof.
  revert n. induction ps as [|b ps IH]; intros n; [cbn; lia|]. cbn [flat_map].
  change ((42 :: const_mark b) ++ flat_map (fun b0 => 42 :: const_mark b0) ps)
    with ([42] ++ const_mark b ++ flat_map (fun b0 => 42 :: const_mark b0) ps).
  rewrite !stars_app. change (stars [42] n) with (n + 1).
  rewrite (stars_none (const_mark b)); [|destruct b; cbn; intros; intuition lia].
  rewrite IH. cbn [length]. lia.
Qed.

Lemma constant_skip p t n k :
  (forall c, In c p -> c <> 42) -> n <> k -> constant_after (p ++ t) n k = constant_after t n k.
Proof.
  intros H N. induction p as [|c p IH]; [reflexivity|]. cbn [app constant_after].
  replace (c =? ch_star) with false by (pose proof (H c ltac:(left; reflexivity)); unfold ch_star; lia).
  replace (n =? k) with false by lia. apply IH. intros; apply H; right; assumption.
Qed.

Lemma constant_pointers ps s n k :
  (forall c, In c s -> c <> 42 /\ c <> 67) -> (k < length ps)%nat ->
  constant_after (flat_map (fun b => 42 :: const_mark b) ps ++ s) n (n + Z.of_nat k + 1) = Some (nth k ps false).
Proof.
  intros Hs. revert n k. induction ps as [|b ps IH]; intros n k L; [cbn in L; lia|].
  cbn [flat_map app constant_after]. change (42 =? ch_star) with true. cbv iota zeta.
  destruct k as [|k].
  - replace (n + 1 =? n + Z.of_nat 0 + 1) with true by lia. cbn [nth]. f_equal.
    destruct b; [reflexivity|]. cbn [const_mark app].
    destruct ps as [|b' ps]; [|reflexivity]. cbn [flat_map app]. destruct s as [|c s]; [reflexivity|].
    pose proof (Hs c ltac:(left; reflexivity)). unfold ch_C. lia.
  - replace (n + 1 =? n + Z.of_nat (S k) + 1) with false by lia. cbn [nth length] in *.
    rewrite <- app_assoc. rewrite constant_skip; [|destruct b; cbn; intros; intuition lia|lia].
    replace (n + Z.of_nat (S k) + 1) with (n + 1 + Z.of_nat k + 1) by lia. apply IH. lia.
Qed.

Lemma reported_stored e : (length (stored e) <= 3)%nat -> reported e = stored e.
Proof.
  intros L. unfold reported, get_number_of_dimensions, get_number_of_elements. rewrite Nat2Z.id.
  destruct (stored e) as [|a [|b [|c [|d r]]]]; try reflexivity. cbn in L. lia.
Qed.

Lemma make_entry_written d t name type s o :
  writes d t -> (length (arrays d) <= 3)%nat -> Forall (fun n => 0 <= n < 2 ^ 32) (arrays d) ->
  exists e, make_entry name type t s o = Some e /\ memberName e = name /\ typeName e = type /\ size e = s /\ byteOffset e = o /\
            get_number_of_dimensions e = Z.of_nat (length (arrays d)) /\ reported e = arrays d /\
            get_pointer_level e = Z.of_nat (length (pointers d)) /\ is_constant e 0 = base_const d /\
            forall k, (k < length (pointers d))%nat -> is_constant e (Z.of_nat k + 1) = nth k (pointers d) false.
Proof.
  intros W L F. unfold make_entry. rewrite (scan_writes d t W L F). eexists. split; [reflexivity|].
  cbn [memberName typeName size byteOffset]. do 4 (split; [reflexivity|]). split; [reflexivity|].
  split; [rewrite reported_stored by exact L; reflexivity|].
  destruct W as (s' & W & ->).
  assert (F0 : Forall (fun d => 0 <= d) (arrays d)) by (eapply Forall_impl; [|exact F]; cbv beta; intros; lia).
  pose proof (dims_no_marks _ _ W F0) as NM.
  split; [|split].
  - unfold get_pointer_level; cbn [modifiers]. fold (stars (const_mark (base_const d) ++ flat_map (fun b => 42 :: const_mark b) (pointers d) ++ s') 0).
    rewrite !stars_app, stars_pointers. rewrite (stars_none (const_mark _)) by (destruct (base_const d); cbn; intros; intuition lia).
    rewrite stars_none by (intros c I; exact (proj1 (NM c I))). lia.
  - unfold is_constant; cbn [modifiers]. cbn [Z.ltb Z.compare].
    destruct (base_const d); [reflexivity|]. cbn [const_mark app].
    destruct (pointers d) as [|b ps]; [|reflexivity]. cbn [flat_map app]. destruct s' as [|c s']; [reflexivity|].
    pose proof (NM c ltac:(left; reflexivity)). unfold ch_C. lia.
  - intros k Lk. unfold is_constant; cbn [modifiers]. replace (0 <? Z.of_nat k + 1) with true by lia.
    rewrite constant_skip; [|destruct (base_const d); cbn; intros; intuition lia|lia].
    pose proof (constant_pointers (pointers d) s' 0 k NM Lk) as E. cbn [Z.add] in E. rewrite E. reflexivity.
Qed.

(** ** The layout *)

Lemma print_modifiers_writes ds : Forall (fun n => 0 <= n < 2 ^ 32) ds -> exists t, print_modifiers ds = Some t /\ writes_dimensions ds t.
Proof.
  induction 1 as [|d ds B F (t & E & W)]; [exists []; split; [reflexivity|constructor]|].
  destruct (print_decimal_default uint32_t d false false false) as (s & E1 & D).
  { unfold std_ty; cbn; auto. }
  { unfold in_ty, imin, imax; cbn; lia. }
  cbn [print_modifiers]. rewrite E1, E. eexists; split; [reflexivity|]. constructor; assumption.
Qed.

Lemma dims_entry name type ds s o :
  (length ds <= 3)%nat -> Forall (fun n => 0 <= n < 2 ^ 32) ds ->
  exists t e, print_modifiers ds = Some t /\ make_entry name type t s o = Some e /\
    memberName e = name /\ typeName e = type /\ size e = s /\ byteOffset e = o /\ reported e = ds.
Proof.
  intros L F. destruct (print_modifiers_writes ds F) as (t & E & W).
  destruct (make_entry_written (Declarator false [] ds) t name type s o) as (e & M & A & B & C & D & _ & R & _).
  { exists t. split; [exact W|reflexivity]. }
  { exact L. } { exact F. }
  exists t, e. auto 10.
Qed.

Lemma product_pos ds : Forall (fun d => 1 <= d < 2 ^ 32) ds -> 1 <= product ds.
Proof. induction 1 as [|d ds B F IH]; cbn [product]; nia. Qed.

Lemma fold_elements ds a :
  Forall (fun d => 1 <= d < 2 ^ 32) ds -> 1 <= a -> a * product ds < 2 ^ 32 ->
  fold_left (fun acc d => if 0 <? d then uwrap 32 (acc * d) else acc) ds a = a * product ds.
Proof.
  intros F; revert a. induction F as [|d ds B F IH]; intros a Ha L; cbn [fold_left product] in *; [lia|].
  pose proof (product_pos ds F) as P. replace (0 <? d) with true by lia.
  assert (a * d <= a * (d * product ds)) by nia.
  rewrite uwrap_id by nia. rewrite IH; nia.
Qed.

Lemma total_elements_spec s ds :
  0 <= s -> Forall (fun d => 1 <= d < 2 ^ 32) ds -> s * product ds < 2 ^ 32 -> uwrap 32 (s * total_elements ds) = s * product ds.
Proof.
  intros S F L. pose proof (product_pos ds F) as P. destruct (Z.eq_dec s 0) as [->|N]; [reflexivity|].
  assert (product ds <= s * product ds) by nia.
  unfold total_elements. rewrite fold_elements by (try exact F; lia).
  replace (1 * product ds =? 0) with false by lia. cbv zeta iota. rewrite Z.mul_1_l. rewrite uwrap_id by nia. reflexivity.
Qed.

Lemma member_size_of g type n : size_of g type n -> member_size g type = n.
Proof.
  unfold member_size. intros [_ [-> | (-> & i & l & -> & -> & ->)]]; reflexivity.
Qed.

Lemma declared_nonneg g cs ms : declares g cs ms -> 0 <= declared_size ms.
Proof.
  induction 1 as [| |name type n s cs ms _ [S _] _ IH|name type ds s cs ms _ _ _ F [S _] _ IH]; cbn [declared_size product]; try lia.
  pose proof (product_pos ds F). nia.
Qed.

Lemma build_declared g cs ms total :
  declares g cs ms -> 0 <= total -> total + declared_size ms < 2 ^ 32 ->
  exists es, build g cs total = Some (Some (es, total + declared_size ms)) /\ Forall2 as_declared es ms /\
             tiles total es (total + declared_size ms).
Proof.
  intros D; revert total. induction D as [|cs ms D IH|name type n s cs ms Hn S D IH|name type ds s cs ms N1 N0 L3 F S D IH]; intros total T L.
  - exists []. cbn. rewrite Z.add_0_r. repeat split; constructor.
  - exact (IH total T L).
  - cbn [declared_size product] in L |- *. pose proof (declared_nonneg _ _ _ D). pose proof (proj1 S).
    destruct (dims_entry name type [] s total ltac:(cbn; lia) ltac:(constructor)) as (t & e & P & M & A1 & A2 & A3 & A4 & A5).
    assert (Dm : dimensions n = Some []) by (destruct Hn as [-> | ->]; reflexivity).
    cbn [build]. rewrite Dm, P, (member_size_of _ _ _ S), M.
    rewrite (total_elements_spec s [] ltac:(lia) ltac:(constructor) ltac:(cbn [product]; lia)). cbn [product].
    rewrite uwrap_id by lia.
    destruct (IH (total + s * 1) ltac:(lia) ltac:(lia)) as (es & E & F2 & Ti). rewrite E.
    exists (e :: es). replace (total + (s * 1 + declared_size ms)) with (total + s * 1 + declared_size ms) by lia.
    split; [reflexivity|]. split; [constructor; [cbn; auto|exact F2]|]. cbn [tiles]. split; [exact A4|].
    unfold bytes. rewrite A3, A5. cbn [product]. exact Ti.
  - cbn [declared_size] in L |- *. pose proof (declared_nonneg _ _ _ D). pose proof (proj1 S). pose proof (product_pos ds F).
    assert (F0 : Forall (fun n => 0 <= n < 2 ^ 32) ds) by (eapply Forall_impl; [|exact F]; cbv beta; intros; lia).
    destruct (dims_entry name type ds s total L3 F0) as (t & e & P & M & A1 & A2 & A3 & A4 & A5).
    assert (Dm : dimensions (Values ds) = Some ds).
    { destruct ds as [|x [|y r]]; [congruence| |reflexivity]. cbn. destruct (x =? 1) eqn:E; [|reflexivity].
      apply Z.eqb_eq in E. congruence. }
    cbn [build]. rewrite Dm, P, (member_size_of _ _ _ S), M.
    assert (s * product ds < 2 ^ 32) by lia. assert (0 <= s * product ds) by nia.
    rewrite (total_elements_spec s ds ltac:(lia) F ltac:(lia)).
    rewrite uwrap_id by lia.
    destruct (IH (total + s * product ds) ltac:(lia) ltac:(lia)) as (es & E & F2 & Ti). rewrite E.
    exists (e :: es). replace (total + (s * product ds + declared_size ms)) with (total + s * product ds + declared_size ms) by lia.
    split; [reflexivity|]. split; [constructor; [cbn; auto|exact F2]|]. cbn [tiles]. split; [exact A4|].
    unfold bytes. rewrite A3, A5. exact Ti.
Qed.

(** ** The registry *)

Lemma text_eqb_eq a b : text_eqb a b = true <-> a = b.
Proof. unfold text_eqb. destruct (list_eq_dec Z.eq_dec a b); split; congruence. Qed.
Lemma text_eqb_refl a : text_eqb a a = true. Proof. apply text_eqb_eq; reflexivity. Qed.

Lemma find_snoc g name i other :
  find (g ++ [(name, i)]) other = match find g other with Some j => Some j | None => if text_eqb name other then Some i else None end.
Proof. induction g as [|[n j] g IH]; cbn [app find]; [reflexivity|]. destruct (text_eqb n other); [reflexivity|exact IH]. Qed.

Lemma find_update g name i other :
  find g name <> None -> find (update g name i) other = if text_eqb name other then Some i else find g other.
Proof.
  induction g as [|[n j] g IH]; cbn [find update]; intros H; [congruence|].
  destruct (text_eqb n name) eqn:E.
  - apply text_eqb_eq in E; subst n. cbn [find]. destruct (text_eqb name other); reflexivity.
  - cbn [find]. destruct (text_eqb n other) eqn:E2.
    + destruct (text_eqb name other) eqn:E3; [|reflexivity]. apply text_eqb_eq in E2, E3; subst.
      rewrite text_eqb_refl in E; discriminate.
    + rewrite IH by exact H. reflexivity.
Qed.

Lemma initialise_true g name cs g' :
  initialise g name cs = Some (true, g') ->
  exists es total, build g cs 0 = Some (Some (es, total)) /\ 0 < total /\ (forall l, find g name <> Some (Native l)) /\
    find g' name = Some (Configured (Layout es total)) /\ forall other, other <> name -> find g' other = find g other.
Proof.
  unfold initialise. destruct (build g cs 0) as [[[es total]|]|] eqn:B; [| |]; try discriminate.
  destruct (0 <? total) eqn:T; [|discriminate].
  destruct (find g name) as [[l|l]|] eqn:E; intros H; [discriminate| |]; injection H as <-; exists es, total;
    (split; [reflexivity|]); (split; [lia|]); (split; [congruence|]).
  - split.
    + rewrite find_update by congruence. rewrite text_eqb_refl; reflexivity.
    + intros other N. rewrite find_update by congruence. destruct (text_eqb name other) eqn:E2; [apply text_eqb_eq in E2; congruence|reflexivity].
  - split.
    + rewrite find_snoc, E, text_eqb_refl. reflexivity.
    + intros other N. rewrite find_snoc. destruct (find g other); [reflexivity|].
      destruct (text_eqb name other) eqn:E2; [apply text_eqb_eq in E2; congruence|reflexivity].
Qed.

Lemma initialise_declared g name cs ms :
  declares g cs ms -> 0 < declared_size ms < 2 ^ 32 -> (forall l, find g name <> Some (Native l)) ->
  exists g', initialise g name cs = Some (true, g') /\ registered_as g' name ms /\ forall other, other <> name -> find g' other = find g other.
Proof.
  intros D B N. destruct (build_declared g cs ms 0 D ltac:(lia) ltac:(lia)) as (es & E & F & T). cbn [Z.add] in *.
  assert (exists g', initialise g name cs = Some (true, g')) as (g' & H).
  { unfold initialise. rewrite E. replace (0 <? declared_size ms) with true by lia.
    destruct (find g name) as [[l|l]|] eqn:Ef; [destruct (N l eq_refl)|eauto|eauto]. }
  exists g'. split; [exact H|]. destruct (initialise_true _ _ _ _ H) as (es' & total & E' & _ & _ & Hf & Ho).
  rewrite E in E'. injection E' as <- <-. split; [|exact Ho].
  exists (Layout es (declared_size ms)). cbn. auto.
Qed.

Lemma initialise_refused g name cs g' : initialise g name cs = Some (false, g') -> g' = g.
Proof.
  unfold initialise. destruct (build g cs 0) as [[[es total]|]|]; [|congruence|discriminate].
  destruct (0 <? total); [|congruence]. destruct (find g name) as [[l|l]|]; congruence.
Qed.

Definition complete (cs : list child) : Prop :=
  Forall (fun c => match c with Leaf => True | Node _ type n => type <> None /\ n <> Unreadable end) cs.

Lemma build_complete g cs total r : build g cs total = Some (Some r) -> complete cs.
Proof.
  revert total r. induction cs as [|[|name type n] cs IH]; intros total r H; [constructor| |]; cbn [build] in H.
  - constructor; [exact I|]. eapply IH; exact H.
  - destruct type as [type|]; [|discriminate]. destruct (dimensions n) as [ds|] eqn:D; [|discriminate].
    destruct (print_modifiers ds); [|discriminate]. destruct (make_entry _ _ _ _ _); [|discriminate].
    destruct (build g cs _) as [[[es t']|]|] eqn:B; try discriminate.
    constructor; [split; [congruence|intros ->; discriminate]|]. eapply IH; exact B.
Qed.

Lemma run_app g h1 h2 :
  run g (h1 ++ h2) = match run g h1 with
                     | Some (b1, g1) => match run g1 h2 with Some (b2, g2) => Some (b1 ++ b2, g2) | None => None end
                     | None => None end.
Proof.
  revert g. induction h1 as [|[name cs] h1 IH]; intros g; cbn [app run].
  - destruct (run g h2) as [[b g2]|]; reflexivity.
  - destruct (initialise g name cs) as [[b g']|]; [|reflexivity]. rewrite IH.
    destruct (run g' h1) as [[b1 g1]|]; [|reflexivity]. destruct (run g1 h2) as [[b2 g2]|]; reflexivity.
Qed.

(** numbers that a uint32 can hold *)
Definition readable (cs : list child) : Prop :=
  Forall (fun c => match c with Node _ _ (Values l) => Forall (fun n => 0 <= n < 2 ^ 32) l | _ => True end) cs.

Lemma dimensions_range n ds : (match n with Values l => Forall (fun n => 0 <= n < 2 ^ 32) l | _ => True end) ->
  dimensions n = Some ds -> Forall (fun n => 0 <= n < 2 ^ 32) ds.
Proof.
  destruct n as [| |[|x [|y l]]]; cbn; intros H E; try discriminate; try (injection E as <-; exact H); try (injection E as <-; constructor).
  destruct (x =? 1); injection E as <-; [constructor|exact H].
Qed.

Lemma scan_dims_total ds t acc :
  writes_dimensions ds t -> Forall (fun d => 0 <= d < 2 ^ 32) ds -> exists r, scan t None acc = Some r.
Proof.
  intros W; revert acc. induction W as [|d ds s t D W IH]; intros acc F; [cbn; eauto|].
  cbn [scan]. destruct (length acc <? 3)%nat; [|eauto].
  change (91 =? ch_open) with true. cbv iota.
  pose proof (Forall_inv F) as B. cbv beta in B.
  unfold decimal_text in D. replace (d <? 0) with false in D by lia. destruct D as ((Dg & V) & _ & _).
  unfold value in V. rewrite scan_digits; [|exact Dg|lia|lia]. apply IH, (Forall_inv_tail F).
Qed.

Lemma build_total g cs total : readable cs -> exists r, build g cs total = Some r.
Proof.
  intros R; revert total. induction R as [|[|name type n] cs H R IH]; intros total; cbn [build]; [eauto|apply IH|].
  destruct type as [type|]; [|eauto]. destruct (dimensions n) as [ds|] eqn:D; [|eauto].
  assert (F : Forall (fun n => 0 <= n < 2 ^ 32) ds) by (eapply dimensions_range; [|exact D]; destruct n; exact H).
  destruct (print_modifiers_writes ds F) as (t & -> & W). unfold make_entry.
  destruct (scan_dims_total ds t [] W F) as (r & ->).
  destruct (IH (uwrap 32 (total + uwrap 32 (member_size g type * total_elements ds)))) as (r' & ->).
  destruct r' as [[es t']|]; eauto.
Qed.

Lemma initialise_total g name cs : readable cs -> exists b g', initialise g name cs = Some (b, g').
Proof.
  intros R. unfold initialise. destruct (build_total g cs 0 R) as (r & ->). destruct r as [[es t]|]; [|eauto].
  destruct (0 <? t); [|eauto]. destruct (find g name) as [[l|l]|]; eauto.
Qed.

Lemma run_total g h : Forall (fun s => readable (snd s)) h -> exists bs g', run g h = Some (bs, g') /\ length bs = length h.
Proof.
  intros F; revert g. induction F as [|[name cs] h R F IH]; intros g; [exists [], g; auto|].
  cbn [run snd] in *. destruct (initialise_total g name cs R) as (b & g' & ->). destruct (IH g') as (bs & g'' & -> & L).
  exists (b :: bs), g''. cbn. auto.
Qed.

(** what is known stays known when the registry only grows *)
Definition grows (g g' : registry) : Prop := forall t i, find g t = Some i -> find g' t = Some i.
Lemma declares_grows g g' cs ms : grows g g' -> declares g cs ms -> declares g' cs ms.
Proof.
  intros G. assert (S : forall t n, size_of g t n -> size_of g' t n).
  { intros t n [N [H|(H & i & l & A & B)]]; (split; [exact N|]); [left; exact H|right; split; [exact H|]]. exists i, l. split; [apply G, A|exact B]. }
  induction 1; [apply De_nil|apply De_leaf|apply De_scalar|apply De_array]; auto.
Qed.

(** the last accepted configuration of a name *)
Lemma run_native g h bs g' name l : run g h = Some (bs, g') -> find g name = Some (Native l) -> find g' name = Some (Native l).
Proof.
  revert g bs. induction h as [|[n cs] h IH]; intros g bs H N; cbn [run] in H; [congruence|].
  destruct (initialise g n cs) as [[b g1]|] eqn:E; [|discriminate].
  destruct (run g1 h) as [[bs' g2]|] eqn:E2; [|discriminate]. injection H as <- <-.
  eapply IH; [exact E2|]. destruct b.
  - destruct (initialise_true _ _ _ _ E) as (es & total & _ & _ & Nn & _ & Ho). rewrite Ho; [exact N|]. intros ->. exact (Nn l N).
  - rewrite (initialise_refused _ _ _ _ E). exact N.
Qed.
