(** Proofs about the types of a tree of data. *)
From Verif Require Import Base IntText_Model IntText_Spec IntText_Proofs IntText_Proofs2 Isr_Model Isr_Spec Isr_Proofs Rsd_Model Rsd_Spec.

(** ** Tokens *)

Lemma run_until_none term s : ~ In term s -> run_until term s = (s, []).
Proof.
  induction s as [|c s IH]; intros N; [reflexivity|]. cbn [run_until].
  replace (c =? term) with false by (symmetry; apply Z.eqb_neq; intros ->; apply N; left; reflexivity).
  rewrite IH; [reflexivity|]. intros I; apply N; right; exact I.
Qed.
Lemma run_until_some term s r : ~ In term s -> run_until term (s ++ term :: r) = (s, r).
Proof.
  induction s as [|c s IH]; intros N; cbn [app run_until].
  - rewrite Z.eqb_refl. reflexivity.
  - replace (c =? term) with false by (symmetry; apply Z.eqb_neq; intros ->; apply N; left; reflexivity).
    rewrite IH; [reflexivity|]. intros I; apply N; right; exact I.
Qed.
Lemma token_none term s : s <> [] -> ~ In term s -> token term s = Some (s, []).
Proof.
  destruct s as [|c s]; intros E N; [congruence|]. cbn [token].
  replace (c =? term) with false by (symmetry; apply Z.eqb_neq; intros ->; apply N; left; reflexivity).
  rewrite run_until_none by exact N. reflexivity.
Qed.
Lemma token_some term s r : s <> [] -> ~ In term s -> token term (s ++ term :: r) = Some (s, r).
Proof.
  destruct s as [|c s]; intros E N; [congruence|]. cbn [app token].
  replace (c =? term) with false by (symmetry; apply Z.eqb_neq; intros ->; apply N; left; reflexivity).
  change (c :: s ++ term :: r) with ((c :: s) ++ term :: r). rewrite run_until_some by exact N. reflexivity.
Qed.

Lemma decimal_digits s i : 0 <= i -> decimal_text s i -> s <> [] /\ Forall (is_digit 10) s /\ value 10 s = i /\ (1 <= i -> hd 0 s <> 48).
Proof.
  intros H D. unfold decimal_text in D. replace (i <? 0) with false in D by lia. destruct D as ((F & V) & N & L).
  repeat split; auto. intros P E. specialize (L E). subst s. cbn in V. lia.
Qed.

Lemma digits_not c s : Forall (is_digit 10) s -> (c < 48 \/ 57 < c) -> ~ In c s.
Proof. intros F H I. pose proof (is_digit_range c (proj1 (Forall_forall _ _) F c I)). lia. Qed.

Lemma parse_index s i : 1 <= i < 2 ^ 32 -> decimal_text s i -> string_to_integer uint32_t s = (true, i).
Proof.
  intros H D. destruct (decimal_digits s i ltac:(lia) D) as (N & F & V & Hd).
  apply string_to_integer_exact.
  - unfold std_ty; cbn; auto.
  - unfold c_string. eapply Forall_impl; [|exact F]. cbv beta. intros c C. pose proof (is_digit_range c C). lia.
  - unfold decimal_text in D. replace (i <? 0) with false in D by lia.
    pose proof (canonical_length_le 10 s i 10 ltac:(lia) D ltac:(change (10 ^ Z.of_nat 10) with 10000000000; lia) ltac:(lia)). lia.
  - right; left. exists i. repeat split; auto; try lia. unfold in_ty, imin, imax; cbn; lia. unfold imax; cbn; lia.
Qed.

Lemma group_array b l i n :
  plain b -> array_names b i (map fst l) -> 1 <= i -> i + Z.of_nat (length l) < 2 ^ 32 ->
  group b l i n = Some (i + Z.of_nat (length l), (n + length l)%nat).
Proof.
  intros P. revert i n. induction l as [|[nm c] l IH]; intros i n A H L; [cbn; rewrite Z.add_0_r, Nat.add_0_r; reflexivity|].
  cbn [map fst length] in *. inversion A as [|i' s l' D A' E1 E2]; subst. cbn [group]. unfold ch_open, ch_close.
  destruct (decimal_digits s i ltac:(lia) D) as (N & F & V & _).
  rewrite (token_some 91 b (s ++ [93]) (proj1 P) (proj2 P)). rewrite text_eqb_refl.
  rewrite (token_some 93 s [] N (digits_not 93 s F ltac:(lia))).
  rewrite (parse_index s i ltac:(lia) D). rewrite uwrap_id by lia. rewrite IH by (try exact A'; lia).
  do 2 f_equal; lia.
Qed.

(** ** Names *)

Lemma read_says i l t ty ds pre post : l = pre ++ (i, Lf ty ds (Some t)) :: post -> ~ In i (map fst pre) -> read i l = t.
Proof.
  intros -> N. induction pre as [|[n c] pre IH]; cbn [app read].
  - rewrite text_eqb_refl. reflexivity.
  - destruct (text_eqb n i) eqn:E; [apply text_eqb_eq in E; subst; destruct N; left; reflexivity|].
    apply IH. intros I; apply N; right; exact I.
Qed.
Lemma read_none i l : ~ In i (map fst l) -> read i l = [].
Proof.
  induction l as [|[n c] l IH]; intros N; [reflexivity|]. cbn [read].
  destruct (text_eqb n i) eqn:E; [apply text_eqb_eq in E; subst; destruct N; left; reflexivity|].
  apply IH. intros I; apply N; right; exact I.
Qed.
Lemma type_name_says id name l t : says id l t -> type_name id name l = t.
Proof.
  intros (N & i & ty & ds & pre & post & -> & E & NI). unfold type_name. rewrite (read_says i l t ty ds pre post E NI).
  destruct t; [congruence|reflexivity].
Qed.
Lemma type_name_auto id name l : (forall i, id = Some i -> ~ In i (map fst l)) ->
  type_name id name l = match name with None => auto_root | Some n => auto ++ (match token 91 n with Some (t, _) => t | None => n end) end.
Proof.
  intros N. unfold type_name. destruct id as [i|]; [rewrite (read_none i l (N i eq_refl)); reflexivity|reflexivity].
Qed.
Lemma type_name_named id b l t : plain b -> named id b l t -> type_name id (Some b) l = t.
Proof.
  intros P [S|(N & ->)]; [apply type_name_says, S|]. rewrite type_name_auto by exact N.
  rewrite (token_none 91 b (proj1 P) (proj2 P)). reflexivity.
Qed.
Lemma type_name_named_array id b x l t : plain b -> named id b l t -> type_name id (Some (b ++ 91 :: x)) l = t.
Proof.
  intros P [S|(N & ->)]; [apply type_name_says, S|]. rewrite type_name_auto by exact N.
  rewrite (token_some 91 b x (proj1 P) (proj2 P)). reflexivity.
Qed.
Lemma type_name_root id name l t : root_named id name l t -> type_name id name l = t.
Proof.
  destruct name as [n|]; cbn [root_named]; [intros [P N]; apply type_name_named; assumption|].
  intros [S|(N & ->)]; [apply type_name_says, S|]. rewrite type_name_auto by exact N. reflexivity.
Qed.

(** ** The list of the types *)

Definition as_child (m : member) : child :=
  let '(n, ty, ds, _) := m in Node n (Some ty) (Values (match ds with [] => [1] | d => d end)).
Definition as_type (t : text * list member) : text * list child := (fst t, map as_child (snd t)).

Lemma shape_child ds : (match shape ds with [] => [1] | _ :: _ => shape ds end) = match ds with [] => [1] | _ :: _ => ds end.
Proof.
  destruct ds as [|x [|y l]]; [reflexivity| |destruct x as [|[p|p|]|p]; reflexivity].
  destruct x as [|[p|p|]|p]; reflexivity.
Qed.

Lemma has_member_app n a b : has_member n (a ++ b) = has_member n a || has_member n b.
Proof. unfold has_member. apply existsb_app. Qed.

Lemma has_member_one n m : has_member n [as_child m] = text_eqb (name_of m) n.
Proof. destruct m as [[[a b] c] d]. cbn. apply orb_false_r. Qed.

Lemma skip_all id rec l ms ts : children_loop id rec l (length l) ms ts = Some (Some (ms, ts)).
Proof. induction l as [|[n c] l IH]; [reflexivity|]. cbn [length children_loop]. exact IH. Qed.

Lemma loop_described id l ms ts :
  describes id l ms ts -> forall pre nested, (forall m, In m ms -> has_member (name_of m) pre = false) ->
  children_loop id (fun n c => collect id (Some n) c) l 0 pre nested = Some (Some (pre ++ map as_child ms, nested ++ map as_type ts)).
Proof.
  induction 1 as [|n ty ds str r ms ts Hid D IH|n ty ds str s r ms ts Hid Hs L F Ni D IH|b sub t ms ts P N D IH|b sub t ms ts others l P N D IH E A L];
    intros pre nested Fr.
  - cbn. rewrite !app_nil_r. reflexivity.
  - cbn [children_loop]. rewrite Hid, text_eqb_refl. rewrite Hid in IH. apply IH, Fr.
  - cbn [children_loop].
    assert (X : (match id with Some i => text_eqb n i | None => false end) = false).
    { destruct id as [i|]; [|reflexivity]. destruct (text_eqb n i) eqn:Y; [apply text_eqb_eq in Y; congruence|reflexivity]. }
    rewrite X. pose proof (Fr (n, ty, shape ds, s) ltac:(left; reflexivity)) as Fn. cbn [name_of fst] in Fn. rewrite Fn.
    pose (m := (n, ty, shape ds, s) : member).
    assert (Em : as_child m = Node n (Some ty) (Values (match ds with [] => [1] | d => d end))).
    { unfold m, as_child. cbv beta iota. rewrite shape_child. reflexivity. }
    rewrite <- Em. rewrite IH.
    + fold m. cbn [map]. rewrite <- app_assoc. reflexivity.
    + intros m' I. rewrite has_member_app, has_member_one, (Fr m') by (right; exact I). cbn [orb].
      destruct (text_eqb (name_of m) (name_of m')) eqn:Y; [|reflexivity]. apply text_eqb_eq in Y.
      destruct Ni. change n with (name_of m). rewrite Y. apply in_map, I.
  - cbn [children_loop]. unfold ch_open. rewrite (token_none 91 b (proj1 P) (proj2 P)). cbn [group].
    cbn [collect]. rewrite IH by (intros; reflexivity). cbn [app].
    pose proof (Fr (b, t, [], declared_size ms) ltac:(left; reflexivity)) as Fn. cbn [name_of fst] in Fn. rewrite Fn.
    rewrite (type_name_named id b sub t P N). reflexivity.
  - cbn [children_loop]. unfold ch_open. change (b ++ [91; 48; 93]) with (b ++ 91 :: [48; 93]).
    rewrite (token_some 91 b [48; 93] (proj1 P) (proj2 P)). subst l. rewrite map_length in L.
    rewrite (group_array b others 1 0 P A ltac:(lia) L). cbn [Nat.add].
    cbn [collect]. rewrite IH by (intros; reflexivity). cbn [app].
    pose proof (Fr _ ltac:(left; reflexivity)) as Fn. cbn [name_of fst] in Fn. rewrite Fn.
    pose proof (type_name_named_array id b [48; 93] sub t P N : type_name id (@Some text (b ++ [91; 48; 93])) sub = t) as TN.
    rewrite TN. rewrite skip_all. rewrite map_length.
    cbn [map as_child as_type fst snd]. rewrite shape_child. reflexivity.
Qed.

(** ** Their registration *)

Lemma initialise_all_app g a b :
  initialise_all g (a ++ b) = match initialise_all g a with Some (true, g') => initialise_all g' b | other => other end.
Proof.
  revert g. induction a as [|[n cs] a IH]; intros g; [reflexivity|]. cbn [app initialise_all].
  destruct (initialise g n cs) as [[[|] g']|]; [apply IH|reflexivity|reflexivity].
Qed.

Definition acceptable (g : registry) (t : text * list member) : Prop :=
  assoc basic_types (fst t) = None /\ (forall l, find g (fst t) <> Some (Native l)) /\ 0 < declared_size (snd t) < 2 ^ 32.

Lemma registered_size g t ms : assoc basic_types t = None -> 0 <= declared_size ms -> registered_as g t ms -> size_of g t (declared_size ms).
Proof.
  intros B S (l & F & _ & _ & C). split; [exact S|]. right. split; [exact B|]. exists (Configured l), l. auto.
Qed.

Lemma shape_cases ds : (length ds <= 3)%nat -> Forall (fun d => 1 <= d < 2 ^ 32) ds ->
  shape ds = [] \/ (shape ds = ds /\ ds <> [] /\ ds <> [1]).
Proof.
  intros L F. destruct (list_eq_dec Z.eq_dec ds []) as [->|N]; [left; reflexivity|].
  destruct (list_eq_dec Z.eq_dec ds [1]) as [->|N1]; [left; reflexivity|]. right. split; [|auto].
  destruct ds as [|x [|y l]]; [congruence| |destruct x as [|[p|p|]|p]; reflexivity].
  destruct x as [|[p|p|]|p]; try reflexivity. congruence.
Qed.

Lemma declares_child g n ty ds s cs ms :
  (length ds <= 3)%nat -> Forall (fun d => 1 <= d < 2 ^ 32) ds -> size_of g ty s -> declares g cs ms ->
  declares g (as_child (n, ty, shape ds, s) :: cs) ((n, ty, shape ds, s) :: ms).
Proof.
  intros L F S D. unfold as_child. cbv beta iota. destruct (shape_cases ds L F) as [E|(E & N & N1)]; rewrite E.
  - apply De_scalar; [right; reflexivity|exact S|exact D].
  - destruct ds as [|x l]; [congruence|]. apply De_array; assumption.
Qed.

Lemma initialise_step g g0 t ms ts :
  initialise_all g (rev (map as_type ts)) = Some (true, g0) -> declares g0 (map as_child ms) ms -> acceptable g (t, ms) ->
  ~ In t (map fst ts) -> (forall other, ~ In other (map fst ts) -> find g0 other = find g other) ->
  (forall t' m', In (t', m') ts -> registered_as g0 t' m') ->
  exists g1, initialise_all g (rev (map as_type ((t, ms) :: ts))) = Some (true, g1) /\
    (forall t' m', In (t', m') ((t, ms) :: ts) -> registered_as g1 t' m') /\
    (forall other, ~ In other (map fst ((t, ms) :: ts)) -> find g1 other = find g other).
Proof.
  intros I D (B & N & S) NI O R. cbn [fst snd] in *.
  destruct (initialise_declared g0 t (map as_child ms) ms D S) as (g1 & I1 & R1 & O1); [intros l; rewrite O by exact NI; apply N|].
  exists g1. split; [|split].
  - cbn [map rev]. rewrite initialise_all_app, I. cbn [initialise_all as_type fst snd]. rewrite I1. reflexivity.
  - intros t' m' [X|X]; [injection X as <- <-; exact R1|].
    destruct (R t' m' X) as (l & Fi & Rest). exists l. split; [|exact Rest]. rewrite O1; [exact Fi|].
    intros ->. apply NI. change t with (fst (t, m')). apply in_map, X.
  - intros other X. cbn [map fst] in X. rewrite O1; [apply O|]; intros Y; apply X; [right; exact Y|left; congruence].
Qed.

Lemma initialise_described id l ms ts :
  describes id l ms ts -> forall g, NoDup (map fst ts) -> (forall t, In t ts -> acceptable g t) ->
  exists g', initialise_all g (rev (map as_type ts)) = Some (true, g') /\ declares g' (map as_child ms) ms /\
    (forall t' m', In (t', m') ts -> registered_as g' t' m') /\ (forall other, ~ In other (map fst ts) -> find g' other = find g other).
Proof.
  induction 1 as [|n ty ds str r ms ts Hid D IH|n ty ds str s r ms ts Hid Hs L F Ni D IH|b sub t ms ts P N D IH|b sub t ms ts others l P N D IH E A L];
    intros g ND Ac.
  - exists g. cbn. repeat split; [constructor|intros ? ? []].
  - apply IH; assumption.
  - destruct (IH g ND Ac) as (g' & I & De & R & O). exists g'. split; [exact I|]. split; [|auto].
    cbn [map]. apply declares_child; auto. split; [|left; exact Hs].
    clear - Hs. unfold basic_types in Hs. cbn [assoc] in Hs.
    repeat match type of Hs with (if ?c then _ else _) = _ => destruct c; [injection Hs as <-; lia|] end. discriminate.
  - cbn [map] in ND. apply NoDup_cons_iff in ND. destruct ND as [NI ND].
    destruct (IH g ND) as (g0 & I & De & R & O); [intros t' X; apply Ac; right; exact X|].
    pose proof (Ac (t, ms) ltac:(left; reflexivity)) as At.
    destruct (initialise_step g g0 t ms ts I De At NI O R) as (g1 & I1 & R1 & O1).
    exists g1. split; [exact I1|]. split; [|auto]. cbn [map].
    destruct At as (B & _ & S). cbn [fst snd] in *.
    apply (declares_child g1 b t [] (declared_size ms) [] []); [cbn; lia|constructor| |constructor].
    apply registered_size; [exact B|lia|]. apply R1. left; reflexivity.
  - cbn [map] in ND. apply NoDup_cons_iff in ND. destruct ND as [NI ND].
    destruct (IH g ND) as (g0 & I & De & R & O); [intros t' X; apply Ac; right; exact X|].
    pose proof (Ac (t, ms) ltac:(left; reflexivity)) as At.
    destruct (initialise_step g g0 t ms ts I De At NI O R) as (g1 & I1 & R1 & O1).
    exists g1. split; [exact I1|]. split; [|auto]. cbn [map].
    destruct At as (B & _ & S). cbn [fst snd] in *.
    apply (declares_child g1 b t [1 + Z.of_nat (length l)] (declared_size ms) [] []); [cbn; lia|constructor; [lia|constructor]| |constructor].
    apply registered_size; [exact B|lia|]. apply R1. left; reflexivity.
Qed.

Lemma distinct_NoDup l : NoDup l -> distinct l = true.
Proof.
  induction 1 as [|n l NI ND IH]; [reflexivity|]. cbn [distinct]. rewrite IH, andb_true_r.
  destruct (existsb (text_eqb n) l) eqn:E; [|reflexivity]. apply existsb_exists in E. destruct E as (x & I & X).
  apply text_eqb_eq in X. subst. contradiction.
Qed.

Lemma register_described g id name children t ms ts :
  describes id children ms ts -> root_named id name children t -> NoDup (t :: map fst ts) ->
  (forall x, In x ((t, ms) :: ts) -> acceptable g x) ->
  exists g', register_tree g id name children = Some (true, g') /\
    (forall t' m', In (t', m') ((t, ms) :: ts) -> registered_as g' t' m') /\
    (forall other, ~ In other (t :: map fst ts) -> find g' other = find g other).
Proof.
  intros D N ND Ac. pose proof ND as ND0. apply NoDup_cons_iff in ND. destruct ND as [NI ND].
  destruct (initialise_described id children ms ts D g ND) as (g0 & I & De & R & O); [intros x X; apply Ac; right; exact X|].
  destruct (initialise_step g g0 t ms ts I De (Ac _ ltac:(left; reflexivity)) NI O R) as (g1 & I1 & R1 & O1).
  exists g1. split; [|auto]. unfold register_tree. cbn [collect].
  rewrite (loop_described id children ms ts D [] []) by (intros; reflexivity). cbn [app].
  rewrite (type_name_root id name children t N).
  replace (map fst ((t, map as_child ms) :: map as_type ts)) with (t :: map fst ts).
  - rewrite (distinct_NoDup _ ND0). exact I1.
  - cbn [map fst]. f_equal. rewrite map_map. apply map_ext. reflexivity.
Qed.

(** ** Whatever the tree is *)

Lemma initialise_all_native g l b g' name i :
  initialise_all g l = Some (b, g') -> find g name = Some (Native i) -> find g' name = Some (Native i).
Proof.
  revert g. induction l as [|[n cs] l IH]; intros g H N; cbn [initialise_all] in H; [congruence|].
  destruct (initialise g n cs) as [[[|] g1]|] eqn:E; [| |discriminate].
  - apply (IH g1 H). destruct (initialise_true _ _ _ _ E) as (es & total & _ & _ & Nn & _ & Ho). rewrite Ho; [exact N|]. intros ->. exact (Nn i N).
  - injection H as <- <-. rewrite (initialise_refused _ _ _ _ E). exact N.
Qed.
Lemma register_native g id name children b g' n i :
  register_tree g id name children = Some (b, g') -> find g n = Some (Native i) -> find g' n = Some (Native i).
Proof.
  unfold register_tree. destruct (collect id name (Nd children)) as [[ts|]|]; [|congruence|discriminate].
  destruct (distinct (map fst ts)); [|congruence]. apply initialise_all_native.
Qed.
