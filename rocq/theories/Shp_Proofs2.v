(** Proofs about the functions on C texts: occurrences, concatenation, tokens and parts. *)
From Verif Require Import Base Shp_Model Shp_Spec Shp_Proofs.

Lemma split_at {A} (l : list A) k : (k <= length l)%nat -> exists a b, l = a ++ b /\ length a = k.
Proof. intros H. exists (firstn k l), (skipn k l). rewrite firstn_skipn, firstn_length_le by lia. auto. Qed.

(** Occurrences *)
Lemma starts s t r rt : ~ In 0 s -> ~ In 0 t -> exists k, compare_n (s ++ 0 :: r) (t ++ 0 :: rt) (len t) = Some k /\ (k = 0 <-> exists b, s = t ++ b).
Proof.
  intros H1 H2. destruct (compare_n_text s t r rt (len t) H1 H2) as (k & E & C). exists k. split; [exact E|]. rewrite Nat2Z.id in C. rewrite firstn_all in C. split.
  - intros ->. destruct C as [[_ C]|[[C _]|[C _]]]; [|discriminate..]. exists (skipn (length t) s). rewrite <- C at 1. symmetry. apply firstn_skipn.
  - intros (b & ->). assert (F : firstn (length t) (t ++ b) = t) by (rewrite firstn_app, Nat.sub_diag, firstn_all, firstn_O, app_nil_r; reflexivity).
    destruct C as [[C _]|[[_ C]|[_ C]]]; [exact C| |]; apply less_not_equal in C; rewrite Nat2Z.id, F, firstn_all in C; congruence.
Qed.
Lemma absent_cons t c s : ~ (exists b, c :: s = t ++ b) -> absent t s -> absent t (c :: s).
Proof. intros P A a b E. destruct a as [|x a]; [apply P; exists b; exact E|]. cbn in E. injection E as -> E. exact (A a b E). Qed.
Lemma occurrence_cons t c s a b : ~ (exists b, c :: s = t ++ b) -> first_occurrence t s a b -> first_occurrence t (c :: s) (c :: a) b.
Proof.
  intros P [E F]. split; [cbn; rewrite E; reflexivity|]. intros a' b' E'. destruct a' as [|x a']; [exfalso; apply P; exists b'; exact E'|]. cbn in E'. injection E' as -> E'.
  cbn [length]. specialize (F a' b' E'). lia.
Qed.
Lemma occurrence_here t b : first_occurrence t (t ++ b) [] b.
Proof. split; [reflexivity|]. intros. cbn. lia. Qed.
Lemma absent_short t s : (length s < length t)%nat -> absent t s.
Proof. intros L a b E. apply (f_equal (@length Z)) in E. rewrite !app_length in E. lia. Qed.

Lemma string_loop_text t rt : ~ In 0 t -> forall s r i, ~ In 0 s ->
  (string_loop (s ++ 0 :: r) (t ++ 0 :: rt) (len s) (len t) i = Some None /\ absent t s) \/
  (exists a b, first_occurrence t s a b /\ string_loop (s ++ 0 :: r) (t ++ 0 :: rt) (len s) (len t) i = Some (Some (i + len a))).
Proof.
  intros T. induction s as [|c s IH]; intros r i H.
  - cbn [app string_loop length]. destruct (len t <=? Z.of_nat 0) eqn:L.
    + destruct (starts [] t r rt H T) as (k & E & K). cbn [app] in E. rewrite E. assert (t = []) by (destruct t; [reflexivity|cbn in L; lia]). subst t.
      assert (k = 0) by (apply K; exists []; reflexivity). subst k. right. exists [], []. split; [apply (occurrence_here [] [])|]. cbn. do 2 f_equal. lia.
    + left. split; [reflexivity|]. apply absent_short. cbn. lia.
  - nz H. cbn [app string_loop]. destruct (len t <=? len (c :: s)) eqn:L.
    + destruct (starts (c :: s) t r rt H T) as (k & E & K). cbn [app] in E. rewrite E. destruct (k =? 0) eqn:Z0.
      * right. destruct K as [K _]. destruct (K ltac:(lia)) as (b & B). exists [], b. split; [rewrite B; apply occurrence_here|]. cbn. do 2 f_equal. lia.
      * assert (P : ~ exists b, c :: s = t ++ b) by (intros Q; apply K in Q; lia).
        replace (len (c :: s) - 1) with (len s) by (cbn [length]; lia). destruct (IH r (i + 1) Hs) as [[E1 A]|(a & b & F & E1)]; rewrite E1.
        -- left. split; [reflexivity|]. apply absent_cons; assumption.
        -- right. exists (c :: a), b. split; [apply occurrence_cons; assumption|]. cbn [length]. do 2 f_equal. lia.
    + left. split; [reflexivity|]. apply absent_short. lia.
Qed.

(** Concatenation *)
Lemma put_text_ok s : forall q used rest, ~ In 0 s -> length used = S (length s) -> put_text (s ++ 0 :: q) (used ++ rest) = Some (s ++ 0 :: rest).
Proof.
  induction s as [|c s IH]; intros q [|u used] rest H L; try discriminate L; cbn [app put_text].
  - destruct used; [reflexivity|discriminate].
  - nz H. replace (c =? 0) with false by lia. rewrite IH by (auto; cbn in L; lia). reflexivity.
Qed.
Lemma put_text_n_ok s : forall q n used rest, ~ In 0 s -> 0 <= n -> length used = S (length (firstn (Z.to_nat n) s)) ->
  put_text_n (s ++ 0 :: q) (used ++ rest) n = Some (firstn (Z.to_nat n) s ++ 0 :: rest).
Proof.
  induction s as [|c s IH]; intros q n [|u used] rest H N L; try discriminate L; cbn [app put_text_n].
  - rewrite firstn_nil in *. destruct used; [|discriminate]. cbn [app]. destruct (0 <? n); reflexivity.
  - nz H. destruct (0 <? n) eqn:Z0.
    + replace (c =? 0) with false by lia. replace (Z.to_nat n) with (S (Z.to_nat (n - 1))) in * by lia. cbn [firstn length app] in *. rewrite IH by (auto; lia). reflexivity.
    + replace (Z.to_nat n) with 0%nat in * by lia. cbn [firstn length app] in *. destruct used; [reflexivity|discriminate].
Qed.
Lemma put_then_ok f s : forall q used rest, ~ In 0 s -> length used = S (length s) ->
  put_then f (s ++ 0 :: q) (used ++ rest) = match f (0 :: rest) with None => None | Some r => Some (s ++ r) end.
Proof.
  induction s as [|c s IH]; intros q [|u used] rest H L; try discriminate L; cbn [app put_then].
  - destruct used; [|discriminate]. cbn. destruct (f (0 :: rest)); reflexivity.
  - nz H. replace (c =? 0) with false by lia. rewrite IH by (auto; cbn in L; lia). destruct (f (0 :: rest)); reflexivity.
Qed.
Lemma holds_intro old s used rest : old = used ++ rest -> length used = S (length s) -> holds old (s ++ 0 :: rest) s.
Proof. intros E L. exists used. split; [exact L|]. exists rest. auto. Qed.
Lemma firstn_at_most {A} n (s : list A) : (length (firstn n s) <= length s)%nat.
Proof. rewrite firstn_length. lia. Qed.
Lemma concatenate_gen m1 s1 t r f : text m1 s1 -> (length s1 + length t < length r)%nat ->
  (forall used rest, length used = S (length t) -> f (used ++ rest) = Some (t ++ 0 :: rest)) ->
  exists r', put_then f m1 r = Some r' /\ holds r r' (s1 ++ t).
Proof.
  intros (q1 & -> & H1) L F.
  destruct (split_at r (S (length s1)) ltac:(lia)) as (u1 & r1 & E1 & L1).
  destruct (split_at r1 (length t)) as (u2 & r2 & E2 & L2); [rewrite E1, app_length in L; lia|].
  rewrite E1, (put_then_ok f s1 q1 u1 r1 H1 L1). rewrite E2. change (0 :: u2 ++ r2) with ((0 :: u2) ++ r2). rewrite F by (cbn; lia).
  eexists. split; [reflexivity|]. rewrite (app_assoc s1). apply (holds_intro _ _ (u1 ++ u2)); [rewrite <- app_assoc; reflexivity|]. rewrite !app_length. lia.
Qed.

(** Tokens *)
Lemma tokenize_chars_text d ds : text d ds -> forall s q i r, ~ In 0 s -> exists a, before_any ds s a /\
  ((length a < length r)%nat -> exists r', tokenize_chars (s ++ 0 :: q) d r i = Some (if (length a =? length s)%nat then i + len s else i + len a + 1, r') /\ holds r r' a).
Proof.
  intros D. induction s as [|c s IH]; intros q i r H.
  - exists []. split; [split; [contradiction|left; reflexivity]|]. intros L. destruct r as [|x r]; [cbn in L; lia|]. cbn [app tokenize_chars]. destruct (text_nonempty _ _ D) as (y & d' & ->). cbn.
    exists (0 :: r). split; [f_equal; f_equal; lia|]. apply (holds_intro (x :: r) [] [x]); reflexivity.
  - nz H. destruct (one_of_text c d ds D Hc) as (b & B1 & B). destruct b.
    + exists []. split; [split; [contradiction|right; exists c, s; split; [reflexivity|apply B; reflexivity]]|]. intros L. destruct r as [|x r]; [cbn in L; lia|].
      cbn [app tokenize_chars]. replace (c =? 0) with false by lia. rewrite B1. cbn. exists (0 :: r). split; [f_equal; f_equal; lia|]. apply (holds_intro (x :: r) [] [x]); reflexivity.
    + destruct (IH q (i + 1) (tl r) Hs) as (a & [N A] & E). exists (c :: a). split.
      * split; [intros x [<-|X]; [intros Q; apply B in Q; discriminate|exact (N x X)]|]. destruct A as [->|(y & b & -> & Y)]; [left; reflexivity|right; exists y, b; auto].
      * intros L. destruct r as [|x r]; [cbn in L; lia|]. cbn [tl] in E. destruct E as (r' & E & u & Lu & rest & U & V); [cbn in L; lia|].
        cbn [app tokenize_chars]. replace (c =? 0) with false by lia. rewrite B1, E. cbn [cons_to length Nat.eqb]. exists (c :: r'). split.
        -- do 2 f_equal. destruct (_ =? _)%nat; lia.
        -- subst r r'. apply (holds_intro _ (c :: a) (x :: u)); [reflexivity|cbn; lia].
Qed.
Lemma strcpy_text s : forall q r, ~ In 0 s -> (length s < length r)%nat -> exists r', strcpy r (s ++ 0 :: q) = Some r' /\ holds r r' s.
Proof.
  induction s as [|c s IH]; intros q [|x r] H L; cbn in L; try lia; cbn [app strcpy].
  - exists (0 :: r). split; [reflexivity|]. apply (holds_intro (x :: r) [] [x]); reflexivity.
  - nz H. replace (c =? 0) with false by lia. destruct (IH q r Hs ltac:(lia)) as (r' & -> & u & Lu & rest & U & V). exists (c :: r'). split; [reflexivity|].
    subst r r'. apply (holds_intro _ (c :: s) (x :: u)); [reflexivity|cbn; lia].
Qed.
Lemma tokens_loop_text t rt : ~ In 0 t -> forall s q r i, ~ In 0 s -> (length s < length r)%nat ->
  (absent t s /\ exists r', tokens_loop strcpy (s ++ 0 :: q) (t ++ 0 :: rt) (len s) (len t) r i = Some (None, r') /\ holds r r' s) \/
  (exists a b, first_occurrence t s a b /\ exists r', tokens_loop strcpy (s ++ 0 :: q) (t ++ 0 :: rt) (len s) (len t) r i = Some (Some (i + len a + len t), r') /\ holds r r' a).
Proof.
  intros T. induction s as [|c s IH]; intros q [|x r] i H R; try (cbn in R; lia).
  - cbn [app tokens_loop length]. destruct (len t <=? Z.of_nat 0) eqn:L.
    + destruct (starts [] t q rt H T) as (k & E & K). cbn [app] in E. rewrite E. assert (t = []) by (destruct t; [reflexivity|cbn in L; lia]). subst t.
      assert (k = 0) by (apply K; exists []; reflexivity). subst k. right. exists [], []. split; [apply (occurrence_here [] [])|]. cbn. exists (0 :: r).
      split; [f_equal; f_equal; f_equal; lia|]. apply (holds_intro (x :: r) [] [x]); reflexivity.
    + left. split; [apply absent_short; cbn; lia|]. cbn. exists (0 :: r). split; [reflexivity|]. apply (holds_intro (x :: r) [] [x]); reflexivity.
  - nz H. cbn [app tokens_loop]. destruct (len t <=? len (c :: s)) eqn:L.
    + destruct (starts (c :: s) t q rt H T) as (k & E & K). cbn [app] in E. rewrite E. destruct (k =? 0) eqn:Z0.
      * right. destruct K as [K _]. destruct (K ltac:(lia)) as (b & B). exists [], b. split; [rewrite B; apply occurrence_here|]. exists (0 :: r). cbn [length].
        split; [f_equal; f_equal; f_equal; lia|]. apply (holds_intro (x :: r) [] [x]); reflexivity.
      * assert (P : ~ exists b, c :: s = t ++ b) by (intros Q; apply K in Q; lia).
        replace (len (c :: s) - 1) with (len s) by (cbn [length]; lia).
        destruct (IH q r (i + 1) Hs ltac:(cbn in R; lia)) as [[A (r' & E1 & u & Lu & rest & U & V)]|(a & b & F & r' & E1 & u & Lu & rest & U & V)]; rewrite E1; cbn [cons_to]; subst r r'.
        -- left. split; [apply absent_cons; assumption|]. eexists. split; [reflexivity|]. apply (holds_intro _ (c :: s) (x :: u)); [reflexivity|cbn; lia].
        -- right. exists (c :: a), b. split; [apply occurrence_cons; assumption|]. eexists. split; [do 2 f_equal; f_equal; cbn [length]; lia|]. apply (holds_intro _ (c :: a) (x :: u)); [reflexivity|cbn; lia].
    + left. split; [apply absent_short; lia|]. destruct (strcpy_text (c :: s) q (x :: r) H R) as (r' & E & V). cbn [app] in E. rewrite E. exists r'. auto.
Qed.

(** Parts *)
Lemma sub_loop_text s : forall q r n, ~ In 0 s -> 0 <= n -> (length (firstn (Z.to_nat n) s) < length r)%nat ->
  exists r', sub_loop (s ++ 0 :: q) r n = Some (n <=? len s, r') /\ holds r r' (firstn (Z.to_nat n) s).
Proof.
  induction s as [|c s IH]; intros q [|x r] n H N L; try (cbn in L; lia); cbn [app sub_loop].
  - rewrite firstn_nil. exists (0 :: r). split; [|apply (holds_intro (x :: r) [] [x]); reflexivity]. destruct (0 <? n) eqn:Z0; cbn; do 2 f_equal; lia.
  - nz H. destruct (0 <? n) eqn:Z0.
    + replace (c =? 0) with false by lia. replace (Z.to_nat n) with (S (Z.to_nat (n - 1))) in * by lia. cbn [firstn length] in *.
      destruct (IH q r (n - 1) Hs ltac:(lia) ltac:(lia)) as (r' & -> & u & Lu & rest & U & V). cbn [cons_to]. exists (c :: r'). split; [do 2 f_equal; lia|].
      subst r r'. apply (holds_intro _ (c :: _) (x :: u)); [reflexivity|cbn [length]; lia].
    + replace (Z.to_nat n) with 0%nat by lia. cbn [firstn]. exists (0 :: r). split; [do 2 f_equal; cbn [length]; lia|]. apply (holds_intro (x :: r) [] [x]); reflexivity.
Qed.

(** The portable Copy and Concatenate *)
Lemma copy_chars_ok s : forall q used rest, ~ In 0 s -> length used = length s -> copy_chars (used ++ rest) (s ++ 0 :: q) = Some (s ++ rest).
Proof.
  induction s as [|c s IH]; intros q [|u used] rest H L; try discriminate L; cbn [app copy_chars]; [reflexivity|].
  nz H. replace (c =? 0) with false by lia. rewrite IH by (auto; cbn in L; lia). reflexivity.
Qed.
Lemma at_end_ok f s : forall rest, ~ In 0 s -> at_end f (s ++ 0 :: rest) = match f (0 :: rest) with None => None | Some r => Some (s ++ r) end.
Proof.
  induction s as [|c s IH]; intros rest H; cbn [app at_end].
  - cbn. destruct (f (0 :: rest)); reflexivity.
  - nz H. replace (c =? 0) with false by lia. rewrite IH by assumption. destruct (f (0 :: rest)); reflexivity.
Qed.
Lemma text_unique s : forall t a b, ~ In 0 s -> ~ In 0 t -> s ++ 0 :: a = t ++ 0 :: b -> s = t.
Proof.
  induction s as [|c s IH]; intros [|x t] a b H1 H2 E; cbn in E; [reflexivity| | |].
  - injection E as E _. nz H2. congruence.
  - injection E as E _. nz H1. congruence.
  - injection E as -> E. nz H1. nz H2. f_equal. exact (IH t a b Hs Hs0 E).
Qed.
Lemma text_here s x rest : ~ In 0 s -> (text (s ++ x :: rest) s <-> x = 0).
Proof.
  intros H. split.
  - intros (r & E & _). apply app_inv_head in E. congruence.
  - intros ->. exists rest. auto.
Qed.
Lemma copy_chars_n_ok s : forall q used rest n, ~ In 0 s -> 0 <= n -> length used = length (firstn (Z.to_nat n) s) ->
  copy_chars_n (used ++ rest) (s ++ 0 :: q) n = Some (firstn (Z.to_nat n) s ++ rest).
Proof.
  induction s as [|c s IH]; intros q used rest n H N L.
  - rewrite firstn_nil in *. destruct used; [reflexivity|discriminate L].
  - cbn [app copy_chars_n]. nz H. replace (c =? 0) with false by lia. cbn [negb andb]. destruct (0 <? n) eqn:Z0.
    + replace (Z.to_nat n) with (S (Z.to_nat (n - 1))) in * by lia. cbn [firstn length] in *. destruct used as [|u used]; [discriminate L|].
      cbn [app]. rewrite IH by (auto; cbn in L; lia). reflexivity.
    + replace (Z.to_nat n) with 0%nat in * by lia. destruct used; [reflexivity|discriminate L].
Qed.
