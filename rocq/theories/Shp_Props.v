(** C64: the functions on C texts, for all texts, buffers and sizes. *)
From Verif Require Import Base Shp_Model Shp_Spec Shp_Proofs Shp_Proofs2.

Theorem C64_length : forall m s, text m s -> length_of m = Some (len s).
Proof. exact length_text. Qed.
Print Assumptions C64_length.

(** Compare: 0 for equal texts, 1 if the first is smaller, 2 if the second is smaller; always one of them. *)
Theorem C64_compare : forall m1 m2 s1 s2, text m1 s1 -> text m2 s2 -> exists r, compare m1 m2 = Some r /\ (r = 0 \/ r = 1 \/ r = 2) /\
  (r = 0 <-> s1 = s2) /\ (r = 1 <-> less None s1 s2) /\ (r = 2 <-> less None s2 s1).
Proof.
  intros m1 m2 s1 s2 (r1 & -> & H1) (r2 & -> & H2). destruct (compare_text s1 s2 r1 r2 H1 H2) as (r & E & C). exists r. split; [exact E|].
  destruct C as [[-> ->]|[[-> C]|[-> C]]]; (split; [auto|]); repeat split; intros X; try discriminate; try reflexivity; try assumption; exfalso;
    try (apply less_irrefl in X; congruence); try (apply less_irrefl in C; congruence); exact (less_asym _ _ _ _ C X).
Qed.
Print Assumptions C64_compare.

(** CompareN: the same for the first [n] characters. *)
Theorem C64_compare_n : forall m1 m2 s1 s2 n, text m1 s1 -> text m2 s2 -> exists r, compare_n m1 m2 n = Some r /\ (r = 0 \/ r = 1 \/ r = 2) /\
  (r = 0 <-> firstn (Z.to_nat n) s1 = firstn (Z.to_nat n) s2) /\ (r = 1 <-> less (Some n) s1 s2) /\ (r = 2 <-> less (Some n) s2 s1).
Proof.
  intros m1 m2 s1 s2 n (r1 & -> & H1) (r2 & -> & H2). destruct (compare_n_text s1 s2 r1 r2 n H1 H2) as (r & E & C). exists r. split; [exact E|].
  destruct C as [[-> C]|[[-> C]|[-> C]]]; (split; [auto|]); repeat split; intros X; try discriminate; try reflexivity; try assumption; exfalso;
    try (apply less_not_equal in X; congruence); try (apply less_not_equal in C; congruence); exact (less_asym _ _ _ _ C X).
Qed.
Print Assumptions C64_compare_n.

(** CompareNoCaseSensN: the same for the texts in lower case, as unsigned bytes. *)
Theorem C64_compare_nocase : forall m1 m2 s1 s2 n, Forall (fun c => -128 <= c <= 127) m1 -> Forall (fun c => -128 <= c <= 127) m2 -> text m1 s1 -> text m2 s2 ->
  exists r, compare_nocase m1 m2 n = Some r /\ (r = 0 \/ r = 1 \/ r = 2) /\
  (r = 0 <-> firstn (Z.to_nat n) (map small s1) = firstn (Z.to_nat n) (map small s2)) /\
  (r = 1 <-> less (Some n) (map small s1) (map small s2)) /\ (r = 2 <-> less (Some n) (map small s2) (map small s1)).
Proof.
  intros m1 m2 s1 s2 n F1 F2 (r1 & E1 & H1) (r2 & E2 & H2). rewrite nocase_map by assumption. apply C64_compare_n.
  - exists (map small r1). split; [rewrite E1, map_app; reflexivity|]. apply small_text; [|exact H1]. rewrite E1 in F1. apply Forall_app in F1. apply F1.
  - exists (map small r2). split; [rewrite E2, map_app; reflexivity|]. apply small_text; [|exact H2]. rewrite E2 in F2. apply Forall_app in F2. apply F2.
Qed.
Print Assumptions C64_compare_nocase.

(** SearchChar: the first one; the terminator if that is asked for. *)
Theorem C64_search_char : forall m s c, text m s ->
  (c <> 0 /\ ~ In c s /\ search_char m c 0 = Some None) \/
  (exists a b, m = a ++ c :: b /\ ~ In c a /\ (length a <= length s)%nat /\ search_char m c 0 = Some (Some (len a))).
Proof.
  intros m s c (r & -> & H). destruct (Z.eq_dec c 0) as [->|C].
  - right. exists s, r. rewrite search_char_end by exact H. repeat split; auto.
  - destruct (search_char_text c s r 0 H C) as [[E N]|(a & b & -> & N & E)]; rewrite E; [left; auto|]. right. exists a, (b ++ 0 :: r). rewrite <- app_assoc, app_length. repeat split; auto. lia.
Qed.
Print Assumptions C64_search_char.

(** SearchIndex and SearchChars: the first character that is in the second text. *)
Theorem C64_search_any : forall m d s ds, text m s -> text d ds -> exists a, before_any ds s a /\
  search_index m d 0 = Some (len a) /\ search_chars m d 0 = Some (if (length a =? length s)%nat then None else Some (len a)).
Proof. intros m d s ds (r & -> & H) D. exact (any_text d ds s D r 0 H). Qed.
Print Assumptions C64_search_any.

(** SearchLastChar: the last one of the text. *)
Theorem C64_search_last : forall m s c, text m s -> exists r, search_last m c = Some r /\
  match r with None => ~ In c s | Some i => exists a b, s = a ++ c :: b /\ ~ In c b /\ i = len a end.
Proof.
  intros m s c T. unfold search_last. rewrite (length_text m s T), Nat2Z.id. destruct T as (r & -> & H).
  destruct (last_text c (s ++ 0 :: r) (length s)) as (x & E & X); [rewrite app_length; lia|]. rewrite firstn_app, Nat.sub_diag, firstn_all, firstn_O, app_nil_r in X. eauto.
Qed.
Print Assumptions C64_search_last.

(** SearchString: the first occurrence, NULL exactly if there is none. *)
Theorem C64_search_string : forall m sub s t, text m s -> text sub t ->
  (absent t s /\ search_string m sub = Some None) \/ (exists a b, first_occurrence t s a b /\ search_string m sub = Some (Some (len a))).
Proof.
  intros m sub s t T1 T2. unfold search_string. rewrite (length_text m s T1), (length_text sub t T2). destruct T1 as (r & -> & H). destruct T2 as (rt & -> & Ht).
  destruct (string_loop_text t rt Ht s r 0 H) as [[E A]|(a & b & F & E)]; rewrite E; [left|right]; eauto.
Qed.
Print Assumptions C64_search_string.

(** Concatenate and ConcatenateN with a result: both texts, with a terminator, and nothing else is written. *)
Theorem C64_concatenate : forall m1 m2 s1 s2 r, text m1 s1 -> text m2 s2 -> (length s1 + length s2 < length r)%nat ->
  exists r', concatenate m1 m2 r = Some r' /\ holds r r' (s1 ++ s2).
Proof.
  intros m1 m2 s1 s2 r T1 (q2 & -> & H2) L. unfold concatenate. apply concatenate_gen; [exact T1|exact L|]. intros used rest U. apply put_text_ok; assumption.
Qed.
Print Assumptions C64_concatenate.
Theorem C64_concatenate_n : forall m1 m2 s1 s2 r n, text m1 s1 -> text m2 s2 -> 0 <= n -> (length s1 + length (firstn (Z.to_nat n) s2) < length r)%nat ->
  exists r', concatenate_n m1 m2 r n = Some r' /\ holds r r' (s1 ++ firstn (Z.to_nat n) s2).
Proof.
  intros m1 m2 s1 s2 r n T1 (q2 & -> & H2) N L. unfold concatenate_n. apply concatenate_gen; [exact T1|exact L|]. intros used rest U. apply put_text_n_ok; assumption.
Qed.
Print Assumptions C64_concatenate_n.

(** TokenizeByChars: what precedes the first delimiter; the next token starts after that delimiter, or at the end. *)
Theorem C64_tokenize_chars : forall m d s ds r, text m s -> text d ds -> exists a, before_any ds s a /\
  ((length a < length r)%nat -> exists r', tokenize_chars m d r 0 = Some (if (length a =? length s)%nat then len s else len a + 1, r') /\ holds r r' a).
Proof. intros m d s ds r (q & -> & H) D. exact (tokenize_chars_text d ds D s q 0 r H). Qed.
Print Assumptions C64_tokenize_chars.

(** TokenizeByString with the strcpy of the C library: what precedes the first occurrence; the whole text and NULL if there is none. *)
Theorem C64_tokenize_string : forall m tm s t r, text m s -> text tm t -> (length s < length r)%nat ->
  (absent t s /\ exists r', tokenize_string strcpy m tm r = Some (None, r') /\ holds r r' s) \/
  (exists a b, first_occurrence t s a b /\ exists r', tokenize_string strcpy m tm r = Some (Some (len a + len t), r') /\ holds r r' a).
Proof.
  intros m tm s t r T1 T2 L. unfold tokenize_string. rewrite (length_text m s T1), (length_text tm t T2). destruct T1 as (q & -> & H). destruct T2 as (rt & -> & Ht).
  exact (tokens_loop_text t rt Ht s q r 0 H L).
Qed.
Print Assumptions C64_tokenize_string.

(** Substr, from a beginning inside of the text: the part between the indexes, both included, and true; what there is and false if it ends behind the text. *)
Theorem C64_substr_partial : forall m s r b e, text m s -> 0 <= b -> b <= e -> b <= len s -> e - b < 2 ^ 32 - 1 ->
  let part := firstn (Z.to_nat (e - b + 1)) (skipn (Z.to_nat b) s) in
  (length part < length r)%nat -> exists r', substr b e m r = Some (e <? len s, r') /\ holds r r' part.
Proof.
  intros m s r b e (q & -> & H) B BE BL W part L. unfold substr. replace (e <? b) with false by lia.
  rewrite (uwrap_id 32 (e - b)) by lia. rewrite uwrap_id by lia.
  assert (K : skipn (Z.to_nat b) (s ++ 0 :: q) = skipn (Z.to_nat b) s ++ 0 :: q) by (rewrite skipn_app; replace (Z.to_nat b - length s)%nat with 0%nat by lia; reflexivity).
  rewrite K. destruct (sub_loop_text (skipn (Z.to_nat b) s) q r (e - b + 1)) as (r' & E & V).
  - intros X. apply H. rewrite <- (firstn_skipn (Z.to_nat b) s). apply in_or_app. right. exact X.
  - lia.
  - exact L.
  - exists r'. rewrite E. split; [|exact V]. do 2 f_equal. rewrite skipn_length. lia.
Qed.
Print Assumptions C64_substr_partial.
(** Behind the text, Substr reads what follows the terminator and succeeds; for the whole range of indexes it succeeds with an empty result. *)
Theorem C64_substr_refuted :
  (exists m s r b e r', text m s /\ len s < b /\ b <= e /\ substr b e m r = Some (true, r')) /\
  (exists m s r e r', text m s /\ s <> [] /\ len s <= e < 2 ^ 32 /\ substr 0 e m r = Some (true, r') /\ text r' []).
Proof.
  split.
  - exists [65; 0; 66; 0], [65], [9; 9; 9], 2, 2, [66; 0; 9]. split; [exists [66; 0]; split; [reflexivity|cbn; lia]|]. repeat split; cbn; lia.
  - exists [65; 0], [65], [9; 9; 9], (2 ^ 32 - 1), [0; 9; 9]. split; [exists []; split; [reflexivity|cbn; lia]|]. split; [discriminate|]. split; [cbn; lia|].
    split; [vm_compute; reflexivity|]. exists [9; 9]. split; [reflexivity|auto].
Qed.
Print Assumptions C64_substr_refuted.

(** An end before the beginning is refused, and nothing is written. *)
Theorem C64_substr_reversed : forall m r b e, e < b -> substr b e m r = Some (false, r).
Proof. intros m r b e L. unfold substr. replace (e <? b) with true by lia. reflexivity. Qed.
Print Assumptions C64_substr_reversed.

(** The portable Copy and Concatenate copy every character but no terminator: the destination holds the text only if the byte after it was 0 before. *)
Theorem C64_copy_partial : forall m s used x rest, text m s -> s <> [] -> length used = length s ->
  copy (used ++ x :: rest) m = Some (s ++ x :: rest) /\ (text (s ++ x :: rest) s <-> x = 0).
Proof.
  intros m s used x rest (q & -> & H) N L. split; [|apply text_here; exact H]. destruct used as [|u used]; [destruct s; [congruence|discriminate]|].
  unfold copy, append. cbn [app]. pose proof (at_end_ok (fun e => copy_chars e (s ++ 0 :: q)) [] (used ++ x :: rest) ltac:(auto)) as A. cbn [app] in A. rewrite A.
  change (0 :: used ++ x :: rest) with ((0 :: used) ++ x :: rest). rewrite copy_chars_ok by (cbn in *; auto; lia). reflexivity.
Qed.
Print Assumptions C64_copy_partial.
Theorem C64_append_partial : forall m s s0 used x rest, text m s -> ~ In 0 s0 -> length (0 :: used) = length s ->
  append (s0 ++ 0 :: used ++ x :: rest) m = Some (s0 ++ s ++ x :: rest) /\ (text (s0 ++ s ++ x :: rest) (s0 ++ s) <-> x = 0).
Proof.
  intros m s s0 used x rest (q & -> & H) H0 L. split.
  - unfold append. rewrite at_end_ok by exact H0. change (0 :: used ++ x :: rest) with ((0 :: used) ++ x :: rest). rewrite copy_chars_ok by assumption. reflexivity.
  - rewrite app_assoc. apply text_here. intros X. apply in_app_or in X. tauto.
Qed.
Print Assumptions C64_append_partial.
(** The same for the variants with a size, for the first [n] characters. *)
Theorem C64_copy_n_partial : forall m s used x rest n, text m s -> 0 < n -> s <> [] -> let s' := firstn (Z.to_nat n) s in length used = length s' ->
  copy_n (used ++ x :: rest) m n = Some (s' ++ x :: rest) /\ (text (s' ++ x :: rest) s' <-> x = 0).
Proof.
  intros m s used x rest n (q & -> & H) Z0 N s' L. split; [|apply text_here; intros X; apply H; rewrite <- (firstn_skipn (Z.to_nat n) s); apply in_or_app; left; exact X].
  destruct used as [|u used]; [exfalso; destruct s; [congruence|]; unfold s' in L; replace (Z.to_nat n) with (S (Z.to_nat (n - 1))) in L by lia; discriminate L|].
  unfold copy_n, append_n. cbn [app]. pose proof (at_end_ok (fun e => copy_chars_n e (s ++ 0 :: q) n) [] (used ++ x :: rest) ltac:(auto)) as A. cbn [app] in A. rewrite A.
  change (0 :: used ++ x :: rest) with ((0 :: used) ++ x :: rest). rewrite copy_chars_n_ok by (auto; lia). reflexivity.
Qed.
Print Assumptions C64_copy_n_partial.
Theorem C64_append_n_partial : forall m s s0 used x rest n, text m s -> ~ In 0 s0 -> 0 <= n -> let s' := firstn (Z.to_nat n) s in length (0 :: used) = length s' ->
  append_n (s0 ++ 0 :: used ++ x :: rest) m n = Some (s0 ++ s' ++ x :: rest) /\ (text (s0 ++ s' ++ x :: rest) (s0 ++ s') <-> x = 0).
Proof.
  intros m s s0 used x rest n (q & -> & H) H0 N s' L. split.
  - unfold append_n. rewrite at_end_ok by exact H0. change (0 :: used ++ x :: rest) with ((0 :: used) ++ x :: rest). rewrite copy_chars_n_ok by assumption. reflexivity.
  - rewrite app_assoc. apply text_here. intros X. apply in_app_or in X. destruct X as [X|X]; [tauto|]. apply H. rewrite <- (firstn_skipn (Z.to_nat n) s). apply in_or_app. left. exact X.
Qed.
Print Assumptions C64_append_n_partial.
Theorem C64_copy_refuted : exists m s d d', text m s /\ (length s < length d)%nat /\ copy d m = Some d' /\ ~ text d' s.
Proof.
  exists [65; 66; 0], [65; 66], [7; 7; 7; 7], [65; 66; 7; 7]. split; [exists []; split; [reflexivity|cbn; lia]|]. split; [cbn; lia|]. split; [reflexivity|].
  intros (r & E & _). discriminate E.
Qed.
Print Assumptions C64_copy_refuted.
(** So TokenizeByString, with the portable Copy, does not terminate a last token that is followed by bytes other than 0. *)
Theorem C64_tokenize_string_refuted : exists m tm s t r r', text m s /\ text tm t /\ (length s < length r)%nat /\ absent t s /\
  tokenize_string copy m tm r = Some (None, r') /\ ~ text r' s.
Proof.
  exists [65; 66; 0], [46; 46; 0], [65; 66], [46; 46], [7; 7; 7; 7], [65; 66; 7; 7].
  split; [exists []; split; [reflexivity|cbn; lia]|]. split; [exists []; split; [reflexivity|cbn; lia]|]. split; [cbn; lia|]. split.
  - intros a b E. assert (X : In 46 [65; 66]) by (rewrite E; apply in_or_app; right; left; reflexivity). cbn in X. lia.
  - split; [reflexivity|]. intros (q & E & _). discriminate E.
Qed.
Print Assumptions C64_tokenize_string_refuted.
(** For texts with characters above 127 the order of the portable Compare is not the one of a dictionary: such a text is smaller than the empty text. *)
Theorem C64_order_refuted : exists m1 m2 c, text m1 [] /\ text m2 [c] /\ compare m1 m2 = Some 2.
Proof. exists [0], [-61; 0], (-61). split; [exists []; split; [reflexivity|auto]|]. split; [exists []; split; [reflexivity|cbn; lia]|reflexivity]. Qed.
Print Assumptions C64_order_refuted.

(** Cases that meet the hypotheses: "A.BC" and "." *)
Definition abc : mem := [65; 46; 66; 67; 0; 33].
Example C64_case_text : text abc [65; 46; 66; 67] /\ text [46; 0] [46].
Proof. split; [exists [33]|exists []]; (split; [reflexivity|cbn; lia]). Qed.
Example C64_case_tokens : tokenize_chars abc [46; 0] [9; 9; 9; 9; 9] 0 = Some (2, [65; 0; 9; 9; 9]) /\ tokenize_chars [66; 67; 0; 33] [46; 0] [9; 9; 9; 9; 9] 0 = Some (2, [66; 67; 0; 9; 9]) /\
  tokenize_string strcpy abc [66; 67; 0] [9; 9; 9; 9; 9] = Some (Some 4, [65; 46; 0; 9; 9]) /\ tokenize_string strcpy abc [68; 0] [9; 9; 9; 9; 9] = Some (None, [65; 46; 66; 67; 0]).
Proof. repeat split. Qed.
Example C64_case_parts : substr 1 2 abc [9; 9; 9; 9] = Some (true, [46; 66; 0; 9]) /\ substr 2 9 abc [9; 9; 9; 9] = Some (false, [66; 67; 0; 9]) /\
  concatenate [65; 0] [66; 67; 0] [9; 9; 9; 9; 9] = Some [65; 66; 67; 0; 9] /\ concatenate_n [65; 0] [66; 67; 0] [9; 9; 9; 9; 9] 1 = Some [65; 66; 0; 9; 9].
Proof. repeat split. Qed.
Example C64_case_search : compare abc [65; 46; 67; 0] = Some 1 /\ compare_n abc [65; 46; 67; 0] 2 = Some 0 /\ compare_nocase abc [97; 46; 98; 67; 0] 9 = Some 0 /\
  search_char abc 66 0 = Some (Some 2) /\ search_index abc [66; 46; 0] 0 = Some 1 /\ search_chars abc [68; 0] 0 = Some None /\ search_last abc 67 = Some (Some 3) /\ search_string abc [66; 67; 0] = Some (Some 2).
Proof. repeat split. Qed.
