(** Proofs of C59: files. *)
From Coq Require Import String Ascii.
From Verif Require Import Base Paths Container_Model Container_Props Web_Model Web_Spec.
Open Scope string_scope. Open Scope nat_scope. Open Scope list_scope.

Lemma sapp_assoc (a b c : string) : ((a ++ b) ++ c)%string = (a ++ (b ++ c))%string.
Proof. induction a as [|x a IH]; [reflexivity|]. cbn. rewrite IH. reflexivity. Qed.

Lemma skip_skip {A} n : forall m (l : list A), skipn n (skipn m l) = skipn (n + m) l.
Proof. intros m. induction m as [|m IH]; intro l; [rewrite Nat.add_0_r; reflexivity|]. destruct l as [|x l]; [rewrite !skipn_nil; reflexivity|]. rewrite Nat.add_succ_r. apply IH. Qed.

(** ** Components *)
Lemma split_app a b : split (a ++ "/" ++ b)%string = split a ++ split b.
Proof.
  induction a as [|c a IH]; [reflexivity|]. change ((String c a ++ "/" ++ b)%string) with (String c (a ++ "/" ++ b)). cbn [split]. rewrite IH.
  destruct (Ascii.eqb c slash); [reflexivity|]. destruct (split a) eqn:E; [|reflexivity]. destruct a as [|x a]; [discriminate|]. cbn in E. destruct (Ascii.eqb x slash); [discriminate|]. destruct (split a); discriminate.
Qed.
Lemma split_name t : (forall a b, t <> (a ++ "/" ++ b)%string) -> split t = [t].
Proof.
  induction t as [|c t IH]; intro H; [reflexivity|]. cbn [split]. destruct (Ascii.eqb c slash) eqn:E.
  - apply Ascii.eqb_eq in E. subst c. destruct (H "" t eq_refl).
  - rewrite IH; [reflexivity|]. intros a b ->. apply (H (String c a) b). reflexivity.
Qed.
Lemma split_absolute l : Forall file_name l -> split (absolute l) = "" :: l.
Proof.
  induction l as [|t l IH]; intro H; [reflexivity|]. inversion H as [|? ? H1 H2]; subst. specialize (IH H2). destruct H1 as (_ & _ & _ & H1).
  change (absolute (t :: l)) with (String slash (t ++ absolute l)). cbn [split]. change (Ascii.eqb slash slash) with true. cbv iota. f_equal.
  destruct l as [|u l]; [cbn [absolute]; rewrite app_empty_r; apply split_name; exact H1|].
  change (absolute (u :: l)) with ("/" ++ (u ++ absolute l))%string. rewrite split_app, (split_name t H1). cbn [app]. f_equal.
  change (absolute (u :: l)) with (String slash (u ++ absolute l)) in IH. cbn [split] in IH. change (Ascii.eqb slash slash) with true in IH. cbv iota in IH. injection IH as IH. exact IH.
Qed.
Lemma absolute_app a b : absolute (a ++ b) = (absolute a ++ absolute b)%string.
Proof. induction a as [|t a IH]; [reflexivity|]. cbn [app absolute]. rewrite IH. cbn. rewrite sapp_assoc. reflexivity. Qed.
Lemma full_absolute ds ps : ps <> [] -> full_path (absolute ds) (relative ps) = absolute (ds ++ ps).
Proof. intro H. rewrite absolute_app. unfold full_path. destruct ps as [|p ps]; [congruence|]. reflexivity. Qed.

(** ** Resolution *)
Lemma node_at_app n a b : node_at n (a ++ b) = match node_at n a with Some m => node_at m b | None => None end.
Proof.
  revert n; induction a as [|t a IH]; intro n; [reflexivity|]. cbn [app node_at]. destruct n; [reflexivity|]. destruct (entry t entries); [apply IH|reflexivity].
Qed.
Lemma resolve_app fs a b : forall st, resolve fs st (a ++ b) = match resolve fs st a with Some s => resolve fs s b | None => None end.
Proof.
  induction a as [|c a IH]; intro st; [reflexivity|]. cbn [app resolve]. destruct (node_at fs (rev st)) as [[|]|]; try reflexivity.
  destruct (_ || _); [apply IH|]. destruct (String.eqb c ".."); [apply IH|]. destruct (node_at fs (rev (c :: st))); [apply IH|reflexivity].
Qed.
Lemma name_tests t : file_name t -> (String.eqb t "" || String.eqb t ".") = false /\ String.eqb t ".." = false.
Proof.
  intros (H1 & H2 & H3 & _). split; [|apply String.eqb_neq; exact H3]. apply orb_false_iff. split; apply String.eqb_neq; assumption.
Qed.
Lemma resolve_names fs l : Forall file_name l -> forall st n, node_at fs (rev st ++ l) = Some n -> resolve fs st l = Some (rev l ++ st).
Proof.
  induction 1 as [|c l Hc Hl IH]; intros st n E; [reflexivity|]. cbn [resolve]. destruct (name_tests c Hc) as [T1 T2]. rewrite T1, T2.
  pose proof E as E0. rewrite node_at_app in E. destruct (node_at fs (rev st)) as [m|] eqn:Em; [|discriminate]. cbn [node_at] in E.
  destruct m as [|sz es]; [discriminate|]. change (c :: l) with ([c] ++ l) in E0. rewrite app_assoc in E0. change [c] with (rev [c]) in E0. rewrite <- rev_app_distr in E0. cbn [app] in E0.
  pose proof E0 as E1. rewrite node_at_app in E1. destruct (node_at fs (rev (c :: st))) eqn:Ec; [|discriminate]. rewrite (IH (c :: st) n E0). cbn [rev]. rewrite <- app_assoc. reflexivity.
Qed.
Lemma resolve_names_inv fs l : Forall file_name l -> forall st s, resolve fs st l = Some s -> s = rev l ++ st.
Proof.
  induction 1 as [|c l Hc Hl IH]; intros st s E; [cbn in E; injection E as <-; reflexivity|]. cbn [resolve] in E. destruct (name_tests c Hc) as [T1 T2]. rewrite T1, T2 in E.
  destruct (node_at fs (rev st)) as [[|]|]; try discriminate. destruct (node_at fs (rev (c :: st))); [|discriminate]. rewrite (IH _ _ E). cbn [rev]. rewrite <- app_assoc. reflexivity.
Qed.
Lemma open_absolute fs l : Forall file_name l -> l <> [] -> os_open fs (absolute l) = node_at fs l.
Proof.
  intros H N. unfold os_open. rewrite (split_absolute l H). cbn [resolve]. change (rev []) with (@nil string). cbn [node_at]. change (String.eqb "" "" || String.eqb "" ".") with true. cbv iota.
  destruct fs as [c|sz es]; [destruct l; [congruence|reflexivity]|].
  destruct (node_at (NDir sz es) l) as [n|] eqn:E.
  - rewrite (resolve_names _ l H [] n E). rewrite app_nil_r, rev_involutive. exact E.
  - destruct (resolve (NDir sz es) [] l) as [s|] eqn:R; [|reflexivity]. rewrite (resolve_names_inv _ l H _ _ R), app_nil_r, rev_involutive. exact E.
Qed.
(** without "..", the file is below the directory *)
Lemma resolve_below fs l : ~ In ".." l -> forall st s, resolve fs st l = Some s -> exists q, s = q ++ st.
Proof.
  induction l as [|c l IH]; intros H st s E; [exists []; cbn in E; injection E as <-; reflexivity|]. cbn [resolve] in E.
  assert (Hl : ~ In ".." l) by (intro; apply H; right; assumption). destruct (node_at fs (rev st)) as [[|]|]; try discriminate.
  destruct (_ || _); [exact (IH Hl _ _ E)|]. destruct (String.eqb c "..") eqn:Ec; [apply String.eqb_eq in Ec; subst c; destruct H; left; reflexivity|].
  destruct (node_at fs (rev (c :: st))); [|discriminate]. destruct (IH Hl _ _ E) as [q ->]. exists (q ++ [c]). rewrite <- app_assoc. reflexivity.
Qed.
Lemma split_nonempty s : split s <> [].
Proof. destruct s as [|c s]; [discriminate|]. cbn. destruct (Ascii.eqb c slash); [discriminate|]. destruct (split s); discriminate. Qed.
Lemma split_head s : forall t q, split s = t :: q -> exists b, s = (t ++ b)%string /\ (b = "" \/ exists b', b = ("/" ++ b')%string).
Proof.
  induction s as [|c s IH]; intros t q E; cbn [split] in E.
  - injection E as <- <-. exists "". split; [reflexivity|left; reflexivity].
  - destruct (Ascii.eqb c slash) eqn:Ec.
    + injection E as <- <-. apply Ascii.eqb_eq in Ec. subst c. exists (String slash s). split; [reflexivity|]. right. exists s. reflexivity.
    + destruct (split s) as [|u r] eqn:Es; [destruct (split_nonempty s Es)|]. injection E as <- <-. destruct (IH u r eq_refl) as (b & -> & Hb). exists b. split; [reflexivity|exact Hb].
Qed.
Lemma split_tail s : forall t q, split s = t :: q -> In ".." q -> exists a b, s = (a ++ "/" ++ ".." ++ b)%string /\ (b = "" \/ exists b', b = ("/" ++ b')%string).
Proof.
  induction s as [|c s IH]; intros t q E H; cbn [split] in E.
  - injection E as <- <-. destruct H.
  - destruct (Ascii.eqb c slash) eqn:Ec.
    + injection E as <- <-. apply Ascii.eqb_eq in Ec. subst c. destruct (split s) as [|u r] eqn:Es; [destruct H|].
      destruct H as [->|H]; [destruct (split_head s _ _ Es) as (b & -> & Hb); exists "", b; split; [reflexivity|exact Hb]|].
      destruct (IH u r eq_refl H) as (a & b & -> & Hb). exists (String slash a), b. split; [reflexivity|exact Hb].
    + destruct (split s) as [|u r] eqn:Es; [destruct (split_nonempty s Es)|]. injection E as <- <-. destruct (IH u r eq_refl H) as (a & b & -> & Hb). exists (String c a), b. split; [reflexivity|exact Hb].
Qed.
Lemma split_up p : ~ goes_up p -> ~ In ".." (split p).
Proof.
  intros H I0. apply H. destruct (split p) as [|t q] eqn:E; [destruct I0|]. destruct I0 as [->|I0].
  - destruct (split_head p _ _ E) as (b & -> & Hb). exists "", b. split; [reflexivity|]. split; [left; reflexivity|exact Hb].
  - destruct (split_tail p _ _ E I0) as (a & b & -> & Hb). exists (a ++ "/")%string, b. split; [rewrite sapp_assoc; reflexivity|]. split; [right; exists a; reflexivity|exact Hb].
Qed.
Lemma open_below fs ds p n : Forall file_name ds -> ~ goes_up p -> os_open fs (full_path (absolute ds) p) = Some n -> exists q, node_at fs (ds ++ q) = Some n.
Proof.
  intros H U E. unfold os_open, full_path in E. rewrite split_app, (split_absolute ds H), resolve_app in E. destruct (resolve fs [] ("" :: ds)) as [s|] eqn:R; [|discriminate].
  cbn [resolve] in R. change (rev []) with (@nil string) in R. cbn [node_at] in R. destruct fs as [c|sz es]; [discriminate|]. change (String.eqb "" "" || String.eqb "" ".") with true in R. cbv iota in R.
  apply (resolve_names_inv _ ds H) in R. rewrite app_nil_r in R. subst s. destruct (resolve (NDir sz es) (rev ds) (split p)) as [s|] eqn:R; [|discriminate].
  destruct (resolve_below _ _ (split_up p U) _ _ R) as [q ->]. rewrite rev_app_distr, rev_involutive in E. exists (rev q). exact E.
Qed.

(** ** The body *)
Lemma send_file c : forall turns pos out, pos <= length c -> length c - pos < turns ->
  send turns (NFile c) pos (Z.of_nat (length c - pos)) out = Some (out ++ skipn pos c).
Proof.
  induction turns as [|t IH]; intros pos out H1 H2; [lia|]. cbn [send]. destruct (Z.eqb_spec (Z.of_nat (length c - pos)) 0) as [E|E].
  - rewrite skipn_all2 by lia. rewrite app_nil_r. reflexivity.
  - cbn [read]. set (k := Z.to_nat (Z.min (Z.of_nat (length c - pos)) 1024)).
    assert (Hk : 0 < k <= length c - pos) by (unfold k; lia). assert (L : length (firstn k (skipn pos c)) = k) by (rewrite firstn_length, skipn_length; lia).
    rewrite L. replace (Z.of_nat (length c - pos) - Z.of_nat k)%Z with (Z.of_nat (length c - (pos + k))) by lia.
    rewrite IH by lia. f_equal. rewrite <- app_assoc. f_equal. rewrite (Nat.add_comm pos k). rewrite <- skip_skip. apply firstn_skipn.
Qed.
Lemma send_dir s es : forall turns pos k out, k <> 0%Z -> send turns (NDir s es) pos k out = None.
Proof.
  induction turns as [|t IH]; intros pos k out H; [reflexivity|]. cbn [send]. rewrite (proj2 (Z.eqb_neq k 0) H). cbn [read length]. rewrite Z.sub_0_r. apply IH. exact H.
Qed.
Lemma send_prefix c : forall turns pos k out b, send turns (NFile c) pos k out = Some b -> exists d, b = out ++ d /\ exists e, skipn pos c = d ++ e.
Proof.
  induction turns as [|t IH]; intros pos k out b E; [discriminate|]. cbn [send] in E. destruct (k =? 0)%Z; [injection E as <-; exists []; rewrite app_nil_r; split; [reflexivity|eexists; reflexivity]|].
  cbn [read] in E. destruct (IH _ _ _ _ E) as (d & -> & e & He). eexists. rewrite <- app_assoc. split; [reflexivity|]. exists e. rewrite <- app_assoc, <- He.
  set (x := Z.to_nat (Z.min k 1024)). rewrite firstn_length, skipn_length. destruct (Nat.le_gt_cases x (length c - pos)).
  - rewrite Nat.min_l by lia. rewrite Nat.add_comm, <- skip_skip. symmetry. apply firstn_skipn.
  - rewrite Nat.min_r by lia. rewrite firstn_all2 by (rewrite skipn_length; lia). rewrite (@skipn_all2 _ (pos + (length c - pos)) c) by lia. rewrite app_nil_r. reflexivity.
Qed.

(** ** Types *)
Lemma lower_length s : String.length (lower_text s) = String.length s.
Proof. induction s as [|c s IH]; [reflexivity|]. cbn. rewrite IH. reflexivity. Qed.
Lemma drop_app a b : drop (String.length a) (a ++ b) = b.
Proof. induction a as [|c a IH]; [reflexivity|]. exact IH. Qed.
Lemma drop_split n : forall s, n <= String.length s -> exists a, String.length a = n /\ s = (a ++ drop n s)%string.
Proof.
  induction n as [|n IH]; intros s H; [exists ""; split; reflexivity|]. destruct s as [|c s]; [cbn in H; lia|]. cbn in H. destruct (IH s ltac:(lia)) as (a & L & E).
  exists (String c a). split; [cbn; lia|]. cbn. rewrite <- E. reflexivity.
Qed.
Lemma lower_app a b : lower_text (a ++ b) = (lower_text a ++ lower_text b)%string.
Proof. induction a as [|c a IH]; [reflexivity|]. cbn. rewrite IH. reflexivity. Qed.
Lemma check_spec name e : check_extension name e = true <-> exists stem e', name = (stem ++ e')%string /\ lower_text e' = lower_text e.
Proof.
  unfold check_extension. rewrite andb_true_iff, Nat.leb_le, String.eqb_eq. split.
  - intros [L E]. destruct (drop_split (String.length name - String.length e) name ltac:(lia)) as (a & _ & Ea). exists a, (drop (String.length name - String.length e) name). split; assumption.
  - intros (a & e' & -> & E). assert (L : String.length e' = String.length e) by (rewrite <- (lower_length e'), E; apply lower_length). rewrite length_app.
    split; [lia|]. replace (String.length a + String.length e' - String.length e) with (String.length a) by lia. rewrite drop_app. exact E.
Qed.
Lemma lower_same a b : lower_text b = b -> lower_text a = b -> same_text a b.
Proof.
  revert b; induction a as [|c a IH]; intros b Hb E; [cbn in E; subst b; constructor|]. cbn in E. subst b. cbn in Hb. injection Hb as H1 H2. constructor; [|apply IH; [exact H2|reflexivity]].
  unfold lower. destruct ((65 <=? nat_of_ascii c) && (nat_of_ascii c <=? 90)) eqn:T; [|left; reflexivity]. right. exists (nat_of_ascii c). apply andb_true_iff in T. rewrite !Nat.leb_le in T.
  split; [exact T|]. left. rewrite ascii_nat_embedding. split; reflexivity.
Qed.
Lemma same_letter_lower a b : same_letter a b -> lower a = lower b.
Proof.
  intros [->|(n & H & [[-> ->]|[-> ->]])]; [reflexivity| |]; do 65 (destruct n as [|n]; [lia|]); do 26 (destruct n as [|n]; [reflexivity|]); lia.
Qed.
Lemma same_lower a b : same_text a b -> lower_text a = lower_text b.
Proof. induction 1 as [|a b s t H1 H2 IH]; [reflexivity|]. cbn. rewrite IH, (same_letter_lower a b H1). reflexivity. Qed.
Lemma mime_first name : mime name = match List.find (fun e => check_extension name (fst e)) types with Some (_, m) => m | None => "binary" end.
Proof.
  unfold mime, types. cbn [List.find fst].
  destruct (check_extension name ".html"); [reflexivity|]. destruct (check_extension name ".htm"); [reflexivity|]. destruct (check_extension name ".txt"); [reflexivity|].
  destruct (check_extension name ".csv"); [reflexivity|]. destruct (check_extension name ".css"); [reflexivity|]. destruct (check_extension name ".gif"); [reflexivity|].
  destruct (check_extension name ".jpeg"); [reflexivity|]. destruct (check_extension name ".jpg"); [reflexivity|]. destruct (check_extension name ".jnlp"); [reflexivity|].
  destruct (check_extension name ".js"); reflexivity.
Qed.
Lemma types_lower e m : In (e, m) types -> lower_text e = e.
Proof. unfold types. cbn [In]. intro H. repeat (destruct H as [H|H]; [injection H as <- <-; reflexivity|]). destruct H. Qed.
Lemma type_check name e m : In (e, m) types -> (check_extension name e = true <-> exists stem e', name = (stem ++ e')%string /\ same_text e' e).
Proof.
  intro H. rewrite check_spec. split; intros (stem & e' & -> & E); exists stem, e'; (split; [reflexivity|]).
  - apply lower_same; [exact (types_lower e m H)|]. rewrite E. exact (types_lower e m H).
  - apply same_lower. exact E.
Qed.
Lemma suffixes (a b : string) : forall c d, (a ++ b = c ++ d)%string -> String.length b <= String.length d -> drop (String.length d - String.length b) d = b.
Proof.
  intros c d E L. pose proof (f_equal String.length E) as EL. rewrite !length_app in EL.
  assert (Ha : exists x, a = (c ++ x)%string).
  { assert (H : String.length c <= String.length a) by lia. clear L EL. revert a E H. induction c as [|y c IH]; intros a E H; [exists a; reflexivity|].
    destruct a as [|z a]; [cbn in H; lia|]. cbn in E. injection E as <- E. cbn in H. destruct (IH a E ltac:(lia)) as [x ->]. exists x. reflexivity. }
  destruct Ha as [x ->]. rewrite sapp_assoc in E. assert (E2 : d = (x ++ b)%string). { clear - E. induction c as [|y c IH]; [symmetry; exact E|]. cbn in E. injection E as E. exact (IH E). }
  subst d. rewrite length_app. replace (String.length x + String.length b - String.length b) with (String.length x) by lia. apply drop_app.
Qed.
