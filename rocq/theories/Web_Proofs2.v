(** Proofs of C59: types and the choice of the object. *)
From Coq Require Import String Ascii.
From Verif Require Import Base Paths Container_Model Container_Props Web_Model Web_Spec Web_Proofs.
Open Scope string_scope. Open Scope nat_scope. Open Scope list_scope.

(** ** Types *)
Definition clash (x y : string * string) : bool :=
  (String.length (fst x) <=? String.length (fst y)) && String.eqb (drop (String.length (fst y) - String.length (fst x)) (fst y)) (fst x) && negb (String.eqb (snd x) (snd y)).
Lemma no_clash : forallb (fun x => forallb (fun y => negb (clash x y)) types) types = true.
Proof. vm_compute. reflexivity. Qed.
Lemma type_unique name m m' : of_type name m -> of_type name m' -> m = m'.
Proof.
  intros (a & e & e' & -> & I1 & S1) (b & d & d' & E & I2 & S2). pose proof (f_equal lower_text E) as F. rewrite !lower_app in F.
  rewrite (same_lower _ _ S1), (same_lower _ _ S2), (types_lower _ _ I1), (types_lower _ _ I2) in F. clear - F I1 I2. pose proof no_clash as N. rewrite forallb_forall in N.
  destruct (Nat.le_ge_cases (String.length e) (String.length d)) as [L|L].
  - pose proof (N _ I1) as N1. rewrite forallb_forall in N1. specialize (N1 _ I2). pose proof (suffixes _ _ _ _ F L) as S0. unfold clash in N1. cbn [fst snd] in N1.
    rewrite (proj2 (Nat.leb_le _ _) L), S0, String.eqb_refl in N1. cbn [andb] in N1. rewrite negb_involutive in N1. apply String.eqb_eq. exact N1.
  - pose proof (N _ I2) as N1. rewrite forallb_forall in N1. specialize (N1 _ I1). symmetry in F. pose proof (suffixes _ _ _ _ F L) as S0. unfold clash in N1. cbn [fst snd] in N1.
    rewrite (proj2 (Nat.leb_le _ _) L), S0, String.eqb_refl in N1. cbn [andb] in N1. rewrite negb_involutive in N1. symmetry. apply String.eqb_eq. exact N1.
Qed.
Lemma mime_type name : file_type name (mime name).
Proof.
  rewrite mime_first. destruct (List.find _ types) as [[e m]|] eqn:F.
  - left. apply find_some in F. destruct F as [F1 F2]. cbn [fst] in F2. apply (type_check name e m F1) in F2. destruct F2 as (stem & e' & -> & S0). exists stem, e, e'. split; [reflexivity|]. split; assumption.
  - right. split; [reflexivity|]. intros m (stem & e & e' & -> & I1 & S1). pose proof (find_none _ _ F _ I1) as C. cbn [fst] in C.
    rewrite (proj2 (type_check _ e m I1)) in C by (exists stem, e'; split; [reflexivity|exact S1]). discriminate.
Qed.
Lemma file_type_unique name m m' : file_type name m -> file_type name m' -> m = m'.
Proof.
  intros [H|[-> H]] [H'|[-> H']]; [exact (type_unique _ _ _ H H')|destruct (H' _ H)|destruct (H _ H')|reflexivity].
Qed.

(** ** The target *)
Lemma last_dot_none t : no_dot t -> last_dot t = None.
Proof. induction t as [|c t IH]; intro H; [reflexivity|]. apply no_dot_cons in H. destruct H as [H1 H2]. cbn. rewrite (IH H2), (neq_dot c H1). reflexivity. Qed.
Lemma last_dot_app s t : no_dot t -> last_dot (s ++ "." ++ t)%string = Some (s, t).
Proof.
  intro H. induction s as [|c s IH]; [cbn; rewrite (last_dot_none t H); reflexivity|]. change ((String c s ++ "." ++ t)%string) with (String c (s ++ "." ++ t)). cbn [last_dot]. rewrite IH. reflexivity.
Qed.
Lemma join_app p q : p <> [] -> q <> [] -> join (p ++ q) = (join p ++ "." ++ join q)%string.
Proof.
  induction p as [|t p IH]; [congruence|]. intros _ Hq. destruct p as [|u p].
  - cbn [app]. rewrite join_cons by exact Hq. reflexivity.
  - change ((t :: u :: p) ++ q) with (t :: (u :: p) ++ q). rewrite join_cons by (destruct p; discriminate). rewrite IH by (discriminate || exact Hq). rewrite (join_cons t (u :: p)) by discriminate.
    rewrite sapp_assoc. reflexivity.
Qed.
Lemma last_dot_length s : forall b a, last_dot s = Some (b, a) -> String.length b + String.length a + 1 = String.length s.
Proof.
  induction s as [|c s IH]; intros b a E; [discriminate|]. cbn in E. destruct (last_dot s) as [[b' a']|]; [injection E as <- <-; cbn; specialize (IH _ _ eq_refl); lia|].
  destruct (Ascii.eqb c dot); [|discriminate]. injection E as <- <-. cbn. lia.
Qed.
Lemma target_ends look : forall fuel url rest, String.length url < fuel -> find_target fuel look url rest <> None.
Proof.
  induction fuel as [|k IH]; intros url rest H; [lia|]. cbn [find_target]. destruct (look url); [discriminate|]. destruct (last_dot url) as [[b a]|] eqn:E; [|discriminate].
  apply IH. apply last_dot_length in E. lia.
Qed.
Lemma target_shorter look : forall fuel url rest o r, find_target fuel look url rest = Some (Some (o, r)) -> exists u, look u = Some o /\ String.length r + String.length u <= String.length url + String.length rest.
Proof.
  induction fuel as [|k IH]; intros url rest o r E; [discriminate|]. cbn [find_target] in E. destruct (look url) as [x|] eqn:L.
  - injection E as <- <-. exists url. split; [exact L|lia].
  - destruct (last_dot url) as [[b a]|] eqn:D; [|discriminate]. destruct (IH _ _ _ _ E) as (u & Hu & Hl). exists u. split; [exact Hu|]. apply last_dot_length in D.
    destruct (String.eqb rest "") eqn:R; [lia|]. rewrite !length_app in Hl. cbn in Hl. lia.
Qed.
Lemma target_found look q o : q <> [] -> look (join q) = Some o -> forall r s fuel, Forall good_name (q ++ r ++ s) ->
  (forall a b, r = a ++ b -> a <> [] -> look (join (q ++ a)) = None) -> String.length (join (q ++ r)) < fuel ->
  find_target fuel look (join (q ++ r)) (join s) = Some (Some (o, join (r ++ s))).
Proof.
  intros Hq Ho. induction r as [|t r IH] using rev_ind; intros s fuel G N F.
  - rewrite app_nil_r in *. destruct fuel as [|k]; [lia|]. cbn [find_target]. rewrite Ho. reflexivity.
  - destruct fuel as [|k]; [lia|]. cbn [find_target]. rewrite (N (r ++ [t]) []) by (rewrite ?app_nil_r; first [reflexivity|destruct r; discriminate]).
    assert (Gt : good_name t) by (rewrite Forall_forall in G; apply G; rewrite !in_app_iff; right; left; right; left; reflexivity).
    assert (E : join (q ++ r ++ [t]) = (join (q ++ r) ++ "." ++ t)%string) by (rewrite app_assoc; rewrite join_app by (destruct q; (congruence || discriminate)); reflexivity).
    rewrite E, last_dot_app by (exact (proj2 Gt)).
    assert (R : (if String.eqb (join s) "" then t else (t ++ "." ++ join s)%string) = join (t :: s)).
    { destruct s as [|u s]; [reflexivity|]. rewrite (proj2 (String.eqb_neq _ _)); [rewrite (join_cons t (u :: s)) by discriminate; reflexivity|]. apply join_nonempty; [|discriminate].
      rewrite app_assoc in G. apply Forall_app in G. exact (proj2 G). }
    rewrite R, <- app_assoc. cbn [app]. apply IH.
    + rewrite <- app_assoc in G. exact G.
    + intros a b -> Ha. apply (N a (b ++ [t])); [rewrite app_assoc; reflexivity|exact Ha].
    + rewrite E, !length_app in F. change (String.length ".") with 1 in F. lia.
Qed.
Lemma target_missing look : forall p s fuel, Forall good_name (p ++ s) -> p <> [] -> (forall a b, p = a ++ b -> a <> [] -> look (join a) = None) -> String.length (join p) < fuel ->
  find_target fuel look (join p) (join s) = Some None.
Proof.
  induction p as [|t r IH] using rev_ind; intros s fuel G Hp N F; [congruence|]. destruct fuel as [|k]; [lia|]. cbn [find_target]. rewrite (N (r ++ [t]) []) by (rewrite ?app_nil_r; first [reflexivity|exact Hp]).
  assert (Gt : good_name t) by (rewrite Forall_forall in G; apply G; rewrite !in_app_iff; left; right; left; reflexivity).
  destruct r as [|u r]; [cbn [app join]; rewrite last_dot_none by (exact (proj2 Gt)); reflexivity|].
  assert (E : join ((u :: r) ++ [t]) = (join (u :: r) ++ "." ++ t)%string) by (rewrite join_app by discriminate; reflexivity). rewrite E, last_dot_app by (exact (proj2 Gt)).
  assert (R : (if String.eqb (join s) "" then t else (t ++ "." ++ join s)%string) = join (t :: s)).
  { destruct s as [|v s]; [reflexivity|]. rewrite (proj2 (String.eqb_neq _ _)); [rewrite (join_cons t (v :: s)) by discriminate; reflexivity|]. apply join_nonempty; [|discriminate].
    apply Forall_app in G. exact (proj2 G). }
  rewrite R. apply IH; [rewrite <- app_assoc in G; exact G|discriminate| |rewrite E, !length_app in F; change (String.length ".") with 1 in F; lia].
  intros a b E2 Ha. apply (N a (b ++ [t])); [rewrite app_assoc, <- E2; reflexivity|exact Ha].
Qed.
Lemma reference_found self l p x : unique_names l -> Forall good_name p -> p <> [] -> at_path l p x -> find_reference self l (join p) = Some x.
Proof.
  intros U G N A. unfold find_reference. rewrite (proj2 (String.eqb_neq _ _)) by (apply join_nonempty; assumption).
  rewrite (C30_find_path l p false x U G (or_introl eq_refl) A). reflexivity.
Qed.
Lemma reference_missing self l p : unique_names l -> Forall good_name p -> p <> [] -> nothing_at l p -> find_reference self l (join p) = None.
Proof.
  intros U G N A. unfold find_reference. rewrite (proj2 (String.eqb_neq _ _)) by (apply join_nonempty; assumption).
  destruct (find_path l (join p) false) as [[x|]|] eqn:E; try reflexivity. exfalso. destruct (C30_find_sound_partial l p false x (proj1 U) G E) as [a Ha]. exact (A a x Ha).
Qed.

(** ** Fuel *)
Lemma answer_fuel turns w q : forall fuel fuel' f self url, String.length url < fuel -> String.length url < fuel' -> answer fuel turns w f q self url = answer fuel' turns w f q self url.
Proof.
  induction fuel as [|k IH]; intros fuel' f self url H H'; [lia|]. destruct fuel' as [|k']; [lia|]. cbn [answer]. destruct (kinds w (oid self)) as [| | |r realm close] eqn:K; try reflexivity.
  destruct (allowed realm q); [|reflexivity]. destruct (find_target _ _ _ _) as [[[o rest]|]|] eqn:T; try reflexivity. destruct (oid o =? oid self) eqn:O; [reflexivity|].
  apply target_shorter in T. destruct T as (u & Hu & Hl). assert (1 <= String.length u). { destruct u; [|cbn; lia]. cbn in Hu. injection Hu as <-. rewrite Nat.eqb_refl in O. discriminate. }
  cbn [String.length] in Hl. destruct (kinds w (oid o)); try reflexivity; apply IH; lia.
Qed.
Lemma answer_stuck turns w q : forall fuel f self url, String.length url < fuel -> fst (answer fuel turns w f q self url) <> Stuck.
Proof.
  assert (D : forall f i base, snd (directory_text turns w f q i base) <> Stuck).
  { intros f i base. unfold directory_text, serve_file. destruct (os_open _ _); cbn [snd]; [|destruct (f i); discriminate]. destruct (head q); [discriminate|]. destruct (send _ _ _ _ _); discriminate. }
  induction fuel as [|k IH]; intros f self url H; [lia|]. cbn [answer]. destruct (kinds w (oid self)) as [| |base|r realm close] eqn:K; try (cbn [fst]; discriminate).
  - cbn [fst]. destruct (text q); [apply D|]. unfold directory_data. destruct (os_open _ _) as [[|]|]; discriminate.
  - destruct (allowed realm q); [|discriminate]. destruct (find_target _ _ _ _) as [[[o rest]|]|] eqn:T; [| |exfalso; exact (target_ends _ _ _ _ (Nat.lt_succ_diag_r _) T)]; [|discriminate].
    destruct (oid o =? oid self) eqn:O.
    + destruct (text q); [|discriminate]. generalize (match okids self with Some l => l | None => [] end). intro l. revert f. induction l as [|c l IHl]; intro f; [discriminate|]. cbn [try_directories].
      destruct (kinds w (oid c)) as [| |base|]; try apply IHl. pose proof (D (set_flag f (oid c) false) (oid c) base) as Dc. destruct (directory_text _ _ _ _ _ _) as [h a]. destruct h; [exact Dc|apply IHl].
    + apply target_shorter in T. destruct T as (u & Hu & Hl). assert (1 <= String.length u). { destruct u; [|cbn; lia]. cbn in Hu. injection Hu as <-. rewrite Nat.eqb_refl in O. discriminate. }
      cbn [String.length] in Hl. destruct (kinds w (oid o)); [cbn [fst]; destruct (text q); discriminate|..]; apply IH; lia.
Qed.
Lemma accepted_allowed realm q : accepted realm q -> allowed realm q = true.
Proof. intro H. unfold allowed. destruct realm as [v|]; [|reflexivity]. destruct (H v eq_refl) as (key & -> & E). exact E. Qed.
Lemma in_root_objects w self r l : in_root w self r l -> root_objects w self r = l.
Proof. intros [k E| |]; cbn; [rewrite E|..]; reflexivity. Qed.

(** ** Directories *)
Lemma serve_found turns w f q i name n : os_open (fs w) name = Some n -> forall c, n = NFile c -> (Z.of_nat (length c) < 2 ^ 32)%Z -> length c < turns ->
  serve_file turns w f q i name = (true, File (mime name) (if head q then 0%Z else Z.of_nat (length c)) (if head q then [] else c)).
Proof.
  intros O c -> L T. unfold serve_file. rewrite O. destruct (head q); [reflexivity|]. cbn [os_size]. rewrite Z.mod_small by lia.
  pose proof (send_file c turns 0 [] ltac:(lia) ltac:(lia)) as S0. rewrite Nat.sub_0_r in S0. rewrite S0. reflexivity.
Qed.
Lemma serve_below turns w f q i ds p m n b : Forall file_name ds -> ~ goes_up p -> snd (serve_file turns w f q i (full_path (absolute ds) p)) = File m n b -> b <> [] ->
  exists e c, node_at (fs w) (ds ++ e) = Some (NFile c) /\ exists d, c = b ++ d.
Proof.
  intros H U E B. unfold serve_file in E. destruct (os_open (fs w) (full_path (absolute ds) p)) as [x|] eqn:O; [|cbn [snd] in E; destruct (f i); discriminate].
  cbn [snd] in E. destruct (head q); [injection E as _ _ <-; congruence|]. destruct (open_below _ _ _ _ H U O) as [e He]. exists e.
  destruct x as [c|s es].
  - exists c. split; [exact He|]. destruct (send _ _ _ _ _) as [b'|] eqn:S0; [|discriminate]. injection E as _ _ <-. destruct (send_prefix c _ _ _ _ _ S0) as (d & -> & d' & Hd). exists d'. exact Hd.
  - exfalso. destruct (Z.eq_dec (os_size (NDir s es) mod 2 ^ 32) 0) as [Z0|Z0]; [|rewrite send_dir in E by exact Z0; discriminate]. rewrite Z0 in E. destruct turns; cbn in E; [discriminate|]. injection E as _ _ <-. congruence.
Qed.
