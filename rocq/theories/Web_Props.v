(** C59: who answers a web request, and which file is sent. *)
From Coq Require Import String Ascii.
From Verif Require Import Base Paths Container_Model Container_Props Web_Model Web_Spec Web_Proofs Web_Proofs2.
Open Scope string_scope. Open Scope nat_scope. Open Scope list_scope.

(** Every request is given to some object in finitely many steps, for every URL and every tree of objects and browsers. *)
Theorem C59_always_dispatched : forall turns w f self q url, fst (handle turns w f self q url) <> Stuck.
Proof. intros. apply answer_stuck. lia. Qed.

(** A browser gives the request to the object that the longest part of the URL names, with the rest of the URL. *)
Theorem C59_forward_partial : forall turns w f self q r realm c l p s o,
  kinds w (oid self) = Browser r realm c -> accepted realm q -> in_root w self r l -> unique_names l ->
  p <> [] -> Forall good_name (p ++ s) -> at_path l p o -> oid o <> oid self -> kinds w (oid o) <> Plain ->
  (forall a b, s = a ++ b -> a <> [] -> nothing_at l (p ++ a)) ->
  handle turns w f self q (join (p ++ s)) = handle turns w f o q (join s).
Proof.
  intros turns w f self q r realm c l p s o K A R U N G P O Kp L. unfold handle. remember (answer (S (String.length (join s))) turns w f q o (join s)) as rhs eqn:Er. cbn [answer]. rewrite K, (accepted_allowed realm q A), (in_root_objects w self r l R).
  pose proof (Forall_app good_name p s) as [G0 _]. destruct (G0 G) as [Gp Gs].
  assert (T : find_target (S (String.length (join (p ++ s)))) (find_reference self l) (join (p ++ s)) "" = Some (Some (o, join s))).
  { change "" with (join []). rewrite (target_found (find_reference self l) p o N (reference_found self l p o U Gp N P) s [] (S (String.length (join (p ++ s))))).
    - rewrite app_nil_r. reflexivity.
    - rewrite app_nil_r. exact G.
    - intros a b E Ha. apply reference_missing; [exact U| |destruct p; [congruence|discriminate]|exact (L a b E Ha)]. subst s. rewrite app_assoc in G. apply Forall_app in G. exact (proj1 G).
    - lia. }
  rewrite T. rewrite (proj2 (Nat.eqb_neq _ _) O).
  assert (E : answer (String.length (join (p ++ s))) turns w f q o (join s) = answer (S (String.length (join s))) turns w f q o (join s)).
  { apply answer_fuel; [|lia]. pose proof (join_nonempty p Gp N) as J. assert (1 <= String.length (join p)) by (destruct (join p); [congruence|cbn; lia]).
    destruct s as [|t s]; [rewrite app_nil_r; cbn [join String.length]; lia|]. rewrite (join_app p (t :: s) N) by discriminate. rewrite !length_app. lia. }
  destruct (kinds w (oid o)) eqn:Ko; [congruence|..]; rewrite E; symmetry; exact Er.
Qed.

(** An object that is no page: its values as data, and 404 as text. *)
Theorem C59_values : forall turns w f self q r realm c l p o,
  kinds w (oid self) = Browser r realm c -> accepted realm q -> in_root w self r l -> unique_names l ->
  p <> [] -> Forall good_name p -> at_path l p o -> oid o <> oid self -> kinds w (oid o) = Plain ->
  handle turns w f self q (join p) = (if text q then Not_found else Values (oid o), f).
Proof.
  intros turns w f self q r realm c l p o K A R U N G P O Kp. unfold handle. cbn [answer]. rewrite K, (accepted_allowed realm q A), (in_root_objects w self r l R).
  assert (T : find_target (S (String.length (join p))) (find_reference self l) (join p) "" = Some (Some (o, ""))).
  { cbn [find_target]. rewrite (reference_found self l p o U G N P). reflexivity. }
  rewrite T, (proj2 (Nat.eqb_neq _ _) O), Kp. reflexivity.
Qed.

(** A URL of which no part names an object: 404. *)
Theorem C59_not_found_partial : forall turns w f self q r realm c l p,
  kinds w (oid self) = Browser r realm c -> accepted realm q -> in_root w self r l -> unique_names l ->
  p <> [] -> Forall good_name p -> (forall a b, p = a ++ b -> a <> [] -> nothing_at l a) ->
  handle turns w f self q (join p) = (Not_found, f).
Proof.
  intros turns w f self q r realm c l p K A R U N G L. unfold handle. cbn [answer]. rewrite K, (accepted_allowed realm q A), (in_root_objects w self r l R).
  change "" with (join []). rewrite (target_missing (find_reference self l) p [] _); [reflexivity|rewrite app_nil_r; exact G|exact N| |lia].
  intros a b E Ha. apply reference_missing; [exact U| |exact Ha|exact (L a b E Ha)]. subst p. apply Forall_app in G. exact (proj1 G).
Qed.

(** The browser itself, as data: the objects in its root. *)
Theorem C59_index : forall turns w f self q r realm c l, kinds w (oid self) = Browser r realm c -> accepted realm q -> in_root w self r l -> text q = false ->
  handle turns w f self q "" = (Index (oid self) (map oid l), f).
Proof.
  intros turns w f self q r realm c l K A R T. unfold handle. cbn [String.length answer]. rewrite K, (accepted_allowed realm q A), (in_root_objects w self r l R).
  cbn [find_target]. change (find_reference self l "") with (Some self). cbv beta iota. rewrite Nat.eqb_refl, T. reflexivity.
Qed.

(** The browser itself, as text: the first of its directories that has the file sends it, and if none has it the answer is 404. *)
Definition directory_of (w : world) (o : obj) (ds : list string) : Prop := kinds w (oid o) = Directory (absolute ds) /\ Forall file_name ds.
Definition not_in (w : world) (ps : list string) (o : obj) : Prop :=
  (exists ds, directory_of w o ds /\ node_at (fs w) (ds ++ ps) = None) \/ (forall base, kinds w (oid o) <> Directory base).
(** the path that a request asks of a directory *)
Definition asks (q : request) (ps : list string) : Prop := path q = Some (relative ps) \/ (path q = None /\ ps = ["index.html"]).
Lemma asks_text q ps base : asks q ps -> full_path base (match path q with Some p => p | None => "index.html" end) = full_path base (relative ps).
Proof. intros [->|[-> ->]]; reflexivity. Qed.
Lemma not_in_tried turns w q ps l : asks q ps -> ps <> [] -> Forall file_name ps -> Forall (not_in w ps) l -> forall f l2, exists f', try_directories turns w f q (l ++ l2) = try_directories turns w f' q l2.
Proof.
  intros A N P H. induction H as [|o l Ho Hl IH]; intros f l2; [exists f; reflexivity|]. cbn [app try_directories]. destruct Ho as [(ds & [K D] & E)|H0].
  - rewrite K. unfold directory_text. rewrite (asks_text q ps _ A). rewrite full_absolute by exact N. unfold serve_file. rewrite open_absolute; [|apply Forall_app; split; assumption|destruct ds; [exact N|discriminate]].
    rewrite E. cbv iota beta. apply IH.
  - destruct (kinds w (oid o)) eqn:K; try apply IH. destruct (H0 base eq_refl).
Qed.
Theorem C59_own_pages : forall turns w f self q r realm c l1 l2 o ds ps k, kinds w (oid self) = Browser r realm c -> accepted realm q -> text q = true ->
  okids self = Some (l1 ++ o :: l2) -> Forall (not_in w ps) l1 -> directory_of w o ds -> asks q ps -> ps <> [] -> Forall file_name ps ->
  node_at (fs w) (ds ++ ps) = Some (NFile k) -> (Z.of_nat (length k) < 2 ^ 32)%Z -> length k < turns ->
  exists m, file_type (absolute (ds ++ ps)) m /\ fst (handle turns w f self q "") = File m (if head q then 0%Z else Z.of_nat (length k)) (if head q then [] else k).
Proof.
  intros turns w f self q r realm c l1 l2 o ds ps k K A T Ks H1 [Ko D] As N P E L Tn. exists (mime (absolute (ds ++ ps))). split; [apply mime_type|].
  unfold handle. cbn [String.length answer]. rewrite K, (accepted_allowed realm q A). cbn [find_target]. change (find_reference self (root_objects w self r) "") with (Some self). cbv beta iota. rewrite Nat.eqb_refl, T, Ks.
  destruct (not_in_tried turns w q ps l1 As N P H1 f (o :: l2)) as [f' ->]. cbn [try_directories]. rewrite Ko. unfold directory_text. rewrite (asks_text q ps _ As), full_absolute by exact N.
  rewrite (serve_found turns w _ q (oid o) (absolute (ds ++ ps)) (NFile k)) with (c := k); try assumption; [reflexivity| |reflexivity].
  rewrite open_absolute; [exact E|apply Forall_app; split; assumption|destruct ds; [exact N|discriminate]].
Qed.
Theorem C59_no_own_page : forall turns w f self q r realm c l ps, kinds w (oid self) = Browser r realm c -> accepted realm q -> text q = true ->
  okids self = Some l -> Forall (not_in w ps) l -> asks q ps -> ps <> [] -> Forall file_name ps -> fst (handle turns w f self q "") = Not_found.
Proof.
  intros turns w f self q r realm c l ps K A T Ks H1 As N P. unfold handle. cbn [String.length answer]. rewrite K, (accepted_allowed realm q A). cbn [find_target].
  change (find_reference self (root_objects w self r) "") with (Some self). cbv beta iota. rewrite Nat.eqb_refl, T, Ks. destruct (not_in_tried turns w q ps l As N P H1 f []) as [f' E]. rewrite app_nil_r in E. rewrite E. reflexivity.
Qed.

(** ** Directories *)
(** The file below the directory that the path names is sent whole, with the type of its name. *)
Theorem C59_file_partial : forall turns w f o q url ds ps k, directory_of w o ds -> text q = true -> asks q ps -> ps <> [] -> Forall file_name ps ->
  node_at (fs w) (ds ++ ps) = Some (NFile k) -> (Z.of_nat (length k) < 2 ^ 32)%Z -> length k < turns ->
  exists m, file_type (absolute (ds ++ ps)) m /\ handle turns w f o q url = (File m (if head q then 0%Z else Z.of_nat (length k)) (if head q then [] else k), f).
Proof.
  intros turns w f o q url ds ps k [K D] T As N P E L Tn. exists (mime (absolute (ds ++ ps))). split; [apply mime_type|]. unfold handle. cbn [answer]. rewrite K, T. f_equal. unfold directory_text.
  rewrite (asks_text q ps _ As), full_absolute by exact N. rewrite (serve_found turns w f q (oid o) (absolute (ds ++ ps)) (NFile k)) with (c := k); try assumption; [reflexivity| |reflexivity].
  rewrite open_absolute; [exact E|apply Forall_app; split; assumption|destruct ds; [exact N|discriminate]].
Qed.
(** A name has one type. *)
Theorem C59_one_type : forall name m m', file_type name m -> file_type name m' -> m = m'.
Proof. exact file_type_unique. Qed.
(** A file that is not there: 404, as long as no browser has tried the directory for its own page. *)
Theorem C59_missing_partial : forall turns w o q url ds ps, directory_of w o ds -> text q = true -> asks q ps -> ps <> [] -> Forall file_name ps ->
  node_at (fs w) (ds ++ ps) = None -> handle turns w start o q url = (Not_found, start).
Proof.
  intros turns w o q url ds ps [K D] T As N P E. unfold handle. cbn [answer]. rewrite K, T. f_equal. unfold directory_text, serve_file. rewrite (asks_text q ps _ As), full_absolute by exact N.
  rewrite open_absolute; [|apply Forall_app; split; assumption|destruct ds; [exact N|discriminate]]. rewrite E. reflexivity.
Qed.
(** Unless the path goes up, nothing outside the configured directories is sent: for every request, URL, tree and history. *)
Theorem C59_inside_partial : forall turns w f self q url m n b, (forall i base, kinds w i = Directory base -> exists ds, Forall file_name ds /\ base = absolute ds) ->
  (forall p, path q = Some p -> ~ goes_up p) -> fst (handle turns w f self q url) = File m n b -> b <> [] ->
  exists i ds e k d, kinds w i = Directory (absolute ds) /\ node_at (fs w) (ds ++ e) = Some (NFile k) /\ k = b ++ d.
Proof.
  intros turns w f self q url m n b H U. unfold handle. generalize (S (String.length url)). intro fuel. intros E B.
  assert (D : forall f i base, kinds w i = Directory base -> snd (directory_text turns w f q i base) = File m n b -> exists i ds e k d, kinds w i = Directory (absolute ds) /\ node_at (fs w) (ds ++ e) = Some (NFile k) /\ k = b ++ d).
  { intros f0 i base K E0. destruct (H i base K) as (ds & Hd & ->). unfold directory_text in E0. apply serve_below in E0; [|exact Hd| |exact B].
    - destruct E0 as (e & k & E1 & d & E2). exists i, ds, e, k, d. split; [exact K|]. split; assumption.
    - destruct (path q) as [p|] eqn:Pq; [exact (U p eq_refl)|]. intros (a & x & E1 & _). clear - E1. do 11 (destruct a as [|? a]; [try discriminate E1|cbn in E1; try (injection E1 as ? E1)]); try discriminate E1. }
  revert f self url E. induction fuel as [|k IH]; intros f self url E; [discriminate|]. cbn [answer] in E. destruct (kinds w (oid self)) as [| |base|r realm close] eqn:K; try discriminate.
  - cbn [fst] in E. destruct (text q); [exact (D f _ base K E)|]. unfold directory_data in E. destruct (os_open _ _) as [[|]|]; discriminate.
  - destruct (allowed realm q); [|discriminate]. destruct (find_target _ _ _ _) as [[[o rest]|]|]; try discriminate. destruct (oid o =? oid self).
    + destruct (text q); [|discriminate]. revert f E. generalize (match okids self with Some l => l | None => [] end). intro l. induction l as [|c l IHl]; intros f E; [discriminate|]. cbn [try_directories] in E.
      destruct (kinds w (oid c)) as [| |base|] eqn:Kc; try (exact (IHl f E)). pose proof (D (set_flag f (oid c) false) (oid c) base Kc) as Dc. destruct (directory_text _ _ _ _ _ _) as [h a].
      destruct h; [exact (Dc E)|exact (IHl _ E)].
    + destruct (kinds w (oid o)); [cbn [fst] in E; destruct (text q); discriminate|..]; exact (IH _ _ _ E).
Qed.

(** As data, a directory answers with what is in the directory that the path names (without a path, in itself). *)
Definition entries_of (l : list (string * node)) (a : reply) : Prop :=
  exists e, a = Listing e /\ forall t b, In (t, b) e <-> exists n, In (t, n) l /\ (b = true <-> exists s es, n = NDir s es).
Theorem C59_listing : forall turns w f o q url ds ps s l, directory_of w o ds -> text q = false -> path q = Some (relative ps) \/ (path q = None /\ ps = []) -> Forall file_name ps ->
  node_at (fs w) (ds ++ ps) = Some (NDir s l) -> entries_of l (fst (handle turns w f o q url)) /\ snd (handle turns w f o q url) = f.
Proof.
  intros turns w f o q url ds ps s l [K D] T Q P E. unfold handle. cbn [answer]. rewrite K, T. cbn [fst snd]. split; [|reflexivity]. unfold directory_data.
  replace (match path q with Some p => p | None => "" end) with (relative ps) by (destruct Q as [-> |[-> ->]]; reflexivity).
  assert (O : os_open (fs w) (full_path (absolute ds) (relative ps)) = Some (NDir s l)).
  { destruct ps as [|p ps].
    - rewrite app_nil_r in E. unfold os_open, full_path. cbn [relative]. rewrite split_app, (split_absolute ds D), resolve_app. cbn [resolve]. change (rev []) with (@nil string). cbn [node_at].
      change (String.eqb "" "" || String.eqb "" ".") with true. cbv iota. destruct (fs w) as [c|s0 es0] eqn:F; [destruct ds; discriminate E|]. rewrite (resolve_names _ ds D [] _ E), app_nil_r. cbn [split resolve].
      rewrite rev_involutive, E. change (String.eqb "" "" || String.eqb "" ".") with true. cbv iota. rewrite rev_involutive. exact E.
    - rewrite full_absolute by discriminate. rewrite open_absolute; [exact E|apply Forall_app; split; assumption|destruct ds; discriminate]. }
  rewrite O. eexists. split; [reflexivity|]. intros t b. rewrite in_map_iff. split.
  - intros ([t0 n] & X & I0). cbn [fst snd] in X. injection X as <- <-. exists n. split; [exact I0|]. destruct n; split; intro H; try discriminate; [destruct H as (? & ? & H); discriminate H|eexists; eexists; reflexivity|reflexivity].
  - intros (n & I0 & B). exists (t, n). split; [|exact I0]. cbn [fst snd]. f_equal. destruct n, b; try reflexivity.
    + destruct (proj1 B eq_refl) as (? & ? & X). discriminate X.
    + symmetry. apply B. eexists. eexists. reflexivity.
Qed.
(** Unless the path goes up, only directories below the configured ones are listed. *)
Theorem C59_listing_inside_partial : forall turns w f self q url e, (forall i base, kinds w i = Directory base -> exists ds, Forall file_name ds /\ base = absolute ds) ->
  (forall p, path q = Some p -> ~ goes_up p) -> fst (handle turns w f self q url) = Listing e ->
  (exists name, e = [(name, false)]) \/ exists i ds x s l, kinds w i = Directory (absolute ds) /\ node_at (fs w) (ds ++ x) = Some (NDir s l) /\ map fst e = map fst l.
Proof.
  intros turns w f self q url e H U. unfold handle. generalize (S (String.length url)). intros fuel E.
  assert (D : forall f i base, snd (directory_text turns w f q i base) <> Listing e).
  { intros g i base. unfold directory_text, serve_file. destruct (os_open _ _); cbn [snd]; [|destruct (g i); discriminate]. destruct (head q); [discriminate|]. destruct (send _ _ _ _ _); discriminate. }
  revert f self url E. induction fuel as [|k IH]; intros f self url E; [discriminate|]. cbn [answer] in E. destruct (kinds w (oid self)) as [| |base|r realm close] eqn:K; try discriminate.
  - cbn [fst] in E. destruct (text q); [destruct (D _ _ _ E)|]. unfold directory_data in E. destruct (H _ _ K) as (ds & Hd & ->). set (p := match path q with Some p => p | None => "" end) in E.
    assert (Up : ~ goes_up p). { unfold p. destruct (path q) as [p0|]; [exact (U p0 eq_refl)|]. intros (a & b & E1 & _). destruct a; discriminate E1. }
    destruct (os_open (fs w) (full_path (absolute ds) p)) as [[c|s l]|] eqn:O; try (injection E as <-; left; eexists; reflexivity). injection E as <-. right.
    destruct (open_below _ _ _ _ Hd Up O) as [x Hx]. exists (oid self), ds, x, s, l. split; [exact K|]. split; [exact Hx|]. rewrite map_map. reflexivity.
  - destruct (allowed realm q); [|discriminate]. destruct (find_target _ _ _ _) as [[[o rest]|]|]; try discriminate. destruct (oid o =? oid self).
    + destruct (text q); [|discriminate]. exfalso. revert f E. generalize (match okids self with Some l => l | None => [] end). intro l. induction l as [|c l IHl]; intros f E; [discriminate|]. cbn [try_directories] in E.
      destruct (kinds w (oid c)) as [| |base|] eqn:Kc; try (exact (IHl f E)). pose proof (D (set_flag f (oid c) false) (oid c) base) as Dc. destruct (directory_text _ _ _ _ _ _) as [h a].
      destruct h; [exact (Dc E)|exact (IHl _ E)].
    + destruct (kinds w (oid o)); [cbn [fst] in E; destruct (text q); discriminate|..]; exact (IH _ _ _ E).
Qed.

(** ** Realms *)
(** A browser with a realm answers nothing else than 401 without credentials that the realm accepts. *)
Theorem C59_realm : forall turns w f self q url r validate c, kinds w (oid self) = Browser r (Some validate) c ->
  (forall key, authorization q = Some key -> validate key = false) -> handle turns w f self q url = (Unauthorised c, f).
Proof.
  intros turns w f self q url r v c K H. unfold handle. cbn [answer]. rewrite K. unfold allowed. destruct (authorization q) as [key|]; [rewrite (H key eq_refl)|]; reflexivity.
Qed.

(** ** History *)
(** Earlier requests change an answer only between 404 and silence. *)
Definition absent (a : reply) : Prop := a = Not_found \/ a = Silence.
Theorem C59_history : forall turns w f1 f2 self q url, let a1 := fst (handle turns w f1 self q url) in let a2 := fst (handle turns w f2 self q url) in a1 = a2 \/ (absent a1 /\ absent a2).
Proof.
  intros turns w f1 f2 self q url. unfold handle. generalize (S (String.length url)). intro fuel.
  assert (D : forall f1 f2 i base, fst (directory_text turns w f1 q i base) = fst (directory_text turns w f2 q i base) /\
    (snd (directory_text turns w f1 q i base) = snd (directory_text turns w f2 q i base) \/ (absent (snd (directory_text turns w f1 q i base)) /\ absent (snd (directory_text turns w f2 q i base))))).
  { intros g1 g2 i base. unfold directory_text, serve_file. destruct (os_open _ _); cbn [fst snd]; [split; [reflexivity|left; reflexivity]|]. split; [reflexivity|].
    right. unfold absent. destruct (g1 i), (g2 i); split; tauto. }
  revert f1 f2 self url. induction fuel as [|k IH]; intros f1 f2 self url; [left; reflexivity|]. cbn [answer]. destruct (kinds w (oid self)) as [| |base|r realm close]; try (left; reflexivity).
  - cbn [fst]. destruct (text q); [apply D|left; reflexivity].
  - destruct (allowed realm q); [|left; reflexivity]. destruct (find_target _ _ _ _) as [[[o rest]|]|]; try (left; reflexivity). destruct (oid o =? oid self).
    + destruct (text q); [|left; reflexivity]. generalize (match okids self with Some l => l | None => [] end). intro l. revert f1 f2. induction l as [|c l IHl]; intros f1 f2; [left; reflexivity|]. cbn [try_directories].
      destruct (kinds w (oid c)) as [| |base|]; try apply IHl. destruct (D (set_flag f1 (oid c) false) (set_flag f2 (oid c) false) (oid c) base) as [D1 D2].
      destruct (directory_text turns w (set_flag f1 (oid c) false) q (oid c) base) as [h1 a1]. destruct (directory_text turns w (set_flag f2 (oid c) false) q (oid c) base) as [h2 a2].
      cbn [fst snd] in D1, D2. subst h2. destruct h1; [exact D2|apply IHl].
    + destruct (kinds w (oid o)); [left; reflexivity|..]; apply IH.
Qed.

(** ** A concrete server *)
Definition content (s : string) : list Z := List.map (fun c => Z.of_nat (nat_of_ascii c)) (list_ascii_of_string s).
Definition disk : node := NDir 4096 [("etc", NDir 4096 [("passwd", NFile (content "root:x:0"))]);
  ("www", NDir 4096 [("index.html", NFile (content "<html>")); ("img", NDir 4096 [("Logo.GIF", NFile (content "GIF89a"))])])].
Definition files : obj := leaf 11 "Files".
Definition secret : obj := leaf 21 "Gains".
Definition admin : obj := box 20 "Admin" [secret].
Definition timer : obj := leaf 30 "Timer".
Definition web : obj := box 10 "Web" [files; admin; timer].
Definition server : world := World [web]
  (fun i => match i with 10 => Browser Here None true | 11 => Directory "/www" | 20 => Browser Here (Some (fun key => String.eqb key "Basic 1234")) true | _ => Plain end) disk.
Definition ask (t h : bool) (p : option string) : request := Request t h p None.
Example C59_case :
  fst (handle 100 server start web (ask true false None) "") = File "text/html" 6 (content "<html>") /\
  fst (handle 100 server start web (ask true false (Some "img/Logo.GIF")) "Files") = File "image/gif" 6 (content "GIF89a") /\
  fst (handle 100 server start web (ask true false (Some "none.txt")) "Files") = Not_found /\
  fst (handle 100 server start web (ask false false None) "") = Index 10 [11; 20; 30] /\
  fst (handle 100 server start web (ask false false None) "Files") = Listing [("index.html", false); ("img", true)] /\
  fst (handle 100 server start web (ask false false None) "Timer") = Values 30 /\
  fst (handle 100 server start web (ask false false None) "Nobody.x") = Not_found /\
  fst (handle 100 server start web (ask false false None) "Admin") = Unauthorised true /\
  fst (handle 100 server start web (Request false false None (Some "Basic 1234")) "Admin") = Index 20 [21].
Proof. vm_compute. repeat (split; [reflexivity|]). reflexivity. Qed.
(** The hypotheses of C59_forward_partial are met: the request for Admin.Unknown is given to Admin, with Unknown. *)
Example C59_forward_case : in_root server web Here [files; admin; timer] /\ unique_names [files; admin; timer] /\ at_path [files; admin; timer] ["Admin"] admin /\
  Forall good_name ["Admin"; "Unknown"] /\ nothing_at [files; admin; timer] ["Admin"; "Unknown"] /\ directory_of server files ["www"] /\
  node_at disk (["www"] ++ ["img"; "Logo.GIF"]) = Some (NFile (content "GIF89a")) /\ asks (ask true false (Some "img/Logo.GIF")) ["img"; "Logo.GIF"].
Proof.
  split; [apply root_here; reflexivity|]. split; [concrete_unique|]. split; [apply at_here; [right; left; reflexivity|reflexivity]|]. split; [good|]. split.
  - assert (B : forall p y, at_path [secret] p y -> p = ["Gains"]).
    { intros p y H. inversion H as [l0 o0 t0 I1 N1|l0 o0 t0 k0 p0 x0 I1 N1 K1 H1]; subst; destruct I1 as [<-|[]]; [|discriminate K1]. injection N1 as <-. reflexivity. }
    assert (B2 : forall p y, at_path [files; admin; timer] p y -> In p [["Files"]; ["Admin"]; ["Timer"]; ["Admin"; "Gains"]]).
    { intros p y H. inversion H as [l0 o0 t0 I1 N1|l0 o0 t0 k0 p0 x0 I1 N1 K1 H1]; subst; destruct I1 as [<-|[<-|[<-|[]]]]; try discriminate K1; injection N1 as <-; cbn; [tauto..|]. injection K1 as <-. rewrite (B _ _ H1). tauto. }
    intros a x H. apply B2 in H. destruct H as [H|[H|[H|[H|[]]]]]; destruct a as [|? [|? [|? a]]]; discriminate H.
  - split; [|split; [reflexivity|left; reflexivity]]. split; [reflexivity|]. repeat constructor; try discriminate. intros [|? [|? [|? [|? a]]]] b; discriminate.
Qed.

(** ** What is not so *)
(** A path with ".." gives files outside the directory. *)
Theorem C59_outside_refuted : ~ (forall turns w f self q url m n b, (forall i base, kinds w i = Directory base -> exists ds, Forall file_name ds /\ base = absolute ds) ->
  fst (handle turns w f self q url) = File m n b -> b <> [] -> exists i ds e k d, kinds w i = Directory (absolute ds) /\ node_at (fs w) (ds ++ e) = Some (NFile k) /\ k = b ++ d).
Proof.
  intro H. destruct (H 100 server start web (ask true false (Some "../etc/passwd")) "Files" "binary" 8%Z (content "root:x:0")) as (i & ds & e & k & d & K & N & E).
  - intros i base K. exists ["www"]. do 21 (destruct i as [|i]; [cbn in K; try discriminate K; try (injection K as <-; split; [|reflexivity]; repeat constructor; try discriminate; intros [|? [|? [|? [|? a]]]] b; discriminate)|]). discriminate K.
  - vm_compute. reflexivity.
  - discriminate.
  - assert (D : ds = ["www"]). { do 21 (destruct i as [|i]; [cbn in K; try discriminate K; try (injection K as K; destruct ds as [|t [|u ds]]; cbn in K; [discriminate K|rewrite app_empty_r in K; congruence|]; exfalso;
      do 4 (destruct t as [|? t]; [cbn in K; try discriminate K|cbn in K; try (injection K as ? K)]); try discriminate K; subst; try discriminate)|]). discriminate K. }
    subst ds k. cbn [app] in N. cbn [node_at server fs disk entry] in N. change (String.eqb "etc" "www") with false in N. change (String.eqb "www" "www") with true in N. cbv iota in N.
    destruct e as [|t e]; [discriminate N|]. cbn [node_at entry] in N. destruct (String.eqb "index.html" t).
    + destruct e; [cbn in N; discriminate N|discriminate N].
    + destruct (String.eqb "img" t); [|discriminate N]. destruct e as [|u e]; [discriminate N|]. cbn [node_at entry] in N. destruct (String.eqb "Logo.GIF" u); [|discriminate N]. destruct e; discriminate N.
Qed.
(** The objects of a browser with a realm can be read without credentials through the browser that contains it. *)
Theorem C59_realm_refuted : ~ (forall turns w f self q url prot p x r validate c, kinds w (oid prot) = Browser r (Some validate) c -> okids prot <> None -> authorization q = None ->
  (forall k, okids prot = Some k -> at_path k p x) -> fst (handle turns w f self q url) <> Values (oid x)).
Proof.
  intro H. eapply (H 100 server start web (ask false false None) "Admin.Gains" admin ["Gains"] secret); [reflexivity|discriminate|reflexivity| |vm_compute; reflexivity].
  intros k E. injection E as <-. apply at_here; [left; reflexivity|reflexivity].
Qed.
(** The name of a directory keeps the thread of the server busy for ever. *)
Theorem C59_directory_refuted : ~ (forall w f o q url base, kinds w (oid o) = Directory base -> text q = true -> exists turns, fst (handle turns w f o q url) <> Unfinished).
Proof.
  intro H. destruct (H server start files (ask true false (Some "img")) "" "/www" eq_refl eq_refl) as [turns E]. apply E. unfold handle. cbn [String.length answer files leaf oid server kinds text ask fst].
  unfold directory_text, serve_file. cbn [path ask snd]. replace (os_open (fs server) (full_path "/www" "img")) with (Some (NDir 4096 [("Logo.GIF", NFile (content "GIF89a"))])) by (vm_compute; reflexivity).
  cbn [snd head ask]. rewrite send_dir by discriminate. reflexivity.
Qed.
(** Once the browser has looked for its own page in a directory, a request to the directory for a file that is not there is never answered. *)
Theorem C59_missing_refuted : ~ (forall turns w self l ds o ps q url, directory_of w o ds -> asks q ps -> Forall file_name ps -> ps <> [] -> text q = true -> node_at (fs w) (ds ++ ps) = None ->
  fst (handle turns w (snd (handle_all turns w start self l)) o q url) = Not_found).
Proof.
  intro H. specialize (H 100 server web [(ask true false None, "")] ["www"] files ["a"] (ask true false (Some "a")) "").
  assert (F : forall t, t = "www" \/ t = "a" -> file_name t). { intros t [->| ->]; repeat (split; [discriminate|]); intros [|? [|? [|? [|? a]]]] b; discriminate. }
  specialize (H (conj eq_refl (Forall_cons _ (F _ (or_introl eq_refl)) (Forall_nil _))) (or_introl eq_refl) (Forall_cons _ (F _ (or_intror eq_refl)) (Forall_nil _))). specialize (H ltac:(discriminate) eq_refl eq_refl). vm_compute in H. discriminate H.
Qed.
(** The length of a file is sent modulo 2^32: of a file of 4 GiB nothing is sent. *)
Theorem C59_large_refuted : exists w o q k, kinds w (oid o) = Directory "/www" /\ node_at (fs w) ["www"; "big"] = Some (NFile k) /\ k <> [] /\ text q = true /\ head q = false /\ path q = Some "big" /\
  forall turns f url, 0 < turns -> fst (handle turns w f o q url) = File "binary" 0 [].
Proof.
  exists (World [files] (fun _ => Directory "/www") (NDir 4096 [("www", NDir 4096 [("big", NFile (repeat 0%Z (Z.to_nat (2 ^ 32))))])])), files, (ask true false (Some "big")), (repeat 0%Z (Z.to_nat (2 ^ 32))).
  split; [reflexivity|]. split; [reflexivity|]. split; [intro E; apply (f_equal (@length Z)) in E; rewrite repeat_length in E; cbn [length] in E; lia|]. do 3 (split; [reflexivity|]).
  intros turns f url T. generalize (repeat_length 0%Z (Z.to_nat (2 ^ 32))). generalize (repeat 0%Z (Z.to_nat (2 ^ 32))). intros k L. unfold handle. cbn [answer kinds text ask fst]. unfold directory_text, serve_file. cbn [path ask fs].
  replace (os_open (NDir 4096 [("www", NDir 4096 [("big", NFile k)])]) (full_path "/www" "big")) with (Some (NFile k)) by reflexivity. cbn [snd head ask os_size]. rewrite L, Z2Nat.id by lia.
  rewrite Z_mod_same_full. destruct turns; [lia|]. reflexivity.
Qed.
(** HEAD announces length 0, whatever GET announces. *)
Theorem C59_head_refuted : ~ (forall turns w f o p url m n b m' n' b', fst (handle turns w f o (ask true false p) url) = File m n b -> fst (handle turns w f o (ask true true p) url) = File m' n' b' -> n' = n).
Proof. intro H. specialize (H 100 server start files None "" "text/html" 6%Z (content "<html>") "text/html" 0%Z []). specialize (H eq_refl eq_refl). discriminate H. Qed.
Print Assumptions C59_always_dispatched.
Print Assumptions C59_forward_partial.
Print Assumptions C59_values.
Print Assumptions C59_not_found_partial.
Print Assumptions C59_index.
Print Assumptions C59_own_pages.
Print Assumptions C59_no_own_page.
Print Assumptions C59_file_partial.
Print Assumptions C59_one_type.
Print Assumptions C59_missing_partial.
Print Assumptions C59_inside_partial.
Print Assumptions C59_listing.
Print Assumptions C59_listing_inside_partial.
Print Assumptions C59_realm.
Print Assumptions C59_history.
Print Assumptions C59_outside_refuted.
Print Assumptions C59_realm_refuted.
Print Assumptions C59_directory_refuted.
Print Assumptions C59_missing_refuted.
Print Assumptions C59_large_refuted.
Print Assumptions C59_head_refuted.
