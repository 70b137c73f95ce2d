(** C50. A request that a client writes is what the pages see. *)
From Verif Require Import Base Http_Model Http_Spec Http_Proofs Http_Proofs2 Http_Proofs3.
From Coq Require Import String.
From Coq Require Import Ascii.
From Coq Require Import Lia.
Open Scope string_scope. Open Scope Z_scope. Open Scope list_scope.
Definition chars (s : string) : list Z := List.map (fun c => Z.of_nat (nat_of_ascii c)) (list_ascii_of_string s).

(** HttpEncode and HttpDecode, any text of C: encoding succeeds, and decoding gives the text back. *)
Theorem C50_round_trip_partial : forall t, Forall byte t -> no_nul t ->
  match http_encode t with Some (e, r) => r = true /\ decode e = Some t | None => False end.
Proof. intros t B N. unfold http_encode. destruct (encode_ok t [] B N) as (e & -> & D & _). cbn [app]. split; [reflexivity|exact D]. Qed.
Print Assumptions C50_round_trip_partial.

(** What HttpEncode writes is a percent encoding of the text, with none of the separators in it, unless the text has tabs or ends of lines. *)
Theorem C50_encode_partial : forall t, Forall byte t -> no_nul t -> Forall (fun c => ~ In c [9; 10; 13]) t ->
  match http_encode t with Some (e, r) => r = true /\ escaped e t | None => False end.
Proof. intros t B N S. unfold http_encode. destruct (encode_ok t [] B N) as (e & -> & _ & E). cbn [app]. split; [reflexivity|exact (E S)]. Qed.
Print Assumptions C50_encode_partial.

(** HttpDecode, any percent encoding of any bytes, made by any client *)
Theorem C50_decode_partial : forall e t, escaped e t -> decode e = Some t.
Proof. exact decode_escaped. Qed.
Print Assumptions C50_decode_partial.

(** A request with a query: the command, the parts of the path joined with dots, the names and values of the query and of the
    options, each in its order, are what was written before encoding, whatever the previous request was; what follows the request is left
    in the stream. *)
Theorem C50_request_partial : forall m parts eparts query equery version opts before rest,
  Forall2 escaped eparts parts -> Forall good_part parts ->
  Forall2 good_pair equery query -> query <> [] ->
  word version -> 5 <= Z.of_nat (List.length version) ->
  Forall (fun o => option_name (fst o) /\ option_value (snd o)) opts ->
  Z.of_nat (List.length (request_text (command_text m) (path_text eparts) (Some (query_text equery)) version opts)) < 2 ^ 32 ->
  read_header before (request_text (command_text m) (path_text eparts) (Some (query_text equery)) version opts ++ rest)
    = Some (Read (Request m (joined [46] parts) query opts) rest).
Proof.
  intros m ps es qs eqs version opts before rest F G FQ NQ W W5 O B. unfold request_text in *. cbn iota in B. rewrite !app_length in B. cbn [List.length] in B. assert (LM : (3 <= List.length (command_text m))%nat) by (destruct m; cbn; lia). 
  assert (NE : eqs <> []) by (destruct FQ; [contradiction|discriminate]).
  pose proof (header_ok m before (path_text es) (63 :: query_text eqs) opts version rest (joined [46] ps) qs W W5 O) as H.
  unfold tail_text in H. cbn [app] in H |- *. repeat (rewrite <- ?app_assoc; cbn [app]). repeat (rewrite <- ?app_assoc in H; cbn [app] in H). apply H.
  - apply Forall_app. split; [eapply Forall_impl; [|exact (path_chars _ _ F)]; unfold url_char; intros; lia|]. constructor; [lia|]. eapply Forall_impl; [|exact (query_chars _ _ FQ)]. intros x X. cbn in X. lia.
  - cbn [List.length]. lia.
  - lia.
  - exists 63, (query_text eqs ++ 32 :: version ++ [13]). split; [apply build_ok; [exact F|exact G|lia|cbn; tauto]|]. change (63 =? 63) with true. cbn iota. apply store_commands_ok; [exact FQ|exact NE|lia|cbn; tauto].
Qed.
Print Assumptions C50_request_partial.

(** The same without a query, for the first request of a connection: no command is seen. *)
Theorem C50_no_query_partial : forall m parts eparts version opts rest,
  Forall2 escaped eparts parts -> Forall good_part parts ->
  word version -> 5 <= Z.of_nat (List.length version) ->
  Forall (fun o => option_name (fst o) /\ option_value (snd o)) opts ->
  Z.of_nat (List.length (request_text (command_text m) (path_text eparts) None version opts)) < 2 ^ 32 ->
  read_header [] (request_text (command_text m) (path_text eparts) None version opts ++ rest)
    = Some (Read (Request m (joined [46] parts) [] opts) rest).
Proof.
  intros m ps es version opts rest F G W W5 O B. unfold request_text in *. cbn iota in B. rewrite !app_length in B. cbn [List.length] in B. assert (LM : (3 <= List.length (command_text m))%nat) by (destruct m; cbn; lia). 
  pose proof (header_ok m [] (path_text es) [] opts version rest (joined [46] ps) [] W W5 O) as H.
  unfold tail_text in H. cbn [app] in H |- *. repeat (rewrite <- ?app_assoc; cbn [app]). repeat (rewrite <- ?app_assoc in H; cbn [app] in H). apply H.
  - rewrite app_nil_r. eapply Forall_impl; [|exact (path_chars _ _ F)]; unfold url_char; intros; lia.
  - cbn [List.length]. lia.
  - lia.
  - exists 32, (version ++ [13]). split; [apply build_ok; [exact F|exact G|lia|cbn; tauto]|reflexivity].
Qed.
Print Assumptions C50_no_query_partial.

(** A form that is posted: the names and values, in order, when no encoded value has a semicolon. *)
Theorem C50_form_partial : forall form eform, Forall2 good_pair eform form -> Forall (fun e => ~ In 59 (snd e)) eform ->
  Z.of_nat (List.length (query_text eform)) < 2 ^ 32 -> post_form (query_text eform) = Some (true, form).
Proof.
  intros qs es F S B. unfold post_form, get_line. rewrite tok_end; [| |exact B].
  2: { eapply Forall_impl; [|exact (query_chars _ _ F)]. intros x X. cbn in X. unfold kept, skipped. split; apply in_set_false; cbn; lia. }
  destruct es as [|e es]; [inversion F; subst; reflexivity|]. destruct (query_text (e :: es)) as [|c t] eqn:Q; [exfalso; apply (query_nonempty _ _ F); [discriminate|exact Q]|].
  cbn [app]. rewrite <- Q in *. rewrite (form_ok (e :: es) qs); [reflexivity|exact F|exact S|exact B|]. pose proof (query_long _ _ F). lia.
Qed.
Print Assumptions C50_form_partial.

(** Whatever the client sends: paths, queries and forms without percent signs, and any options, are read to the end, with no undefined behaviour. *)
Theorem C50_any_input_partial : forall l, ~ In 37 l ->
  build_url l <> None /\ store_commands l <> None /\ post_form l <> None.
Proof. intros l N. split; [exact (build_any l N)|]. split; [exact (store_any l N)|exact (post_any l N)]. Qed.
Print Assumptions C50_any_input_partial.
Theorem C50_any_options_partial : forall l, options_loop (S (List.length l)) l <> None.
Proof. intros l. apply options_any. lia. Qed.
Print Assumptions C50_any_options_partial.

(** Cases that meet the hypotheses *)
Lemma plain_escaped t : Forall (fun c => byte c /\ ~ special c) t -> escaped t t.
Proof. induction 1 as [|c t (B & N) F IH]; constructor; assumption. Qed.
Definition request1 : list Z :=
  chars "GET /My%20App/%64ata?name=a%3Db%26c&width=&x%3D=%c3%a9 HTTP/1.1" ++ [13; 10] ++ chars "Host: localhost:8080" ++ [13; 10] ++ chars "Accept: text/html, text/plain; q=0.5" ++ [13; 10] ++ [13; 10].
Example C50_read :
  read_header [(chars "old", chars "1")] (request1 ++ chars "next") =
    Some (Read (Request Get (chars "My App.data") [(chars "name", chars "a=b&c"); (chars "width", []); (chars "x=", [195; 169])]
      [(chars "Host", chars "localhost:8080"); (chars "Accept", chars "text/html, text/plain; q=0.5")]) (chars "next")).
Proof. vm_compute. reflexivity. Qed.
Example C50_request1 :
  request1 = request_text (command_text Get) (path_text [chars "My%20App"; chars "%64ata"])
    (Some (query_text [(chars "name", chars "a%3Db%26c"); (chars "width", []); (chars "x%3D", chars "%c3%a9")])) (chars "HTTP/1.1")
    [(chars "Host", chars "localhost:8080"); (chars "Accept", chars "text/html, text/plain; q=0.5")].
Proof. vm_compute. reflexivity. Qed.
Ltac esc := repeat first [apply ENil | match goal with |- escaped (37 :: ?a :: ?b :: ?e) (?v :: ?t) => change v with (16 * hex_decode a + hex_decode b); apply EHex; [unfold hex_digit, hex_decode; cbn; lia|unfold hex_digit, hex_decode; cbn; lia|] end
  | apply EPlain; [unfold byte; lia|unfold special; cbn; lia|]].
Example C50_hypotheses :
  Forall2 escaped [chars "My%20App"; chars "%64ata"] [chars "My App"; chars "data"] /\ Forall good_part [chars "My App"; chars "data"] /\
  Forall2 good_pair [(chars "name", chars "a%3Db%26c"); (chars "width", []); (chars "x%3D", chars "%c3%a9")] [(chars "name", chars "a=b&c"); (chars "width", []); (chars "x=", [195; 169])] /\
  word (chars "HTTP/1.1") /\
  Forall (fun o => option_name (fst o) /\ option_value (snd o)) [(chars "Host", chars "localhost:8080"); (chars "Accept", chars "text/html, text/plain; q=0.5")].
Proof.
  assert (NI : forall (x : Z) l, existsb (Z.eqb x) l = false -> ~ In x l).
  { intros x l E H. assert (X : existsb (Z.eqb x) l = true) by (apply existsb_exists; exists x; split; [exact H|lia]). congruence. }
  assert (NF : forall l b, forallb (fun c => negb (existsb (Z.eqb c) b)) l = true -> forall c, In c l -> ~ In c b).
  { intros l b E c I. rewrite forallb_forall in E. specialize (E c I). apply NI. destruct (existsb (Z.eqb c) b); [discriminate|reflexivity]. }
  repeat match goal with |- _ /\ _ => split | |- Forall2 _ (_ :: _) _ => constructor | |- Forall2 _ [] _ => constructor | |- Forall _ (_ :: _) => constructor | |- Forall _ [] => constructor end;
    unfold good_part, good_pair, word, option_name, option_value, word; cbn [fst snd].
  all: repeat match goal with |- _ /\ _ => split end.
  all: try (vm_compute; esc; fail). all: try (apply NI; vm_compute; reflexivity). all: try (apply NF; vm_compute; reflexivity). all: try discriminate. all: vm_compute; try discriminate; try reflexivity.
Qed.
Example C50_encode_case : http_encode (chars "a b/c=100%") = Some (chars "a%20b%2Fc%3D100%25", true).
Proof. vm_compute. reflexivity. Qed.
Example C50_form_case : post_form (chars "name=a%3Bb&total=10") = Some (true, [(chars "name", chars "a;b"); (chars "total", chars "10")]).
Proof. vm_compute. reflexivity. Qed.
Example C50_root : read_header [] (chars "HEAD / HTTP/1.1" ++ [13; 10; 13; 10]) = Some (Read (Request Head [] [] []) []).
Proof. vm_compute. reflexivity. Qed.

(** Findings. *)
(** A command of three characters or less is dropped: x=1 is not seen. *)
Theorem C50_short_command_refuted :
  ~ (forall name value, name <> [] -> Forall (fun c => 97 <= c <= 122) name -> Forall (fun c => 48 <= c <= 57) value ->
     store_commands (name ++ 61 :: value ++ chars " HTTP/1.1") = Some (true, chars "HTTP/1.1", [(name, value)])).
Proof.
  intros H. assert (A : Forall (fun c => 97 <= c <= 122) [120]) by (apply Forall_cons; [lia|apply Forall_nil]). assert (B : Forall (fun c => 48 <= c <= 57) [49]) by (apply Forall_cons; [lia|apply Forall_nil]).
  specialize (H [120] [49] ltac:(discriminate) A B). revert H. vm_compute. discriminate.
Qed.
Print Assumptions C50_short_command_refuted.
(** A request whose query is empty fails: the version is taken for the query. *)
Theorem C50_empty_query_refuted :
  ~ (forall version, word version -> 5 <= Z.of_nat (List.length version) -> read_header [] (request_text (command_text Get) (chars "/a") (Some []) version []) <> Some Failed).
Proof.
  intros H. apply (H (chars "HTTP/1.1")); [split; [discriminate|]|vm_compute; discriminate|vm_compute; reflexivity].
  intros c I. vm_compute in I. cbn. repeat (destruct I as [<-|I]; [lia|]). contradiction.
Qed.
Print Assumptions C50_empty_query_refuted.
(** A request without a query shows the commands of the previous request of the connection. *)
Theorem C50_stale_commands_refuted :
  ~ (forall before r rest, read_header before (chars "GET /a HTTP/1.1" ++ [13; 10; 13; 10]) = Some (Read r rest) -> commands r = []).
Proof.
  intros H. specialize (H [(chars "name", chars "v")] (Request Get (chars "a") [(chars "name", chars "v")] []) []). assert (X : [(chars "name", chars "v")] = []) by (apply H; vm_compute; reflexivity). discriminate X.
Qed.
Print Assumptions C50_stale_commands_refuted.
(** A slash that is encoded inside a part of the path splits it: the address is decoded first. *)
Theorem C50_encoded_slash_refuted :
  ~ (forall p e, p <> [] -> no_nul p -> escaped e p -> build_url (47 :: e ++ [32]) = Some (32, [], p)).
Proof.
  intros H. assert (E : escaped (chars "a%2fb") (chars "a/b")) by (vm_compute; esc). assert (N : no_nul (chars "a/b")) by (unfold no_nul; vm_compute; intros I; repeat (destruct I as [I|I]; [discriminate|]); contradiction).
  specialize (H (chars "a/b") (chars "a%2fb") ltac:(discriminate) N E). revert H. vm_compute. discriminate.
Qed.
Print Assumptions C50_encoded_slash_refuted.
(** A slash at the end of the address leaves a dot at the end of the path. *)
Theorem C50_last_slash_refuted : ~ (forall p, good_part p -> build_url (47 :: p ++ [47; 32]) = build_url (47 :: p ++ [32])).
Proof.
  intros H. specialize (H (chars "a")). assert (G : good_part (chars "a")) by (unfold good_part; vm_compute; repeat split; try discriminate; intros I; repeat (destruct I as [I|I]; [discriminate|]); contradiction).
  specialize (H G). revert H. vm_compute. discriminate.
Qed.
Print Assumptions C50_last_slash_refuted.
(** HttpEncode leaves tabs and ends of lines as they are: a request made with it is cut there. *)
Theorem C50_newline_refuted :
  ~ (forall v, Forall byte v -> no_nul v -> match http_encode v with Some (e, true) =>
       exists r, read_header [] (request_text (command_text Get) (chars "/a") (Some (query_text [(chars "name", e)])) (chars "HTTP/1.1") []) = Some (Read r []) /\ commands r = [(chars "name", v)] | _ => False end).
Proof.
  intros H. assert (FB : Forall byte [97; 10; 98]) by (repeat (apply Forall_cons; [unfold byte; lia|]); apply Forall_nil). specialize (H [97; 10; 98] FB). assert (N : no_nul [97; 10; 98]) by (unfold no_nul; cbn; lia). specialize (H N). revert H.
  change (http_encode [97; 10; 98]) with (Some ([97; 10; 98], true)). cbn iota. intros (r & E & _). revert E. vm_compute. discriminate.
Qed.
Print Assumptions C50_newline_refuted.
(** The value of a form is cut at a semicolon, which HttpEncode does not encode. *)
Theorem C50_semicolon_refuted :
  ~ (forall v, Forall byte v -> no_nul v -> match http_encode v with Some (e, true) => post_form (query_text [(chars "name", e)]) = Some (true, [(chars "name", v)]) | _ => False end).
Proof.
  intros H. assert (FB : Forall byte [97; 59; 98]) by (repeat (apply Forall_cons; [unfold byte; lia|]); apply Forall_nil). specialize (H [97; 59; 98] FB). assert (N : no_nul [97; 59; 98]) by (unfold no_nul; cbn; lia). specialize (H N). revert H.
  change (http_encode [97; 59; 98]) with (Some ([97; 59; 98], true)). cbn iota. vm_compute. discriminate.
Qed.
Print Assumptions C50_semicolon_refuted.
(** A form written as browsers do has + for a space: it is left as it is. *)
Theorem C50_plus_refuted : post_form (chars "name=a+b") <> Some (true, [(chars "name", chars "a b")]) /\ post_form (chars "name=a+b") = Some (true, [(chars "name", chars "a+b")]).
Proof. split; vm_compute; [discriminate|reflexivity]. Qed.
Print Assumptions C50_plus_refuted.
(** A percent sign with one character after it: the second digit is a byte that was never set. One whose digits are not hexadecimal is accepted. *)
Theorem C50_bad_escape_refuted : ~ (forall e, decode e <> None) /\ ~ (forall a b c, decode [37; a; b] = Some [c] -> exists x y, hex_digit a x /\ hex_digit b y).
Proof.
  split; [intros H; apply (H [37; 52]); reflexivity|]. intros H. destruct (H 122 122 239) as (x & y & X & _); [vm_compute; reflexivity|]. unfold hex_digit in X. lia.
Qed.
Print Assumptions C50_bad_escape_refuted.
(** A version of less than five characters: what is after the end of its text is read. *)
Theorem C50_short_version_refuted : ~ (forall version, word version -> read_header [] (request_text (command_text Get) (chars "/a") None version []) <> None).
Proof.
  intros H. apply (H (chars "HTTP")); [split; [discriminate|]|vm_compute; reflexivity]. intros c I. vm_compute in I. cbn. repeat (destruct I as [<-|I]; [lia|]). contradiction.
Qed.
Print Assumptions C50_short_version_refuted.
