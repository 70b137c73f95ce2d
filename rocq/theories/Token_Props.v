(** C17: tokenisation is faithful. *)
From Verif Require Import Base Token_Model Token_Spec Token_Proofs StrStream_Model StrStream_Spec StrStream_Proofs.

(** One extraction, for every input stream [l], terminator and skip set. [l] is shorter than 2^32. *)
Theorem C17_get_token {S T} getc putc (R : S -> list Z -> Prop) (Q : T -> list Z -> Prop) cap term skip s t o l fuel :
  source getc R -> sink putc Q cap -> R s l -> Q t o -> (length o + length l <= cap)%nat -> Z.of_nat (length l) < 2 ^ 32 ->
  (length l < fuel)%nat ->
  exists ok c s' t' tok rest, get_token getc putc fuel term skip s t = Some (ok, c, s', t') /\
    token_of term (match skip with None => term | Some k => k end) l ok tok c rest /\ R s' rest /\ Q t' (o ++ tok).
Proof. intros. eapply get_token_ok; eauto. Qed.

(** With the default skip set, repeated extraction gives exactly the maximal runs of non-terminator characters, in
    order, each with the terminator that ends it, and then fails. *)
Theorem C17_tokens_are_runs {S T} getc putc (R : S -> list Z -> Prop) (Q : T -> list Z -> Prop) cap term s t0 o l n fuel :
  source getc R -> sink putc Q cap -> R s l -> Q t0 o -> (length o + length l <= cap)%nat -> Z.of_nat (length l) < 2 ^ 32 ->
  (length l < fuel)%nat -> (length l < n)%nat ->
  exists outs toks, all_tokens getc putc n fuel term None s t0 = Some outs /\ runs (fun c => c = 0 \/ In c term) l toks /\
    Forall2 (fun a b => Q (fst a) (o ++ fst b) /\ snd a = snd b) outs toks.
Proof.
  intros H1 H2 H3 H4 H5 H6 H7 H8. destruct (all_tokens_ok getc putc R Q cap H1 H2 term None t0 o fuel H4 n l s H8 H7 H3 H5 H6) as (outs & toks & E & K & F).
  exists outs, toks. split; [exact E|]. split; [|exact F]. apply tokens_runs. exact K.
Qed.

(** The runs of a text are determined by it. *)
Theorem C17_runs_unique (P : Z -> Prop) l a b : runs P l a -> runs P l b -> a = b.
Proof.
  assert (AP : forall s s' (x x' : Z) y y', Forall P s -> Forall P s' -> ~ P x -> ~ P x' -> s ++ x :: y = s' ++ x' :: y' -> s = s' /\ x = x' /\ y = y').
  { induction s as [|c s IH]; intros [|c' s'] x x' y y' F F' N N' E; cbn in E; injection E as -> E; subst; auto.
    - inversion F'; subst; contradiction.
    - inversion F; subst; contradiction.
    - inversion F; inversion F'; subst. destruct (IH s' x x' y y') as (-> & -> & ->); auto. }
  assert (AR : forall r r' (x x' : Z) y y', Forall (fun c => ~ P c) r -> Forall (fun c => ~ P c) r' -> P x -> P x' -> r ++ x :: y = r' ++ x' :: y' -> r = r' /\ x = x' /\ y = y').
  { induction r as [|c r IH]; intros [|c' r'] x x' y y' F F' N N' E; cbn in E; injection E as -> E; subst; auto.
    - inversion F'; subst; contradiction.
    - inversion F; subst; contradiction.
    - inversion F; inversion F'; subst. destruct (IH r' x x' y y') as (-> & -> & ->); auto. }
  assert (NN : forall s (x : Z) y, Forall P (s ++ x :: y) -> ~ P x -> False).
  { intros s x y F N. apply Forall_app in F. destruct F as [_ F]. inversion F; auto. }
  assert (NR : forall r (x : Z) y, Forall (fun c => ~ P c) (r ++ x :: y) -> P x -> False).
  { intros s x y F N. apply Forall_app in F. destruct F as [_ F]. inversion F; auto. }
  intros Ha. revert b. induction Ha as [s Fs|s r Fs [Nr Fr]|s r c l rs Fs [Nr Fr] Pc Ha IH]; intros b Hb.
  - inversion Hb as [s' Fs'|s' r' Fs' [Nr' Fr'] E|s' r' c' l' rs' Fs' [Nr' Fr'] Pc' Hb' E]; subst; auto; exfalso;
      destruct r' as [|x y]; try congruence; inversion Fr'; eapply NN; eauto.
  - inversion Hb as [s' Fs' E|s' r' Fs' [Nr' Fr'] E|s' r' c' l' rs' Fs' [Nr' Fr'] Pc' Hb' E]; subst.
    + exfalso. destruct r as [|x y]; try congruence; inversion Fr; eapply NN; eauto.
    + destruct r as [|x y]; try congruence. destruct r' as [|x' y']; try congruence. 
      destruct (AP _ _ _ _ _ _ Fs' Fs (Forall_inv Fr') (Forall_inv Fr) E) as (-> & -> & ->). reflexivity.
    + exfalso. destruct r as [|x y]; try congruence. destruct r' as [|x' y']; try congruence. cbn in E. 
      destruct (AP _ _ _ _ _ _ Fs' Fs (Forall_inv Fr') (Forall_inv Fr) E) as (-> & -> & <-). exact (NR (x :: y') c' l' Fr Pc').
  - inversion Hb as [s' Fs' E|s' r' Fs' [Nr' Fr'] E|s' r' c' l' rs' Fs' [Nr' Fr'] Pc' Hb' E]; subst.
    + exfalso. destruct r as [|x y]; try congruence; inversion Fr; eapply NN; eauto.
    + exfalso. destruct r as [|x y]; try congruence. destruct r' as [|x' y']; try congruence. cbn in E. 
      destruct (AP _ _ _ _ _ _ Fs' Fs (Forall_inv Fr') (Forall_inv Fr) E) as (-> & -> & ->). exact (NR (x :: y) c l Fr' Pc).
    + assert (X : s' = s /\ r' ++ c' :: l' = r ++ c :: l).
      { destruct r as [|x y]; try congruence. destruct r' as [|x' y']; try congruence. cbn in E. 
        destruct (AP _ _ _ _ _ _ Fs' Fs (Forall_inv Fr') (Forall_inv Fr) E) as (-> & -> & EE). rewrite <- !app_comm_cons, EE. auto. }
      destruct X as [-> X]. destruct (AR _ _ _ _ _ _ Fr' Fr Pc' Pc X) as (-> & -> & ->). f_equal. auto.
Qed.

(** With an empty skip set the tokens and their terminators, put together, are the input: nothing is lost. *)
Theorem C17_nothing_lost {S T} getc putc (R : S -> list Z -> Prop) (Q : T -> list Z -> Prop) cap term s t0 o l n fuel :
  source getc R -> sink putc Q cap -> R s l -> Q t0 o -> (length o + length l <= cap)%nat -> Z.of_nat (length l) < 2 ^ 32 ->
  (length l < fuel)%nat -> (length l < n)%nat -> (forall c, In c l -> c <> 0) ->
  exists outs toks, all_tokens getc putc n fuel term (Some []) s t0 = Some outs /\
    Forall2 (fun a b => Q (fst a) (o ++ fst b) /\ snd a = snd b) outs toks /\
    (flat_map (fun tc => fst tc ++ [snd tc]) toks = l \/
     exists a b, l = a ++ [b] /\ ~ In b term /\ flat_map (fun tc => fst tc ++ [snd tc]) toks = l ++ [0]).
Proof.
  intros H1 H2 H3 H4 H5 H6 H7 H8 H9. destruct (all_tokens_ok getc putc R Q cap H1 H2 term (Some []) t0 o fuel H4 n l s H8 H7 H3 H5 H6) as (outs & toks & E & K & F).
  exists outs, toks. split; [exact E|]. split; [exact F|]. apply tokens_flat with (term := term); auto.
Qed.

(** SkipTokens skips exactly that many runs with their terminators. *)
Theorem C17_skip_tokens {S} getc (R : S -> list Z -> Prop) term s l fuel (count : nat) :
  source getc R -> R s l -> Z.of_nat (length l) < 2 ^ 32 -> (length l < fuel)%nat ->
  exists ok s' rest, skip_tokens getc fuel (Z.of_nat count) term s = Some (ok, s') /\
    skipped (fun c => c = 0 \/ In c term) count l ok rest /\ R s' rest.
Proof. intros HS HR Hw Hf. apply (skip_loop_ok getc R HS term l fuel s count []); auto. congruence. Qed.

(** Extraction into an array of two bytes or more never writes outside it. *)
Theorem C17_get_token_array {S} getc (R : S -> list Z -> Prop) term skip s l fuel out :
  source getc R -> R s l -> (length l < fuel)%nat -> (2 <= length out)%nat -> Z.of_nat (length out) < 2 ^ 32 ->
  exists ok c s' tok out' rest, get_token_buf getc fuel term skip s out = Some (ok, c, s', tok ++ 0 :: out') /\
    token_buf term (match skip with None => term | Some k => k end) l (length out) ok tok c rest /\ R s' rest /\
    length (tok ++ 0 :: out') = length out.
Proof.
  intros HS HR Hf H2 Hw. unfold get_token_buf. rewrite uwrap_id by lia.
  destruct (gtb_loop_ok getc R HS term (match skip with None => term | Some k => k end) (length out) H2 Hw l fuel s [] [] out Hf HR) as (ok & c & s' & tok & out' & rest & E & K & R' & L);
    try (cbn [length]; lia).
  - apply nostop_nil.
  - constructor.
  - cbn [length app] in *. exists ok, c, s', tok, out', rest. repeat split; auto. rewrite app_length. cbn [length]. lia.
Qed.
(** Into an array of one byte it writes a second one. *)
Definition list_getc (l : list Z) : option (option Z * list Z) := match l with [] => Some (None, []) | c :: r => Some (Some c, r) end.
Theorem C17_one_byte_array_refuted :
  ~ (forall term skip l fuel out, (length l < fuel)%nat -> (1 <= length out)%nat -> get_token_buf list_getc fuel term skip l out <> None).
Proof. intros H. apply (H [44] None [97; 44] 5%nat [7]); vm_compute; auto; lia. Qed.

Lemma skipn_next {A} n (l : list A) c r : skipn n l = c :: r -> skipn (1 + n) l = r.
Proof. revert l. induction n as [|n IH]; intros [|a l] E; cbn in *; try discriminate; [congruence|]. apply IH. exact E. Qed.
(** A StreamString is such an input and such an output. *)
Lemma string_source : source io_getc (fun b l => exists f, rep b f false /\ f_rest f = l).
Proof.
  assert (G : forall b f, rep b f false -> exists b', sstep b SGetC = Some (fst (fstep f SGetC), b') /\ rep b' (snd (fstep f SGetC)) false).
  { intros b f R0. pose proof (rep_numbers b f false R0) as (_ & _ & UL). 
    cbn [sstep fstep]. unfold io_getc. rewrite UL.
    unfold f_rest. pose proof (r_cur b f _ R0) as Cu. pose proof R0 as R1. destruct R0 as [Sz Mx _ Us Le Fi [Rr Ce] Pt]. unfold flen in *.
    destruct (skipn (Z.to_nat (cur f)) (bytes f)) as [|c r] eqn:ES.
    - pose proof (skipn_length (Z.to_nat (cur f)) (bytes f)) as SL. rewrite ES in SL. cbn [length] in SL.
      replace (Z.of_nat (length (bytes f)) - cur f <=? 0) with true by lia. exists b. auto.
    - pose proof (skipn_length (Z.to_nat (cur f)) (bytes f)) as SL. rewrite ES in SL. cbn [length] in SL.
      replace (Z.of_nat (length (bytes f)) - cur f <=? 0) with false by lia.
      unfold peek. rewrite (Pt eq_refl), Ce, app_length, map_length. replace ((0 <=? cur f) && _) with true by lia.
      rewrite skipn_app, map_length, skipn_map, ES. cbn [map app]. change (Z.to_nat 1) with 1%nat. cbn [firstn all_some].
      eexists. split; [reflexivity|]. cbn [snd]. split; cbn [cells maxu StrStream_Model.left fill ptr cur bytes bufsize]; unfold flen, bufsize in *; cbn [bytes cells]; try lia; [rewrite <- Ce; lia|exists Rr; reflexivity]. }
  split.
  - intros b (f & R & E). destruct (G b f R) as (b' & E1 & R'). cbn [sstep fstep] in *. rewrite E in *. cbn [fst snd] in *.
    destruct (io_getc b) as [[[c|] b2]|]; inversion E1; subst. exists b'. split; auto. exists f. auto.
  - intros b c l (f & R & E). destruct (G b f R) as (b' & E1 & R'). cbn [sstep fstep] in *. rewrite E in *. cbn [fst snd] in *.
    destruct (io_getc b) as [[[c'|] b2]|]; inversion E1; subst. exists b'. split; auto. eexists. split; [exact R'|].
    pose proof (r_cur b f _ R). unfold f_rest in *. cbn [bytes cur]. replace (Z.to_nat (cur f + 1)) with (1 + Z.to_nat (cur f))%nat by lia.
    exact (skipn_next _ _ c l E).
Qed.
Lemma string_sink cap : Z.of_nat cap < 2 ^ 31 -> sink ss_putc (fun b o => rep b (File o (Z.of_nat (length o))) false) cap.
Proof.
  intros Hc b o c R L. destruct (putc_ok b _ c R) as (b' & E & R'). { unfold flen. cbn [bytes]. lia. }
  exists b'. split; [exact E|]. unfold f_write in R'. cbn [bytes cur] in R'. rewrite Nat2Z.id, firstn_all, skipn_all2 in R' by lia.
  rewrite app_nil_r in R'. rewrite app_length, Nat2Z.inj_add. exact R'.
Qed.

Lemma runs_length P l toks : runs P l toks -> Forall (fun y => (length (fst y) <= length l)%nat) toks.
Proof.
  induction 1 as [| |s r c l rs Fs Fr Pc H IH]; repeat constructor; cbn [fst]; rewrite ?app_length; cbn [length]; try lia.
  eapply Forall_impl; [|exact IH]. cbn beta. intros. lia.
Qed.

(** Hence for StreamStrings: write any text, rewind, and tokenise it into fresh strings. *)
Theorem C17_stream_string (text term : list Z) n : Z.of_nat (length text) < 2 ^ 31 - 1 -> (length text < n)%nat ->
  exists b0 a b outs toks, s_new = Some b0 /\ srun b0 [SWrite text; SSeek 0] = Some (a, b) /\
    all_tokens io_getc ss_putc n n term None b b0 = Some outs /\
    runs (fun c => c = 0 \/ In c term) text toks /\
    Forall2 (fun x y => (exists t, s_buffer (fst x) = Some (fst y ++ [0], t)) /\ snd x = snd y) outs toks.
Proof.
  intros Hl Hn. destruct new_ok as (b0 & E0 & R0). exists b0.
  destruct (step_ok b0 _ false (SWrite text) R0 I ltac:(reflexivity)) as (b1 & E1 & R1 & _). { unfold flen. cbn. lia. }
  cbn [fstep fst snd stale_after] in *. unfold f_write in R1. cbn [bytes cur] in R1. cbn [Z.to_nat firstn app] in R1. rewrite skipn_nil, app_nil_r in R1.
  destruct (step_ok b1 _ false (SSeek 0) R1) as (b & E2 & R2 & _). { cbn. lia. } { cbn. auto. } { unfold flen. cbn [bytes written]. lia. }
  cbn [fstep] in *. unfold flen in *. cbn [bytes] in *. replace (0 <=? Z.of_nat (length text)) with true in * by lia. cbn [fst snd stale_after] in *.
  destruct (C17_tokens_are_runs io_getc ss_putc _ _ (length text) term b b0 [] text n n string_source (string_sink (length text) ltac:(lia)))
    as (outs & toks & E3 & K & F); auto; try lia.
  { exists (File text 0). split; auto. }
  eexists _, b, outs, toks.
  split; [exact E0|]. split; [cbn [srun]; rewrite E1, E2; reflexivity|]. split; [exact E3|]. split; [exact K|].
  assert (LY : Forall (fun y => Z.of_nat (length (fst y)) < 2 ^ 31) toks).
  { eapply Forall_impl; [|exact (runs_length _ _ _ K)]. cbn beta. intros. lia. }
  clear - F LY. induction F as [|[x1 x2] [y1 y2] outs toks [Rx Ex] F IH]; constructor; inversion LY as [|? ? LY1]; subst; auto.
  cbn [fst snd app] in *. split; auto.
  destruct (step_ok x1 _ false SBuffer Rx I) as (b' & E & _ & _).
  { cbn. congruence. } { unfold flen. cbn [bytes written]. lia. }
  cbn [sstep fstep fst snd bytes] in E. destruct (s_buffer x1) as [[d t]|]; inversion E; subst. eauto.
Qed.

(** Non-vacuity: ",,ab, c" with "," and " " gives "ab" "c". *)
Definition list_putc (l : list Z) (c : Z) : option (bool * list Z) := Some (true, l ++ [c]).
Example C17_nonvacuous_streams : source list_getc (fun s l => s = l) /\ forall cap, sink list_putc (fun t o => t = o) cap.
Proof.
  split; [split|].
  - intros s ->. eexists. split; reflexivity.
  - intros s c l ->. eexists. split; reflexivity.
  - intros cap t o c -> _. eexists. split; reflexivity.
Qed.
Example C17_nonvacuous :
  all_tokens list_getc list_putc 20 20 [44; 32] None [44; 44; 97; 98; 44; 32; 99] [] = Some [([97; 98], 44); ([99], 0)] /\
  all_tokens list_getc list_putc 20 20 [44] (Some []) [44; 44; 97; 98; 44; 32; 99] [] = Some [([], 44); ([], 44); ([97; 98], 44); ([32; 99], 0)] /\
  get_token_buf list_getc 20 [44] None [97; 98; 99; 100] [7; 7; 7] = Some (true, 98, [99; 100], [97; 98; 0]) /\
  skip_tokens list_getc 20 2 [44] [44; 97; 44; 98; 44; 99] = Some (true, [99]) /\
  skip_tokens list_getc 20 2 [44] [44; 97; 44; 98] = Some (false, []).
Proof. vm_compute. auto 10. Qed.

Print Assumptions C17_get_token.
Print Assumptions C17_tokens_are_runs.
Print Assumptions C17_runs_unique.
Print Assumptions C17_nothing_lost.
Print Assumptions C17_skip_tokens.
Print Assumptions C17_get_token_array.
Print Assumptions C17_one_byte_array_refuted.
Print Assumptions C17_stream_string.
