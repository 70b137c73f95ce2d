From Verif Require Import Base IntText_Spec Fmt_Model Fmt_Spec StrStream_Model BufStream_Model BufStream_Proofs Chunk_Model Chunk_Spec.
From Verif Require Fmt_Props.
From Verif Require IntText_Proofs.

(** ** Chunks *)
Inductive chunks : list Z -> list Z -> Prop :=
| CNil : chunks [] []
| CCons h d w x : d <> [] -> canonical 16 h (zl d) -> chunks w x -> chunks (h ++ [13; 10] ++ d ++ [13; 10] ++ w) (d ++ x).
Lemma chunks_app w1 d1 w2 d2 : chunks w1 d1 -> chunks w2 d2 -> chunks (w1 ++ w2) (d1 ++ d2).
Proof.
  intros H1 H2. induction H1 as [|h d w x N C _ IH]; [exact H2|]. rewrite <- !app_assoc. cbn [app]. rewrite <- ?app_assoc. cbn [app]. 
  change (h ++ 13 :: 10 :: d ++ 13 :: 10 :: w ++ w2) with (h ++ [13; 10] ++ d ++ [13; 10] ++ (w ++ w2)). apply CCons; auto.
Qed.
Lemma canon1 : canonical 16 [49] 1.
Proof. split; [split; [repeat constructor; cbn; lia|reflexivity]|]. split; discriminate. Qed.
Lemma chunks_any d : exists w, chunks w d.
Proof.
  induction d as [|c d (w & IH)]; [exists []; constructor|]. eexists. change (c :: d) with ([c] ++ d). apply CCons; [discriminate|exact canon1|exact IH].
Qed.
Lemma hexdigit_ok c : is_digit 16 c -> hexdigit c = Some (digit_val c).
Proof.
  unfold is_digit, digit_val, hexdigit. intros H. destruct ((48 <=? c) && (c <=? 57)) eqn:A; [reflexivity|].
  destruct ((65 <=? c) && (c <=? 90)) eqn:B.
  - replace ((65 <=? c) && (c <=? 70)) with true by lia. reflexivity.
  - replace ((65 <=? c) && (c <=? 70)) with false by lia. destruct ((97 <=? c) && (c <=? 122)) eqn:C; [|lia].
    replace ((97 <=? c) && (c <=? 102)) with true by lia. reflexivity.
Qed.
Lemma chunk_size_ok h r : Forall (is_digit 16) h -> forall acc, chunk_size acc (h ++ 13 :: 10 :: r) = Some (fold_left (fun acc c => acc * 16 + digit_val c) h acc, r).
Proof.
  induction 1 as [|c h C _ IH]; intros acc; [reflexivity|]. cbn [app chunk_size fold_left]. rewrite hexdigit_ok by exact C. apply IH.
Qed.
Lemma chunks_decode w d rest : chunks w d -> forall fuel, (length w < fuel)%nat -> decode fuel (w ++ last_chunk ++ rest) = Some (d, rest).
Proof.
  induction 1 as [|h d w x N C _ IH]; intros fuel F.
  - destruct fuel as [|fuel]; [cbn in F; lia|]. reflexivity.
  - destruct fuel as [|fuel]; [lia|]. rewrite !app_length in F. cbn [length] in F.
    destruct C as ((DG & VA) & NE & _). rewrite <- !app_assoc. cbn [app]. rewrite <- ?app_assoc. cbn [app].
    destruct h as [|c h]; [contradiction|]. pose proof (Forall_inv DG) as Dc. cbn [app decode]. rewrite hexdigit_ok by exact Dc.
    change (c :: h ++ ?t) with ((c :: h) ++ t). rewrite chunk_size_ok by exact DG. change (fold_left _ (c :: h) 0) with (value 16 (c :: h)). rewrite VA.
    assert (0 < zl d) by (destruct d; [contradiction|cbn [length]; lia]).
    replace (zl d =? 0) with false by lia. rewrite app_length. replace (zl d <=? _) with true by lia.
    rewrite Nat2Z.id, skipn_app, skipn_all, Nat.sub_diag. cbn [app skipn crlf Z.eqb Pos.eqb andb].
    rewrite IH by lia. rewrite firstn_app, firstn_all, Nat.sub_diag. cbn [firstn]. rewrite app_nil_r. reflexivity.
Qed.
Lemma chunks_body w d rest : chunks w d -> body (w ++ last_chunk ++ rest) d rest.
Proof. intros H. apply chunks_decode; [exact H|]. rewrite app_length. cbn. lia. Qed.

(** ** The header of a chunk *)
Lemma header n : 0 <= n < 2 ^ 32 -> exists h, printf 0 [37; 120; 13; 10] [AScalar (SInt (ITy 32 false) n)] = Some (h ++ [13; 10], true) /\ canonical 16 h n.
Proof.
  intros B. pose (c := Conversion [] [] None L_x). 
  pose proof (Fmt_Props.C46_printf_partial 0 [Convert c; Literal 13; Literal 10] [AScalar (SInt (ITy 32 false) n)]) as H.
  assert (G : Forall good_piece [Convert c; Literal 13; Literal 10]).
  { repeat constructor; cbn; try lia. }
  assert (Fi : fit [Convert c; Literal 13; Literal 10] [AScalar (SInt (ITy 32 false) n)]).
  { cbn [fit arg_fits]. split; [|exact Logic.I]. change (integer_fits c (Power 4 120) (ITy 32 false) n). split; [unfold std_ty; cbn; auto|]. split; [|discriminate].
    unfold in_ty, imin, imax. cbn. lia. }
  specialize (H G Fi). change (format_text _) with [37; 120; 13; 10] in H.
  destruct (printf 0 [37; 120; 13; 10] [AScalar (SInt (ITy 32 false) n)]) as [(out, r)|]; [|contradiction]. destruct H as (-> & Y).
  inversion Y as [| |c0 l0 a0 args0 o out0 Sh Y2|]; subst. inversion Y2 as [|c1 l1 args1 out1 Y3| |]; subst. inversion Y3 as [|c2 l2 args2 out2 Y4| |]; subst. inversion Y4; subst.
  change (integer_shown c (Power 4 120) (ITy 32 false) n o) in Sh. destruct Sh as (d & Ca & Fd). change (ibits (ITy 32 false)) with 32 in Ca. change (2 ^ 4) with 16 in Ca.
  rewrite uwrap_id in Ca by lia.
  change (width_of c) with 0 in Fd. change (zeros c) with false in Fd. change (full c) with false in Fd. change (to_left c) with false in Fd. unfold field in Fd. cbn [Z.eqb app] in Fd. 
  assert (L8 : (length d <= 8)%nat). { apply (IntText_Proofs.canonical_length_le 16 d n 8); [lia|exact Ca| |lia]. change (16 ^ Z.of_nat 8) with (2 ^ 32). lia. }
  replace (Z.to_nat (Z.max (zl d) (Z.min 0 (1000 - 0)) - zl d)) with 0%nat in Fd by lia. cbn [repeat app] in Fd.
  replace (zl d <=? 1000) with true in Fd by lia. subst o. exists d. split; [reflexivity|exact Ca].
Qed.

(** ** The socket that accepts all the bytes or none *)
Definition whole (l : list Z) : Prop := Forall (fun k => k <= 0 \/ 2 ^ 32 <= k) l.
Lemma whole_tl l : whole l -> whole (tl l).
Proof. intros H. destruct l; [exact H|]. apply (Forall_inv_tail H). Qed.
Lemma send_ok n d : whole (sends n) -> 0 < zl d < 2 ^ 32 ->
  os_send n d = (true, Net (tl (sends n)) (wire n ++ d)) \/ os_send n d = (false, Net (tl (sends n)) (wire n)).
Proof.
  intros W L. unfold os_send. destruct (sends n) as [|k r]; cbn [hd tl].
  - left. rewrite Z.min_id. replace (zl d >? 0) with true by lia. rewrite Nat2Z.id, firstn_all. reflexivity.
  - pose proof (Forall_inv W) as K. cbn in K. destruct (Z.min k (zl d) >? 0) eqn:E; [left|right; reflexivity].
    replace (Z.to_nat (Z.min k (zl d))) with (length d) by lia. rewrite firstn_all. reflexivity.
Qed.

(** ** What has been sent: the data as they are, or in chunks *)
Definition frames (m : bool) (w d : list Z) : Prop := if m then chunks w d else w = d.
Lemma frames_nil m : frames m [] [].
Proof. destruct m; [constructor|reflexivity]. Qed.
Lemma frames_app m w1 d1 w2 d2 : frames m w1 d1 -> frames m w2 d2 -> frames m (w1 ++ w2) (d1 ++ d2).
Proof. destruct m; cbn; [apply chunks_app|intros; subst; reflexivity]. Qed.
Lemma frames_any m d : exists w, frames m w d.
Proof. destruct m; [apply chunks_any|exists d; reflexivity]. Qed.
Definition inv (s : ws) (u : list Z) : Prop := brep (wbuf s) u (zl u) /\ whole (sends (sock s)).
(** [s'] is [s] after more has been sent *)
Definition same (s s' : ws) : Prop := chunk s' = chunk s /\ calib s' = calib s.
(** A call that adds [d] to what is written: if it returned true, a part has been sent and the rest is in the buffer;
    if not, what has been sent can be continued. *)
Definition adds (s : ws) (u d : list Z) (r : bool) (s' : ws) (u' : list Z) : Prop :=
  same s s' /\ inv s' u' /\ exists w, wire (sock s') = wire (sock s) ++ w /\
  if r then exists x, frames (chunk s) w x /\ u ++ d = x ++ u' else exists c, frames (chunk s) (w ++ c) (u ++ d).
Lemma adds_trans s u d1 s1 u1 d2 r s2 u2 : adds s u d1 true s1 u1 -> adds s1 u1 d2 r s2 u2 -> adds s u (d1 ++ d2) r s2 u2.
Proof.
  intros ((A1 & A2) & I1 & w1 & W1 & x1 & F1 & E1) ((B1 & B2) & I2 & w2 & W2 & X2). split; [split; congruence|]. split; [exact I2|].
  exists (w1 ++ w2). split; [rewrite W2, W1, app_assoc; reflexivity|]. rewrite A1 in X2. rewrite app_assoc, E1. destruct r.
  - destruct X2 as (x2 & F2 & E2). exists (x1 ++ x2). split; [apply frames_app; assumption|]. rewrite <- !app_assoc, E2. reflexivity.
  - destruct X2 as (c & F2). exists c. rewrite <- !app_assoc. apply frames_app; assumption.
Qed.
Lemma adds_more s u d1 d2 s1 u1 : adds s u d1 false s1 u1 -> adds s u (d1 ++ d2) false s1 u1.
Proof.
  intros (A & I1 & w & W & c & F). split; [exact A|]. split; [exact I1|]. exists w. split; [exact W|]. destruct (frames_any (chunk s) d2) as (c2 & F2).
  exists (c ++ c2). rewrite !app_assoc. rewrite app_assoc in F2 || idtac. apply frames_app; [|exact F2]. exact F.
Qed.
Lemma adds_put s u d b : inv s u -> brep b (u ++ d) (zl (u ++ d)) -> adds s u d true (WS b (chunk s) (calib s) (sock s)) (u ++ d).
Proof.
  intros (R & W) B. split; [split; reflexivity|]. split; [split; [exact B|exact W]|]. exists []. rewrite app_nil_r. split; [reflexivity|]. exists []. split; [apply frames_nil|reflexivity].
Qed.

Lemma flush_ok s u : inv s u -> exists r s', flush s = Some (r, s') /\ maxu (wbuf s') = maxu (wbuf s) /\ same s s' /\
  exists u', inv s' u' /\ exists w, wire (sock s') = wire (sock s) ++ w /\
  if r then frames (chunk s) w u /\ u' = [] else exists c, frames (chunk s) (w ++ c) u.
Proof.
  intros (R & W). destruct (bnum _ _ _ R) as (_ & US & _). pose proof (b_max _ _ _ R) as MX. pose proof (b_used _ _ _ R) as UB. unfold flush. rewrite US.
  destruct (Z.eq_dec (zl u) 0) as [Z0|Z0].
  { assert (u = []) by (destruct u; [reflexivity|cbn [length] in Z0; lia]). subst u. clear Z0.
    assert (E : (if chunk s then if zl (@nil Z) >? 0 then match printf 0 [37; 120; 13; 10] [AScalar (SInt (ITy 32 false) (zl (@nil Z)))] with
                  | None => None
                  | Some (t, ok) => if ok then let (ok, n) := os_send (sock s) t in Some (ok, WS (wbuf s) (chunk s) (calib s) n) else Some (false, s)
                  end else Some (true, s) else Some (true, s)) = Some (true, s)) by (destruct (chunk s); reflexivity).
    rewrite E. unfold plain_flush. rewrite US. change (zl (@nil Z) =? 0) with true. cbn iota. change (zl (@nil Z) >? 0) with false. rewrite andb_false_r.
    exists true, s. split; [reflexivity|]. split; [reflexivity|]. split; [split; reflexivity|]. exists []. split; [split; assumption|]. exists []. rewrite app_nil_r.
    split; [reflexivity|]. split; [apply frames_nil|reflexivity]. }
  replace (zl u >? 0) with true by lia.
  pose proof (bpeek _ _ _ R) as PK. pose proof (bempty _ _ _ R) as BE.
  destruct (chunk s) eqn:CH.
  - destruct (header (zl u)) as (h & -> & CA); [lia|].
    assert (L8 : (length h <= 8)%nat). { apply (IntText_Proofs.canonical_length_le 16 h (zl u) 8); [lia|exact CA| |lia]. change (16 ^ Z.of_nat 8) with (2 ^ 32). lia. }
    assert (NU : u <> []) by (intros ->; apply Z0; reflexivity).
    assert (FR : chunks (h ++ [13; 10] ++ u ++ [13; 10]) u).
    { pose proof (CCons h u [] [] NU CA CNil) as X. rewrite !app_nil_r in X. exact X. }
    assert (B1 : 0 < zl (h ++ [13; 10]) < 2 ^ 32) by (rewrite app_length; cbn [length]; lia).
    destruct (send_ok (sock s) (h ++ [13; 10]) W B1) as [E|E]; rewrite E; cbn iota.
    2: { eexists _, _. split; [reflexivity|]. split; [reflexivity|]. split; [split; [symmetry; exact CH|reflexivity]|]. exists u. split; [split; [exact R|apply whole_tl, W]|].
         exists []. cbn [sock wire]. rewrite app_nil_r. split; [reflexivity|]. eexists. exact FR. }
    unfold plain_flush. cbn [wbuf sock chunk calib]. rewrite US. replace (zl u =? 0) with false by lia. rewrite PK.
    assert (B2 : 0 < zl u < 2 ^ 32) by lia.
    match goal with |- context [os_send ?n u] => destruct (send_ok n u (whole_tl _ W) B2) as [E2|E2]; rewrite E2; cbn iota; cbn [sends wire tl] end.
    2: { eexists _, _. split; [reflexivity|]. split; [reflexivity|]. split; [split; [symmetry; exact CH|reflexivity]|]. exists u. split; [split; [exact R|apply whole_tl, whole_tl, W]|].
         exists (h ++ [13; 10]). cbn [sock wire]. split; [reflexivity|]. eexists. cbn [frames]. rewrite <- app_assoc. exact FR. }
    cbn [chunk sock wbuf calib andb]. assert (B3 : 0 < zl [13; 10] < 2 ^ 32) by (cbn; lia).
    match goal with |- context [os_send ?n [13; 10]] => destruct (send_ok n [13; 10] (whole_tl _ (whole_tl _ W)) B3) as [E3|E3]; rewrite E3; cbn iota; cbn [sends wire tl] end.
    + eexists _, _. split; [reflexivity|]. split; [reflexivity|]. split; [split; [symmetry; exact CH|reflexivity]|]. exists []. split; [split; [exact BE|apply whole_tl, whole_tl, whole_tl, W]|].
      exists (h ++ [13; 10] ++ u ++ [13; 10]). cbn [sock wire]. rewrite <- !app_assoc. cbn [app]. split; [reflexivity|]. split; [exact FR|reflexivity].
    + eexists _, _. split; [reflexivity|]. split; [reflexivity|]. split; [split; [symmetry; exact CH|reflexivity]|]. exists []. split; [split; [exact BE|apply whole_tl, whole_tl, whole_tl, W]|].
      exists (h ++ [13; 10] ++ u). cbn [sock wire]. rewrite <- !app_assoc. cbn [app]. split; [reflexivity|]. eexists. cbn [frames]. rewrite <- !app_assoc. cbn [app]. rewrite <- ?app_assoc. exact FR.
  - unfold plain_flush. rewrite US. replace (zl u =? 0) with false by lia. rewrite PK. assert (B2 : 0 < zl u < 2 ^ 32) by lia.
    destruct (send_ok (sock s) u W B2) as [E|E]; rewrite E; cbn iota; cbn [chunk andb]; rewrite ?CH; cbn [andb].
    + eexists _, _. split; [reflexivity|]. split; [reflexivity|]. split; [split; [symmetry; exact CH|reflexivity]|]. exists []. split; [split; [exact BE|apply whole_tl, W]|].
      exists u. split; [reflexivity|]. split; reflexivity.
    + eexists _, _. split; [reflexivity|]. split; [reflexivity|]. split; [split; [symmetry; exact CH|reflexivity]|]. exists u. split; [split; [exact R|apply whole_tl, W]|].
      exists []. cbn [sock wire]. rewrite app_nil_r. split; [reflexivity|]. exists u. reflexivity.
Qed.

Lemma flush_adds s u : inv s u -> exists r s' u', flush s = Some (r, s') /\ maxu (wbuf s') = maxu (wbuf s) /\ adds s u [] r s' u' /\ (r = true -> u' = []).
Proof.
  intros H. destruct (flush_ok s u H) as (r & s' & E & M & Sm & u' & I' & w & W & X). exists r, s', u'. split; [exact E|]. split; [exact M|].
  split.
  - split; [exact Sm|]. split; [exact I'|]. exists w. split; [exact W|]. rewrite app_nil_r. destruct r; [|exact X]. destruct X as (F & ->). exists u. rewrite app_nil_r. auto.
  - intros ->. apply X.
Qed.
Lemma room b u : brep b u (zl u) -> left b = maxu b - zl u /\ 8 <= maxu b < 2 ^ 32 /\ zl u <= maxu b.
Proof. intros []. auto. Qed.
Lemma bputc b u c : brep b u (zl u) -> zl u < maxu b -> exists m, poke (cells b) (ptr b) [c] = Some m /\
  brep (IOB m (maxu b) (left b - 1) (if fill b >? left b - 1 then left b - 1 else fill b) (ptr b + 1)) (u ++ [c]) (zl (u ++ [c])).
Proof.
  intros R L. destruct (room b u R) as (Le & _ & _). destruct (bwrite b u [c] R) as (b' & E & B & M). revert E B.
  replace (Z.min (zl [c]) (maxu b - zl u)) with 1 by (cbn [length]; lia). unfold io_write. replace (zl [c] >? left b) with false by (cbn [length]; lia). change (zl [c]) with 1. cbn iota. change (1 >? 0) with true. cbn iota.
  change (firstn (Z.to_nat 1) [c]) with [c].
  destruct (poke (cells b) (ptr b) [c]) as [m|]; [|discriminate]. intros E B. exists m. split; [reflexivity|]. injection E as <-. rewrite app_length, Nat2Z.inj_add. exact B.
Qed.
Lemma putc_ok s u c : inv s u -> exists r s' u', putc s c = Some (r, s') /\ adds s u [c] r s' u'.
Proof.
  intros I. pose proof I as (R & W). destruct (room _ _ R) as (Le & MX & UB). unfold putc.
  destruct (left (wbuf s) <=? 0) eqn:E.
  - destruct (flush_adds s u I) as (r & s1 & u1 & -> & M & A & C). destruct r.
    + specialize (C eq_refl). subst u1. pose proof A as (_ & (R1 & W1) & _). destruct (room _ _ R1) as (Le1 & MX1 & _). cbn [length Z.of_nat] in Le1.
      replace (left (wbuf s1) =? 0) with false by lia. cbn [andb negb]. destruct (bputc (wbuf s1) [] c R1) as (m & -> & B); [cbn; lia|].
      eexists _, _, _. split; [reflexivity|]. change [c] with ([] ++ [c]). eapply adds_trans; [exact A|]. apply (adds_put s1 [] [c]); [split; assumption|exact B].
    + cbn [andb]. eexists _, _, _. split; [reflexivity|]. change [c] with ([] ++ [c]). apply adds_more. exact A.
  - destruct (bputc (wbuf s) u c R) as (m & -> & B); [lia|]. eexists _, _, _. split; [reflexivity|]. apply (adds_put s u [c]); assumption.
Qed.
Lemma adds_refl s u : inv s u -> adds s u [] true s u.
Proof. intros I. split; [split; reflexivity|]. split; [exact I|]. exists []. rewrite app_nil_r. split; [reflexivity|]. exists []. split; [apply frames_nil|]. rewrite app_nil_r. reflexivity. Qed.
Lemma zl_nil (d : list Z) : zl d <= 0 -> d = [].
Proof. destruct d; [reflexivity|cbn [length]; lia]. Qed.
(** what fits into the buffer is put there *)
Lemma put_part s u d : inv s u -> let k := Z.min (zl d) (maxu (wbuf s) - zl u) in exists b, io_write (wbuf s) d = Some (k, b) /\ 0 <= k /\ maxu b = maxu (wbuf s) /\
  adds s u (firstn (Z.to_nat k) d) true (WS b (chunk s) (calib s) (sock s)) (u ++ firstn (Z.to_nat k) d).
Proof.
  intros I k. destruct I as (R & W). destruct (room _ _ R) as (Le & MX & UB). destruct (bwrite (wbuf s) u d R) as (b & E & B & M). fold k in E, B. exists b. split; [exact E|]. split; [unfold k; lia|].
  split; [exact M|]. apply adds_put; [split; assumption|]. replace (zl (u ++ firstn (Z.to_nat k) d)) with (zl u + k); [exact B|]. rewrite app_length, firstn_length. unfold k. lia.
Qed.
Lemma write_all_ok : forall fuel s u d, inv s u -> (length d < fuel)%nat ->
  exists r s' u', write_all fuel s d = Some (r, s') /\ adds s u d r s' u'.
Proof.
  induction fuel as [|fuel IH]; intros s u d I F; [lia|]. cbn [write_all]. destruct (zl d >? 0) eqn:E.
  2: { assert (d = []) by (apply zl_nil; lia). subst d. eexists _, _, _. split; [reflexivity|]. apply adds_refl, I. }
  pose proof I as (R & W). destruct (room _ _ R) as (Le & MX & UB). 
  destruct (left (wbuf s) =? 0) eqn:E0.
  - destruct (flush_adds s u I) as (r & s1 & u1 & -> & M & A & C). destruct r; cbn [andb].
    2: { eexists _, _, _. split; [reflexivity|]. change d with ([] ++ d). apply adds_more. exact A. }
    specialize (C eq_refl). subst u1. pose proof A as (_ & (R1 & W1) & _). destruct (room _ _ R1) as (Le1 & MX1 & _). cbn [length Z.of_nat] in Le1.
    replace (left (wbuf s1) =? 0) with false by lia. cbn [negb]. destruct (put_part s1 [] d (conj R1 W1)) as (b & EW & K0 & MB & A2). rewrite EW. cbn [length Z.of_nat] in *.
    set (k := Z.min (zl d) (maxu (wbuf s1) - 0)) in *. assert (KE : k = Z.min (zl d) (maxu (wbuf s1) - 0)) by reflexivity. clearbody k. destruct (IH (WS b (chunk s1) (calib s1) (sock s1)) ([] ++ firstn (Z.to_nat k) d) (skipn (Z.to_nat k) d)) as (r & s' & u' & E3 & A3).
    + apply A2.
    + rewrite skipn_length. lia.
    + rewrite E3. eexists _, _, _. split; [reflexivity|]. change d with ([] ++ d) at 1. eapply adds_trans; [exact A|]. rewrite <- (firstn_skipn (Z.to_nat k) d). eapply adds_trans; eassumption.
  - destruct (put_part s u d I) as (b & EW & K0 & MB & A2). rewrite EW. set (k := Z.min (zl d) (maxu (wbuf s) - zl u)) in *. assert (KE : k = Z.min (zl d) (maxu (wbuf s) - zl u)) by reflexivity. clearbody k.
    destruct (IH (WS b (chunk s) (calib s) (sock s)) (u ++ firstn (Z.to_nat k) d) (skipn (Z.to_nat k) d)) as (r & s' & u' & E3 & A3).
    + apply A2.
    + rewrite skipn_length. lia.
    + rewrite E3. eexists _, _, _. split; [reflexivity|]. rewrite <- (firstn_skipn (Z.to_nat k) d). eapply adds_trans; eassumption.
Qed.
Lemma write_loop_ok : forall fuel s u d n, inv s u -> (length d + (if (zl u <? maxu (wbuf s))%Z then 0 else 1) < fuel)%nat ->
  exists r k s' u', write_loop fuel s d n = Some (r, k, s') /\ adds s u d r s' u' /\ (r = true -> k = n + zl d).
Proof.
  induction fuel as [|fuel IH]; intros s u d n I F; [lia|]. cbn [write_loop]. destruct (zl d >? 0) eqn:E.
  2: { assert (d = []) by (apply zl_nil; lia). subst d. eexists _, _, _, _. split; [reflexivity|]. split; [apply adds_refl, I|]. cbn. lia. }
  pose proof I as (R & W). destruct (room _ _ R) as (Le & MX & UB).
  destruct (put_part s u d I) as (b & EW & K0 & MB & A2). rewrite EW. set (k := Z.min (zl d) (maxu (wbuf s) - zl u)) in *. assert (KE : k = Z.min (zl d) (maxu (wbuf s) - zl u)) by reflexivity. clearbody k.
  destruct (k =? zl d) eqn:EK; cbn [negb].
  - assert (k = zl d) as EK' by lia. rewrite EK' in *. clear k EK'. rewrite Nat2Z.id, firstn_all, skipn_all in *.
    destruct fuel as [|fuel]; [destruct d; [cbn in E; lia|cbn [length] in F; lia]|]. cbn [write_loop length]. change (Z.of_nat 0 >? 0) with false. cbn iota.
    eexists _, _, _, _. split; [reflexivity|]. split; [exact A2|]. reflexivity.
  - assert (I2 : inv (WS b (chunk s) (calib s) (sock s)) (u ++ firstn (Z.to_nat k) d)) by apply A2.
    destruct (flush_adds _ _ I2) as (r & s1 & u1 & -> & M & A & C). cbn [wbuf] in M. destruct r.
    + specialize (C eq_refl). subst u1. assert (A3 : adds s u (firstn (Z.to_nat k) d) true s1 []).
      { rewrite <- (app_nil_r (firstn (Z.to_nat k) d)). eapply adds_trans; eassumption. }
      destruct (IH s1 [] (skipn (Z.to_nat k) d) (n + k)) as (r & q & s' & u' & E3 & A4 & Q).
      * apply A3.
      * rewrite skipn_length. cbn [length Z.of_nat]. rewrite M, MB. replace (0 <? maxu (wbuf s)) with true by lia. destruct (zl u <? maxu (wbuf s)) eqn:EE; lia.
      * rewrite E3. eexists _, _, _, _. split; [reflexivity|]. split.
        -- rewrite <- (firstn_skipn (Z.to_nat k) d). eapply adds_trans; eassumption.
        -- intros H. rewrite (Q H), skipn_length. lia.
    + eexists _, _, _, _. split; [reflexivity|]. split; [|discriminate]. rewrite <- (firstn_skipn (Z.to_nat k) d). apply adds_more.
      rewrite <- (app_nil_r (firstn (Z.to_nat k) d)). eapply adds_trans; eassumption.
Qed.
(** A call of Write outside of the buffer is right only if the data are not sent in chunks. *)
Lemma write_ok s u d : inv s u -> zl d < 2 ^ 32 -> (chunk s = true -> calib s = 0) ->
  exists r k s' u', write s d = Some (r, k, s') /\ adds s u d r s' u'.
Proof.
  intros I L C0. pose proof I as (R & W). destruct (room _ _ R) as (Le & MX & UB). unfold write. destruct (maxu (wbuf s) >? uwrap 32 (calib s * zl d)) eqn:E.
  - destruct (write_loop_ok (length d + 2) s u d 0 I) as (r & k & s' & u' & EW & A & _). { destruct (zl u <? maxu (wbuf s)); lia. } exists r, k, s', u'. auto.
  - assert (CH : chunk s = false). { destruct (chunk s); [|reflexivity]. rewrite C0 in E by reflexivity. rewrite Z.mul_0_l in E. unfold uwrap in E. rewrite Z.mod_0_l in E by discriminate. lia. }
    assert (0 < zl d). { destruct d; [|cbn [length]; lia]. cbn [length Z.of_nat] in E. rewrite Z.mul_0_r in E. unfold uwrap in E. rewrite Z.mod_0_l in E by discriminate. lia. }
    destruct (flush_adds s u I) as (r & s1 & u1 & -> & M & A & C). destruct r.
    + specialize (C eq_refl). subst u1. pose proof A as ((Sc & Sk) & (R1 & W1) & _).
      assert (B : 0 < zl d < 2 ^ 32) by lia.
      destruct (send_ok (sock s1) d W1 B) as [E1|E1]; rewrite E1; eexists _, _, _, []; (split; [reflexivity|]); change d with ([] ++ d) at 1; (eapply adds_trans; [exact A|]);
        (split; [split; reflexivity|]); (split; [split; [exact R1|apply whole_tl, W1]|]); cbn [sock wire]; rewrite Sc, CH; cbn [frames].
      * exists d. split; [reflexivity|]. exists d. rewrite app_nil_r. auto.
      * exists []. rewrite app_nil_r. split; [reflexivity|]. exists d. reflexivity.
    + eexists _, _, _, _. split; [reflexivity|]. change d with ([] ++ d) at 1. apply adds_more. exact A.
Qed.
