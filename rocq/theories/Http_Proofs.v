From Verif Require Import Base BitsBase Token_Model Fmt_Model Http_Model Http_Spec.
From Coq Require Import Lia.
Open Scope Z_scope.

Notation zl l := (Z.of_nat (length l)).

(** ** Sets of characters *)
Lemma in_set_false s c : in_set s c = false <-> c <> 0 /\ ~ In c s.
Proof.
  unfold in_set. rewrite orb_false_iff. split; intros (A & B).
  - split; [lia|]. intros H. assert (X : existsb (Z.eqb c) s = true); [|congruence]. apply existsb_exists. exists c. split; [exact H|lia].
  - split; [lia|]. destruct (existsb (Z.eqb c) s) eqn:E; [|reflexivity]. apply existsb_exists in E. destruct E as (x & H & X). replace x with c in H by lia. contradiction.
Qed.
Lemma in_set_true s c : In c s -> in_set s c = true.
Proof. intros H. unfold in_set. apply orb_true_iff. right. apply existsb_exists. exists c. split; [exact H|lia]. Qed.

(** ** Tokens of lists *)
Definition kept (term skip : list Z) (c : Z) : Prop := in_set term c = false /\ in_set skip c = false.
Lemma gt_keep term skip p : forall fuel rest out size, Forall (kept term skip) p -> 0 <= size -> size + zl p < 2 ^ 32 ->
  gt_loop next_char add_char (length p + fuel) term skip (p ++ rest) out size = gt_loop next_char add_char fuel term skip rest (out ++ p) (size + zl p).
Proof.
  induction p as [|c p IH]; intros fuel rest out size K B1 B2.
  - cbn. rewrite app_nil_r, Z.add_0_r. reflexivity.
  - cbn [length Nat.add gt_loop next_char app]. pose proof (Forall_inv K) as (K1 & K2). apply Forall_inv_tail in K. rewrite K1, K2.
    assert (c <> 0) by (apply in_set_false in K1; tauto). replace (c =? 0) with false by lia. cbn [orb negb]. unfold add_char at 1.
    cbn [length] in B2. rewrite uwrap_id by lia. rewrite IH; [|exact K|lia|lia]. rewrite <- app_assoc. cbn [app length]. f_equal. lia.
Qed.
Definition skipped (term : list Z) (skip : option (list Z)) : list Z := match skip with None => term | Some k => k end.
Lemma tok_stop term skip p c rest out : Forall (kept term (skipped term skip)) p -> zl p < 2 ^ 32 -> in_set term c = true ->
  p <> [] \/ in_set (skipped term skip) c = false -> token term skip (p ++ c :: rest) out = Some (true, c, rest, out ++ p).
Proof.
  intros K B T N. unfold token, get_token. fold (skipped term skip). rewrite app_length. replace (S (length p + length (c :: rest)))%nat with (length p + S (length (c :: rest)))%nat by lia.
  rewrite gt_keep; [|exact K|lia|lia]. cbn [gt_loop next_char]. rewrite T. cbn [orb]. rewrite Z.add_0_l.
  replace (negb (zl p =? 0) || negb (in_set (skipped term skip) c)) with true; [reflexivity|].
  destruct N as [N|N]; [|rewrite N; symmetry; apply orb_true_r]. destruct p; [contradiction|]. cbn [length]. replace (Z.of_nat (S (length p)) =? 0) with false by lia. reflexivity.
Qed.
Lemma tok_drop term skip p d c rest out : Forall (kept term (skipped term skip)) p -> zl p < 2 ^ 32 ->
  in_set term d = false -> in_set (skipped term skip) d = true -> in_set term c = true ->
  p <> [] \/ in_set (skipped term skip) c = false -> token term skip (p ++ d :: c :: rest) out = Some (true, c, rest, out ++ p).
Proof.
  intros K B D1 D2 T N. unfold token, get_token. fold (skipped term skip). rewrite app_length. replace (S (length p + length (d :: c :: rest)))%nat with (length p + S (length (d :: c :: rest)))%nat by lia.
  rewrite gt_keep; [|exact K|lia|lia]. cbn [gt_loop next_char length]. rewrite T, D1, D2. assert (d <> 0) by (apply in_set_false in D1; tauto). replace (d =? 0) with false by lia. cbn [orb negb]. rewrite Z.add_0_l.
  replace (negb (zl p =? 0) || negb (in_set (skipped term skip) c)) with true; [reflexivity|].
  destruct N as [N|N]; [|rewrite N; symmetry; apply orb_true_r]. destruct p; [contradiction|]. cbn [length]. replace (Z.of_nat (S (length p)) =? 0) with false by lia. reflexivity.
Qed.
Lemma tok_end term skip p out : Forall (kept term (skipped term skip)) p -> zl p < 2 ^ 32 ->
  token term skip p out = Some (match p with [] => false | _ => true end, 0, [], out ++ p).
Proof.
  intros K B. unfold token, get_token. fold (skipped term skip). replace (S (length p))%nat with (length p + 1)%nat by lia. rewrite <- (app_nil_r p) at 2.
  rewrite gt_keep; [|exact K|lia|lia]. cbn [gt_loop next_char]. rewrite Z.add_0_l. destruct p; [reflexivity|]. cbn [length]. replace (Z.of_nat (S (length p)) =? 0) with false by lia. reflexivity.
Qed.
Lemma tok_skip term skip c l out : in_set term c = true -> in_set (skipped term skip) c = true -> token term skip (c :: l) out = token term skip l out.
Proof.
  intros T K. unfold token, get_token. fold (skipped term skip). cbn [length]. cbn [gt_loop next_char]. rewrite T, K. cbn [orb negb]. change (negb (0 =? 0)) with false. cbn [orb]. reflexivity.
Qed.

(** ** Percent encoding *)
Lemma hex_ok d v : hex_digit d v -> hex_decode d = v /\ 0 <= v < 16.
Proof.
  unfold hex_digit, hex_decode. intros H.
  destruct (Z.leb_spec 48 d), (Z.leb_spec d 57), (Z.leb_spec 97 d), (Z.leb_spec d 102), (Z.leb_spec 65 d), (Z.leb_spec d 70); cbn [andb]; lia.
Qed.
Lemma decode_app e t : escaped e t -> forall r, decode (e ++ r) = match decode r with None => None | Some d => Some (t ++ d) end.
Proof.
  induction 1 as [|c e t B N E IH|a b x y e t A B E IH]; intros r.
  - cbn [app]. destruct (decode r); reflexivity.
  - cbn [app decode]. assert (c <> 37). { intros ->. apply N. cbn. tauto. } replace (c =? 37) with false by lia. rewrite IH. destruct (decode r); reflexivity.
  - cbn [app decode]. change (37 =? 37) with true. cbn iota. rewrite IH. apply hex_ok in A, B. destruct A as (-> & A), B as (-> & B).
    rewrite uwrap_id by lia. replace (x * 16 + y) with (16 * x + y) by lia. destruct (decode r); reflexivity.
Qed.
Lemma decode_escaped e t : escaped e t -> decode e = Some t.
Proof. intros H. rewrite <- (app_nil_r e), (decode_app _ _ H). cbn. rewrite app_nil_r. reflexivity. Qed.
(** The characters of an encoded text: none of the separators. *)
Definition plain (c : Z) : Prop := c <> 0 /\ c <> 9 /\ c <> 10 /\ c <> 13 /\ c <> 32 /\ c <> 38 /\ c <> 47 /\ c <> 61 /\ c <> 63.
Lemma escaped_plain e t : escaped e t -> Forall plain e.
Proof.
  induction 1 as [|c e t B N E IH|a b x y e t A B E IH]; [constructor| |].
  - constructor; [|exact IH]. unfold special in N. cbn in N. unfold plain. lia.
  - unfold hex_digit in *. repeat constructor; try exact IH; unfold plain; lia.
Qed.
Lemma escaped_nil e t : escaped e t -> t <> [] -> e <> [].
Proof. intros H N. destruct H; congruence. Qed.

Lemma encode_char c : In c to_convert -> exists a b x y, hex_digit a x /\ hex_digit b y /\ c = 16 * x + y /\
  printf 0 [37; 115; 37; 50; 120] [AScalar (SString 0 [37]); AScalar (SInt (ITy 8 false) (uwrap 8 c))] = Some ([37; a; b], true).
Proof.
  assert (X : forall a b, hex_digit a (hex_decode a) -> hex_digit b (hex_decode b) -> c = 16 * hex_decode a + hex_decode b ->
    printf 0 [37; 115; 37; 50; 120] [AScalar (SString 0 [37]); AScalar (SInt (ITy 8 false) (uwrap 8 c))] = Some ([37; a; b], true) ->
    exists a b x y, hex_digit a x /\ hex_digit b y /\ c = 16 * x + y /\
    printf 0 [37; 115; 37; 50; 120] [AScalar (SString 0 [37]); AScalar (SInt (ITy 8 false) (uwrap 8 c))] = Some ([37; a; b], true)).
  { intros a b H1 H2 H3 H4. exists a, b, (hex_decode a), (hex_decode b). tauto. }
  intros H. cbn [to_convert In] in H.
  repeat (destruct H as [<-|H]; [
    match goal with |- exists _ _ _ _, _ /\ _ /\ ?k = _ /\ _ =>
      let p := eval vm_compute in (printf 0 [37; 115; 37; 50; 120] [AScalar (SString 0 [37]); AScalar (SInt (ITy 8 false) (uwrap 8 k))]) in
      match p with Some ([37; ?a; ?b], true) => apply (X a b); [unfold hex_digit, hex_decode; cbn; lia|unfold hex_digit, hex_decode; cbn; lia|reflexivity|vm_compute; reflexivity] end end|]).
  contradiction.
Qed.
Lemma encode_ok t : forall out, Forall byte t -> no_nul t ->
  exists e, encode t out true = Some (out ++ e, true) /\ decode e = Some t /\ (Forall (fun c => ~ In c [9; 10; 13]) t -> escaped e t).
Proof.
  induction t as [|c t IH]; intros out B N.
  - exists []. cbn. rewrite app_nil_r. repeat split; constructor.
  - pose proof (Forall_inv B) as Bc. apply Forall_inv_tail in B. assert (N2 : no_nul t) by (intros H; apply N; right; exact H).
    assert (Nc : c <> 0) by (intros ->; apply N; left; reflexivity). cbn [encode]. replace (c =? 0) with false by lia.
    destruct (in_set to_convert c) eqn:E.
    + assert (I : In c to_convert). { unfold in_set in E. replace (c =? 0) with false in E by lia. cbn [orb] in E. apply existsb_exists in E. destruct E as (x & H & X). replace c with x by lia. exact H. }
      destruct (encode_char c I) as (a & b & x & y & H1 & H2 & H3 & ->). destruct (IH (out ++ [37; a; b]) B N2) as (e & E1 & E2 & E3).
      exists (37 :: a :: b :: e). rewrite E1, <- app_assoc. split; [reflexivity|]. split.
      * cbn [decode]. change (37 =? 37) with true. cbn iota. rewrite E2. apply hex_ok in H1, H2. destruct H1 as (-> & H1), H2 as (-> & H2). rewrite uwrap_id by lia. f_equal. f_equal. lia.
      * intros F. rewrite H3. constructor; try assumption. apply E3, (Forall_inv_tail F).
    + destruct (IH (out ++ [c]) B N2) as (e & E1 & E2 & E3). exists (c :: e). rewrite E1, <- app_assoc. split; [reflexivity|].
      apply in_set_false in E. destruct E as (_ & E). assert (C37 : c <> 37) by (intros ->; apply E; cbn; tauto). split.
      * cbn [decode]. replace (c =? 37) with false by lia. rewrite E2. reflexivity.
      * intros F. constructor; [exact Bc| |apply E3, (Forall_inv_tail F)]. apply Forall_inv in F. unfold special. intros H. cbn in H, F.
        repeat (destruct H as [<-|H]; [try lia; try (apply E; cbn; tauto); try (apply F; tauto)|]). contradiction.
Qed.
