From Verif Require Import Base BitsBase Base64_Model Base64_Spec.

Lemma finite64 (P : Z -> bool) : forallb P (map Z.of_nat (seq 0 64)) = true -> forall v, 0 <= v < 64 -> P v = true.
Proof.
  intros H v Hv. rewrite forallb_forall in H. apply H. rewrite in_map_iff. exists (Z.to_nat v).
  split; [lia|]. apply in_seq. lia.
Qed.

Lemma alpha_spec v : 0 <= v < 64 -> alpha v = Some (rfc_char v).
Proof.
  intros Hv. pose proof (finite64 (fun v => match alpha v with Some c => c =? rfc_char v | None => false end)
    ltac:(vm_compute; reflexivity) v Hv) as H. cbv beta in H. destruct (alpha v); [f_equal; lia|discriminate].
Qed.

Lemma key_spec v : 0 <= v < 64 -> key_of (rfc_char v) = v /\ rfc_char v <> 61.
Proof.
  intros Hv. pose proof (finite64 (fun v => (key_of (rfc_char v) =? v) && negb (rfc_char v =? 61))
    ltac:(vm_compute; reflexivity) v Hv) as H. cbv beta in H. lia.
Qed.

Lemma shr_div a n : 0 <= n -> Z.shiftr a n = a / 2 ^ n. Proof. apply Z.shiftr_div_pow2. Qed.

Ltac zdm := Z.to_euclidean_division_equations; lia.

Lemma sextet_eq n k : sextet n k = n / 64 ^ k mod 64. Proof. reflexivity. Qed.

Lemma lor8 w b n : 0 <= w < 2 ^ 24 -> 0 <= n <= 8 -> 0 <= b < 2 ^ n -> Z.lor (uwrap 32 (Z.shiftl w n)) b = w * 2 ^ n + b.
Proof.
  intros Hw Hn Hb. rewrite uwrap_id; [apply lor_shiftl_add; lia|].
  rewrite Z.shiftl_mul_pow2 by lia. assert (1 <= 2 ^ n <= 2 ^ 8).
  { split; [pose proof (Z.pow_pos_nonneg 2 n); lia|apply Z.pow_le_mono_r; lia]. }
  change (2 ^ 8) with 256 in *. change (2 ^ 24) with 16777216 in *. change (2 ^ 32) with 4294967296. nia.
Qed.

Lemma shl_u w n : 0 <= w < 2 ^ 24 -> 0 <= n <= 8 -> uwrap 32 (Z.shiftl w n) = w * 2 ^ n.
Proof.
  intros Hw Hn. pose proof (lor8 w 0 n Hw Hn ltac:(pose proof (Z.pow_pos_nonneg 2 n); lia)) as H.
  rewrite Z.lor_0_r in H. lia.
Qed.

Lemma list_ind3 (P : list Z -> Prop) :
  P [] -> (forall a, P [a]) -> (forall a b, P [a; b]) -> (forall a b c r, P r -> P (a :: b :: c :: r)) -> forall l, P l.
Proof.
  intros H0 H1 H2 H3. fix IH 1. intros [|a [|b [|c r]]]; [exact H0 | apply H1 | apply H2 | apply H3; apply IH].
Qed.

Lemma bytes_cons a r : bytes (a :: r) -> 0 <= a < 256 /\ bytes r.
Proof. intros H; inversion H; auto. Qed.

Lemma encode_loop_spec x : forall fuel out, bytes x -> (length x <= fuel)%nat ->
  encode_loop fuel x (Some out) = Some (out ++ rfc4648 x).
Proof.
  induction x as [|a|a b|a b c r IH] using list_ind3; intros fuel out Hb Hf.
  - destruct fuel; cbn; rewrite app_nil_r; reflexivity.
  - destruct fuel; [cbn in Hf; lia|]. apply bytes_cons in Hb. destruct Hb as [Ha _].
    cbn [encode_loop rfc4648]. rewrite shr_div by lia. change (Z.land a 3) with (Z.land a (2 ^ 2 - 1)). rewrite land_ones_mod by lia.
    change (2 ^ 2) with 4. rewrite shl_u by (try lia; change (2 ^ 24) with 16777216; zdm). change (2 ^ 4) with 16.
    rewrite (alpha_spec (a / 4)), (alpha_spec (a mod 4 * 16)) by zdm.
    cbn [app1]. rewrite <- !app_assoc. cbn [app]. do 2 f_equal. rewrite !sextet_eq.
    change (64 ^ 3) with 262144. change (64 ^ 2) with 4096. f_equal; [f_equal; zdm|]. f_equal. f_equal. zdm.
  - destruct fuel; [cbn in Hf; lia|]. apply bytes_cons in Hb. destruct Hb as [Ha Hb]. apply bytes_cons in Hb. destruct Hb as [Hb _].
    cbn [encode_loop rfc4648]. rewrite !shr_div by lia. change (Z.land a 3) with (Z.land a (2 ^ 2 - 1)). change 15 with (2 ^ 4 - 1).
    rewrite !land_ones_mod by lia. change (2 ^ 2) with 4. change (2 ^ 4) with 16.
    rewrite lor8 by (try lia; change (2 ^ 24) with 16777216; change (2 ^ 8) with 256; zdm). change (2 ^ 8) with 256.
    rewrite shl_u by (try lia; change (2 ^ 24) with 16777216; zdm). change (2 ^ 2) with 4.
    rewrite (alpha_spec (a / 4)), (alpha_spec ((a mod 4 * 256 + b) / 16)), (alpha_spec ((a mod 4 * 256 + b) mod 16 * 4)) by zdm.
    cbn [app1]. rewrite <- !app_assoc. cbn [app]. do 2 f_equal. rewrite !sextet_eq.
    change (64 ^ 3) with 262144. change (64 ^ 2) with 4096. change (64 ^ 1) with 64.
    f_equal; [f_equal; zdm|]. f_equal; [f_equal; zdm|]. f_equal. f_equal. zdm.
  - destruct fuel; [cbn in Hf; lia|]. apply bytes_cons in Hb. destruct Hb as [Ha Hb]. apply bytes_cons in Hb. destruct Hb as [Hb Hc].
    apply bytes_cons in Hc. destruct Hc as [Hc Hr].
    cbn [encode_loop rfc4648]. rewrite !shr_div by lia. change (Z.land a 3) with (Z.land a (2 ^ 2 - 1)). change 15 with (2 ^ 4 - 1). change 63 with (2 ^ 6 - 1).
    rewrite !land_ones_mod by lia. change (2 ^ 2) with 4. change (2 ^ 4) with 16. change (2 ^ 6) with 64.
    rewrite (lor8 (a mod 4) b) by (try lia; change (2 ^ 24) with 16777216; change (2 ^ 8) with 256; zdm). change (2 ^ 8) with 256.
    rewrite (lor8 _ c) by (try lia; change (2 ^ 24) with 16777216; change (2 ^ 8) with 256; zdm). change (2 ^ 8) with 256.
    set (m := (a mod 4 * 256 + b) mod 16 * 256 + c).
    rewrite (alpha_spec (a / 4)), (alpha_spec ((a mod 4 * 256 + b) / 16)), (alpha_spec (m / 64)), (alpha_spec (m mod 64)) by (unfold m; zdm).
    cbn [app1]. rewrite IH by (auto; cbn in Hf; lia). rewrite <- !app_assoc. cbn [app]. do 2 f_equal. rewrite !sextet_eq.
    change (64 ^ 3) with 262144. change (64 ^ 2) with 4096. change (64 ^ 1) with 64. change (64 ^ 0) with 1. rewrite Z.div_1_r.
    unfold m. f_equal; [f_equal; zdm|]. f_equal; [f_equal; zdm|]. f_equal; [f_equal; zdm|]. f_equal. f_equal. zdm.
Qed.

Theorem encode_rfc x : bytes x -> encode x = Some (rfc4648 x).
Proof. intros H. unfold encode. rewrite encode_loop_spec by auto. reflexivity. Qed.

(** One full group of four characters. *)
Lemma decode_group fuel v0 v1 v2 v3 r out :
  0 <= v0 < 64 -> 0 <= v1 < 64 -> 0 <= v2 < 64 -> 0 <= v3 < 64 ->
  decode_loop (S fuel) (rfc_char v0 :: rfc_char v1 :: rfc_char v2 :: rfc_char v3 :: r) out =
  decode_loop fuel r (out ++ [v0 * 4 + v1 / 16; v1 mod 16 * 16 + v2 / 4; v2 mod 4 * 64 + v3]).
Proof.
  intros H0 H1 H2 H3. cbn [decode_loop].
  destruct (key_spec v0 H0) as [K0 E0]. destruct (key_spec v1 H1) as [K1 E1].
  destruct (key_spec v2 H2) as [K2 E2]. destruct (key_spec v3 H3) as [K3 E3].
  rewrite K0, K1, K2, K3.
  replace (rfc_char v0 =? 61) with false by lia. replace (rfc_char v1 =? 61) with false by lia.
  replace (rfc_char v2 =? 61) with false by lia. replace (rfc_char v3 =? 61) with false by lia.
  replace (v0 =? 255) with false by lia. replace (v1 =? 255) with false by lia.
  replace (v2 =? 255) with false by lia. replace (v3 =? 255) with false by lia.
  rewrite !shr_div by lia. change 15 with (2 ^ 4 - 1). change 3 with (2 ^ 2 - 1). rewrite !land_ones_mod by lia.
  change (2 ^ 4) with 16. change (2 ^ 2) with 4.
  rewrite (lor8 v0 v1) by (try lia; change (2 ^ 24) with 16777216; change (2 ^ 6) with 64; lia). change (2 ^ 6) with 64.
  rewrite (lor8 _ v2) by (try lia; change (2 ^ 24) with 16777216; change (2 ^ 6) with 64; zdm). change (2 ^ 6) with 64.
  rewrite (lor8 _ v3) by (try lia; change (2 ^ 24) with 16777216; change (2 ^ 6) with 64; zdm). change (2 ^ 6) with 64.
  unfold put. rewrite <- !app_assoc. cbn [app]. f_equal. f_equal.
  unfold uwrap. change (2 ^ 8) with 256. f_equal; [zdm|]. f_equal; [zdm|]. f_equal. zdm.
Qed.

Lemma decode_tail1 fuel v0 v1 out : 0 <= v0 < 64 -> 0 <= v1 < 64 ->
  decode_loop (S fuel) [rfc_char v0; rfc_char v1; 61; 61] out = (true, out ++ [v0 * 4 + v1 / 16; v1 mod 16 * 16]).
Proof.
  intros H0 H1. cbn [decode_loop].
  destruct (key_spec v0 H0) as [K0 E0]. destruct (key_spec v1 H1) as [K1 E1]. rewrite K0, K1.
  replace (rfc_char v0 =? 61) with false by lia. replace (rfc_char v1 =? 61) with false by lia.
  replace (v0 =? 255) with false by lia. replace (v1 =? 255) with false by lia. cbn [Z.eqb Pos.eqb].
  rewrite !shr_div by lia. change 15 with (2 ^ 4 - 1). rewrite !land_ones_mod by lia. change (2 ^ 4) with 16.
  rewrite (lor8 v0 v1) by (try lia; change (2 ^ 24) with 16777216; change (2 ^ 6) with 64; lia). change (2 ^ 6) with 64.
  rewrite shl_u by (try lia; change (2 ^ 24) with 16777216; zdm). change (2 ^ 4) with 16.
  unfold put. rewrite <- !app_assoc. cbn [app]. f_equal. f_equal.
  unfold uwrap. change (2 ^ 8) with 256. f_equal; [zdm|]. f_equal. zdm.
Qed.

Lemma decode_tail2 fuel v0 v1 v2 out : 0 <= v0 < 64 -> 0 <= v1 < 64 -> 0 <= v2 < 64 ->
  decode_loop (S fuel) [rfc_char v0; rfc_char v1; rfc_char v2; 61] out
  = (true, out ++ [v0 * 4 + v1 / 16; v1 mod 16 * 16 + v2 / 4]).
Proof.
  intros H0 H1 H2. cbn [decode_loop].
  destruct (key_spec v0 H0) as [K0 E0]. destruct (key_spec v1 H1) as [K1 E1]. destruct (key_spec v2 H2) as [K2 E2]. rewrite K0, K1, K2.
  replace (rfc_char v0 =? 61) with false by lia. replace (rfc_char v1 =? 61) with false by lia. replace (rfc_char v2 =? 61) with false by lia.
  replace (v0 =? 255) with false by lia. replace (v1 =? 255) with false by lia. replace (v2 =? 255) with false by lia. cbn [Z.eqb Pos.eqb].
  rewrite !shr_div by lia. change 15 with (2 ^ 4 - 1). rewrite !land_ones_mod by lia. change (2 ^ 4) with 16. change (2 ^ 2) with 4.
  rewrite (lor8 v0 v1) by (try lia; change (2 ^ 24) with 16777216; change (2 ^ 6) with 64; lia). change (2 ^ 6) with 64.
  rewrite (lor8 _ v2) by (try lia; change (2 ^ 24) with 16777216; change (2 ^ 6) with 64; zdm). change (2 ^ 6) with 64.
  unfold put. rewrite <- !app_assoc. cbn [app]. f_equal. f_equal.
  unfold uwrap. change (2 ^ 8) with 256. f_equal; [zdm|]. f_equal. zdm.
Qed.

Lemma sextet_range n k : 0 <= sextet n k < 64.
Proof. unfold sextet. apply Z.mod_pos_bound. lia. Qed.

(** What is appended to the input by encoding and decoding it. *)
Definition spurious (x : list Z) : list Z := if (Z.of_nat (length x) mod 3 =? 1) then [0] else [].

Lemma decode_loop_rfc x : forall fuel out, bytes x -> (length x < fuel)%nat ->
  decode_loop fuel (rfc4648 x) out = (true, out ++ x ++ spurious x).
Proof.
  induction x as [|a|a b|a b c r IH] using list_ind3; intros fuel out Hb Hf.
  - destruct fuel; [cbn in Hf; lia|]. cbn. rewrite app_nil_r. reflexivity.
  - destruct fuel; [cbn in Hf; lia|]. apply bytes_cons in Hb. destruct Hb as [Ha _]. cbn [rfc4648].
    rewrite decode_tail1 by apply sextet_range. do 2 f_equal. cbn [app spurious]. rewrite !sextet_eq.
    change (64 ^ 3) with 262144. change (64 ^ 2) with 4096. f_equal; [zdm|].
    change (spurious [a]) with [0]. f_equal. zdm.
  - destruct fuel; [cbn in Hf; lia|]. apply bytes_cons in Hb. destruct Hb as [Ha Hb]. apply bytes_cons in Hb. destruct Hb as [Hb _].
    cbn [rfc4648]. rewrite decode_tail2 by apply sextet_range. do 2 f_equal. change (spurious [a; b]) with (@nil Z). cbn [app]. rewrite !sextet_eq.
    change (64 ^ 3) with 262144. change (64 ^ 2) with 4096. change (64 ^ 1) with 64. f_equal; [zdm|]. f_equal. zdm.
  - destruct fuel; [cbn in Hf; lia|]. apply bytes_cons in Hb. destruct Hb as [Ha Hb]. apply bytes_cons in Hb. destruct Hb as [Hb Hc].
    apply bytes_cons in Hc. destruct Hc as [Hc Hr]. cbn [rfc4648].
    rewrite decode_group by apply sextet_range. rewrite IH by (auto; cbn in Hf; lia).
    assert (SP : spurious (a :: b :: c :: r) = spurious r).
    { unfold spurious. cbn [length]. rewrite !Nat2Z.inj_succ.
      replace (Z.succ (Z.succ (Z.succ (Z.of_nat (length r))))) with (Z.of_nat (length r) + 1 * 3) by lia.
      rewrite Z.mod_add by lia. reflexivity. }
    rewrite SP. rewrite <- app_assoc. cbn [app]. do 2 f_equal. rewrite !sextet_eq.
    change (64 ^ 3) with 262144. change (64 ^ 2) with 4096. change (64 ^ 1) with 64. change (64 ^ 0) with 1. rewrite Z.div_1_r.
    f_equal; [zdm|]. f_equal; [zdm|]. f_equal. zdm.
Qed.

Lemma rfc_length x : (length x <= length (rfc4648 x))%nat.
Proof. induction x as [|a|a b|a b c r IH] using list_ind3; cbn [rfc4648 length]; lia. Qed.

Theorem decode_encode x : bytes x -> exists s, encode x = Some s /\ decode s = (true, x ++ spurious x).
Proof.
  intros Hb. exists (rfc4648 x). split; [apply encode_rfc; auto|]. unfold decode.
  rewrite decode_loop_rfc; [reflexivity|auto|]. pose proof (rfc_length x). lia.
Qed.

Theorem decode_encode_exact x : bytes x -> Z.of_nat (length x) mod 3 <> 1 ->
  exists s, encode x = Some s /\ decode s = (true, x).
Proof.
  intros Hb Hl. destruct (decode_encode x Hb) as (s & E & D). exists s. split; [exact E|].
  rewrite D. unfold spurious. replace (_ =? 1) with false by lia. rewrite app_nil_r. reflexivity.
Qed.

Theorem decode_encode_refuted : exists x s, bytes x /\ encode x = Some s /\ decode s <> (true, x).
Proof.
  exists [65], [81; 81; 61; 61]. split; [constructor; [lia|constructor]|]. split; [vm_compute; reflexivity|].
  vm_compute. discriminate.
Qed.

(** Length and alphabet of the encoding. *)
Theorem encode_length x : Z.of_nat (length (rfc4648 x)) = 4 * ((Z.of_nat (length x) + 2) / 3).
Proof.
  induction x as [|a|a b|a b c r IH] using list_ind3; cbn [rfc4648 length]; try reflexivity.
  rewrite !Nat2Z.inj_succ, IH. zdm.
Qed.

(** Well-formed text (whole groups of alphabet characters): decoding succeeds and encoding the result
    gives the text back, so no two texts decode to the same bytes. *)
Lemma groups_ind (P : list Z -> Prop) :
  P [] -> (forall c0 c1 c2 c3 r, P r -> P (c0 :: c1 :: c2 :: c3 :: r)) ->
  forall l, Z.of_nat (length l) mod 4 = 0 -> P l.
Proof.
  intros H0 H1. fix IH 1. intros [|c0 [|c1 [|c2 [|c3 r]]]] Hl; [exact H0 | cbn in Hl; discriminate | cbn in Hl; discriminate | cbn in Hl; discriminate | ].
  apply H1. apply IH. cbn [length] in Hl. rewrite !Nat2Z.inj_succ in Hl.
  replace (Z.succ (Z.succ (Z.succ (Z.succ (Z.of_nat (length r)))))) with (Z.of_nat (length r) + 1 * 4) in Hl by lia.
  rewrite Z.mod_add in Hl by lia. exact Hl.
Qed.

Lemma decode_loop_groups s : Z.of_nat (length s) mod 4 = 0 -> Forall b64_char s ->
  forall fuel out, (length s < fuel)%nat ->
  exists x, bytes x /\ decode_loop fuel s out = (true, out ++ x) /\ rfc4648 x = s.
Proof.
  intros Hl. pattern s. revert s Hl. apply groups_ind.
  - intros _ fuel out _. exists []. split; [constructor|]. split; [destruct fuel; cbn; rewrite app_nil_r; reflexivity|reflexivity].
  - intros c0 c1 c2 c3 r IH HF fuel out Hf.
    repeat match goal with H : Forall _ (_ :: _) |- _ => inversion H; subst; clear H end.
    repeat match goal with H : b64_char _ |- _ => destruct H as (? & ? & ->) end.
    match goal with |- context [rfc_char ?a :: rfc_char ?b :: rfc_char ?c :: rfc_char ?d :: r] =>
      rename a into v0; rename b into v1; rename c into v2; rename d into v3 end.
    destruct fuel; [cbn in Hf; lia|]. rewrite decode_group by auto.
    destruct (IH ltac:(assumption) fuel (out ++ [v0 * 4 + v1 / 16; v1 mod 16 * 16 + v2 / 4; v2 mod 4 * 64 + v3]) ltac:(cbn in Hf; lia)) as (x & Bx & D & R).
    exists ((v0 * 4 + v1 / 16) :: (v1 mod 16 * 16 + v2 / 4) :: (v2 mod 4 * 64 + v3) :: x).
    split; [|split].
    + repeat (apply Forall_cons; [zdm|]). exact Bx.
    + rewrite D, <- app_assoc. reflexivity.
    + cbn [rfc4648]. rewrite R, !sextet_eq.
      change (64 ^ 3) with 262144. change (64 ^ 2) with 4096. change (64 ^ 1) with 64. change (64 ^ 0) with 1. rewrite Z.div_1_r.
      f_equal; [f_equal; zdm|]. f_equal; [f_equal; zdm|]. f_equal; [f_equal; zdm|]. f_equal. f_equal. zdm.
Qed.

Theorem encode_decode s : Z.of_nat (length s) mod 4 = 0 -> Forall b64_char s ->
  exists x, decode s = (true, x) /\ encode x = Some s.
Proof.
  intros Hl Hf. destruct (decode_loop_groups s Hl Hf (S (length s)) [] ltac:(lia)) as (x & B & D & R).
  exists x. split; [exact D|]. rewrite encode_rfc by auto. rewrite R. reflexivity.
Qed.

(** A character outside the alphabet (other than '=') in the first group makes decoding fail. *)
Lemma key_invalid c : 0 <= c < 256 -> ~ b64_char c -> c <> 61 -> key_of c = 255.
Proof.
  intros Hc Hn H61. destruct (Z.eq_dec (key_of c) 255) as [E|E]; [exact E|]. exfalso. apply Hn.
  assert (A : forall c, 0 <= c < 256 -> (key_of c =? 255) || (c =? 61) || ((key_of c <? 64) && (0 <=? key_of c) && (rfc_char (key_of c) =? c)) = true).
  { clear. intros c Hc. 
    assert (F : forallb (fun c => (key_of c =? 255) || (c =? 61) || ((key_of c <? 64) && (0 <=? key_of c) && (rfc_char (key_of c) =? c))) (map Z.of_nat (seq 0 256)) = true) by (vm_compute; reflexivity).
    rewrite forallb_forall in F. apply F. apply in_map_iff. exists (Z.to_nat c). split; [lia|]. apply in_seq. lia. }
  specialize (A c Hc). exists (key_of c). lia.
Qed.

Theorem decode_trailing_ignored_refuted : exists s, Forall b64_char s /\ s <> [] /\ decode s = (true, []).
Proof.
  exists [81; 85; 73]. split; [|split; [discriminate|vm_compute; reflexivity]].
  repeat (apply Forall_cons); [exists 16|exists 20|exists 8|apply Forall_nil]; split; try lia; reflexivity.
Qed.

(** Decoding fails exactly when it meets an invalid character before any '='. *)
Definition bad (c : Z) : Prop := ~ b64_char c /\ c <> 61.
Local Opaque key_of rfc_char.
Lemma decode_group_bad3 fuel v0 v1 v2 c r out :
  0 <= v0 < 64 -> 0 <= v1 < 64 -> 0 <= v2 < 64 -> c <> 61 -> key_of c = 255 ->
  fst (decode_loop (S fuel) (rfc_char v0 :: rfc_char v1 :: rfc_char v2 :: c :: r) out) = false.
Proof.
  intros H0 H1 H2 E3 K3. cbn [decode_loop].
  destruct (key_spec v0 H0) as [K0 E0]. destruct (key_spec v1 H1) as [K1 E1].
  destruct (key_spec v2 H2) as [K2 E2].
  rewrite K0, K1, K2, K3.
  replace (rfc_char v0 =? 61) with false by lia. replace (rfc_char v1 =? 61) with false by lia.
  replace (rfc_char v2 =? 61) with false by lia. replace (c =? 61) with false by lia.
  replace (v0 =? 255) with false by lia. replace (v1 =? 255) with false by lia.
  replace (v2 =? 255) with false by lia. reflexivity.
Qed.

Lemma decode_group_bad2 fuel v0 v1 c d r out :
  0 <= v0 < 64 -> 0 <= v1 < 64 -> c <> 61 -> key_of c = 255 ->
  fst (decode_loop (S fuel) (rfc_char v0 :: rfc_char v1 :: c :: d :: r) out) = false.
Proof.
  intros H0 H1 E3 K3. cbn [decode_loop].
  destruct (key_spec v0 H0) as [K0 E0]. destruct (key_spec v1 H1) as [K1 E1].
  rewrite K0, K1, K3.
  replace (rfc_char v0 =? 61) with false by lia. replace (rfc_char v1 =? 61) with false by lia.
  replace (c =? 61) with false by lia.
  replace (v0 =? 255) with false by lia. replace (v1 =? 255) with false by lia. reflexivity.
Qed.

Lemma decode_group_bad fuel pre c s out :
  0 <= c < 256 -> bad c -> Forall b64_char pre -> (4 <= length (pre ++ c :: s))%nat -> (length pre < 4)%nat ->
  fst (decode_loop (S fuel) (pre ++ c :: s) out) = false.
Proof.
  intros Hc [Hb H61] Hp Hl H4. pose proof (key_invalid c Hc Hb H61) as K.
  destruct pre as [|p0 [|p1 [|p2 [|p3 r]]]]; cbn [app length] in *; try lia;
  repeat match goal with H : Forall _ (_ :: _) |- _ => inversion H; subst; clear H end;
  repeat match goal with H : b64_char _ |- _ => destruct H as (? & ? & ->) end;
  repeat match goal with H : 0 <= ?v < 64 |- _ => destruct (key_spec v H) as [? ?]; revert H end; intros.
  - destruct s as [|c1 [|c2 [|c3 r]]]; cbn [length] in Hl; try lia. cbn [decode_loop]. rewrite K.
    replace (c =? 61) with false by lia. reflexivity.
  - destruct s as [|c2 [|c3 r]]; cbn [length] in Hl; try lia. cbn [decode_loop]. rewrite K.
    replace (c =? 61) with false by lia. destruct (_ =? 61) eqn:?; [lia|]. destruct (_ =? 255) eqn:?; [lia|]. reflexivity.
  - destruct s as [|c3 r]; cbn [length] in Hl; try lia. apply decode_group_bad2; auto; lia.
  - match goal with |- context [rfc_char ?a :: rfc_char ?b :: rfc_char ?d :: c :: s] =>
      rename a into v0; rename b into v1; rename d into v2 end.
    apply decode_group_bad3; auto; lia.
Qed.

Theorem decode_rejects pre c s :
  0 <= c < 256 -> bad c -> Forall b64_char pre -> (length (pre ++ c :: s) mod 4 = 0)%nat ->
  fst (decode (pre ++ c :: s)) = false.
Proof.
  intros Hc Hb Hp Hm. unfold decode.
  assert (G : forall n pre fuel out, (length pre <= n)%nat -> Forall b64_char pre ->
     (length (pre ++ c :: s) mod 4 = 0)%nat -> (length (pre ++ c :: s) < fuel)%nat ->
     fst (decode_loop fuel (pre ++ c :: s) out) = false).
  { clear pre Hp Hm. induction n as [|n IH]; intros pre fuel out Hn Hp Hm Hf.
    - destruct fuel; [lia|]. apply decode_group_bad; auto; [|lia].
      rewrite app_length in *. cbn [length] in *. 
      destruct (Nat.lt_ge_cases (length pre + S (length s)) 4) as [L|L]; [|exact L].
      rewrite Nat.mod_small in Hm by exact L. lia.
    - destruct (Nat.lt_ge_cases (length pre) 4) as [L|L].
      + destruct fuel; [lia|]. apply decode_group_bad; auto.
        rewrite app_length in *. cbn [length] in *.
        destruct (Nat.lt_ge_cases (length pre + S (length s)) 4) as [L'|L']; [|exact L'].
        rewrite Nat.mod_small in Hm by exact L'. lia.
      + destruct pre as [|p0 [|p1 [|p2 [|p3 r]]]]; cbn [length] in L; try lia. destruct fuel; [lia|].
        repeat match goal with H : Forall _ (_ :: _) |- _ => inversion H; subst; clear H end.
        repeat match goal with H : b64_char _ |- _ => destruct H as (? & ? & ->) end.
        cbn [app]. rewrite decode_group by auto. apply IH.
        * cbn [length] in Hn. lia.
        * assumption.
        * cbn [app length] in Hm. replace (S (S (S (S (length (r ++ c :: s)))))) with (length (r ++ c :: s) + 1 * 4)%nat in Hm by lia.
          rewrite Nat.mod_add in Hm by lia. exact Hm.
        * cbn [app length] in Hf. lia. }
  apply (G (length pre)); auto.
Qed.
