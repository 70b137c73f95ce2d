From Verif Require Import Base Mar_Model Mar_Spec.
From Coq Require Import List ZArith Lia Bool.
Import ListNotations.
Open Scope Z_scope.

Definition all (bs : list block) : list byte := concat (map bytes bs).
Fixpoint placed (from : Z) (bs : list block) : Prop :=
  match bs with [] => True | b :: bs => at_ b = from /\ bytes b <> [] /\ placed (from + length_of b) bs end.
Definition inv (a : area) (bs : list block) : Prop :=
  memory a = (match bs with [] => None | _ => Some (all bs) end) /\ size a = Z.of_nat (length (all bs)) /\ placed 0 bs /\ size a < 2 ^ 32.

Lemma all_app x y : all (x ++ y) = all x ++ all y.
Proof. unfold all; rewrite map_app, concat_app; reflexivity. Qed.
Lemma placed_app x y f : placed f (x ++ y) <-> placed f x /\ placed (f + Z.of_nat (length (all x))) y.
Proof.
  revert f; induction x as [|b x IH]; intros f; cbn [app placed].
  - unfold all; cbn; rewrite Z.add_0_r; tauto.
  - rewrite IH. unfold all in *; cbn; rewrite app_length, Nat2Z.inj_add, Z.add_assoc. unfold length_of. tauto.
Qed.
Lemma total_all bs : total bs = Z.of_nat (length (all bs)).
Proof.
  induction bs as [|b bs IH]; [reflexivity|]. unfold all in *; cbn [map concat]. rewrite app_length, Nat2Z.inj_add, <- IH. reflexivity.
Qed.
Lemma nonempty_pos (A : Type) (l : list A) : l <> [] -> (0 < length l)%nat.
Proof. destruct l; cbn; [congruence|lia]. Qed.
Lemma all_pos b bs : placed 0 (b :: bs) -> (0 < length (all (b :: bs)))%nat.
Proof. cbn; intros (_ & H & _). apply nonempty_pos in H. unfold all; cbn; rewrite app_length; lia. Qed.

Lemma inv_add a bs n : inv a bs -> 0 < n -> size a + n < 2 ^ 32 ->
  add true a n = (true, Some (size a), Area (Some (all bs ++ repeat None (Z.to_nat n))) (size a + n)).
Proof.
  intros (Hm & Hs & Hp & Hb) Hn Hl. unfold add.
  assert (Hw : uwrap 32 (size a + n) = size a + n) by (apply uwrap_id; lia).
  destruct bs as [|b bs].
  - unfold all in Hs; cbn in Hs. rewrite Hs. cbn [Z.eqb]. unfold malloc.
    destruct (Z.eqb_spec n 0); [lia|]. cbn. rewrite uwrap_id by lia. reflexivity.
  - pose proof (all_pos _ _ Hp) as Hpos. destruct (Z.eqb_spec (size a) 0); [lia|].
    rewrite Hw, Hm. unfold realloc. destruct (Z.eqb_spec (size a + n) 0); [lia|]. cbn [orb negb].
    rewrite firstn_all2 by lia. replace (Z.to_nat (size a + n) - length (all (b :: bs)))%nat with (Z.to_nat n) by lia. reflexivity.
Qed.
Lemma overwrite_mid x y z b : length b = length y -> overwrite (x ++ y ++ z) (length x) b = x ++ b ++ z.
Proof.
  intros H. unfold overwrite. rewrite firstn_app, Nat.sub_diag, firstn_all, firstn_O, app_nil_r.
  rewrite H, app_assoc with (l := x) (m := y), <- app_length. rewrite skipn_app, skipn_all, Nat.sub_diag. reflexivity.
Qed.
Lemma inv_snoc a bs bts : inv a bs -> bts <> [] -> size a + Z.of_nat (length bts) < 2 ^ 32 ->
  inv (Area (Some (all bs ++ bts)) (size a + Z.of_nat (length bts))) (bs ++ [Block (size a) bts]).
Proof.
  intros (Hm & Hs & Hp & Hb) Hn Hl.
  assert (Ha : all (bs ++ [Block (size a) bts]) = all bs ++ bts) by (rewrite all_app; unfold all at 2; cbn; rewrite app_nil_r; reflexivity).
  unfold inv. rewrite Ha. cbn [memory size]. repeat split.
  - destruct bs; reflexivity.
  - rewrite app_length; lia.
  - apply placed_app; split; [exact Hp|]. cbn. repeat split; [lia|exact Hn].
  - exact Hl.
Qed.
Lemma inv_copy a bs s more : inv a bs -> s <> [] -> size a + Z.of_nat (length s) < 2 ^ 32 ->
  add_copy true a (Some (s ++ more)) (Z.of_nat (length s)) = Some (true, Some (size a), Area (Some (all bs ++ s)) (size a + Z.of_nat (length s))).
Proof.
  intros Hi Hn Hl. pose proof (nonempty_pos _ _ Hn) as Hpos. unfold add_copy. rewrite (inv_add _ bs) by (auto; lia).
  rewrite Nat2Z.id, app_length. destruct (Nat.leb_spec (length s) (length s + length more)); [|lia].
  rewrite firstn_app, Nat.sub_diag, firstn_all, firstn_O, app_nil_r. unfold put. cbn [memory size].
  destruct Hi as (Hm & Hs & _). rewrite Hs, Nat2Z.id, app_length, repeat_length.
  destruct (Nat.leb_spec (length (all bs) + length s) (length (all bs) + length s)); [|lia].
  rewrite <- (app_nil_r (repeat None (length s))) at 1.
  rewrite overwrite_mid by (rewrite repeat_length; reflexivity). rewrite app_nil_r. reflexivity.
Qed.
Lemma inv_write a before o p old r after new : inv a (before ++ Block o (p ++ old ++ r) :: after) -> length new = length old -> new <> [] ->
  exists a', step true a (Write (o + Z.of_nat (length p)) new) = Some (true, None, a') /\ inv a' (before ++ Block o (p ++ new ++ r) :: after).
Proof.
  intros (Hm & Hs & Hp & Hb) Hl Hn. pose proof (nonempty_pos _ _ Hn) as Hpos.
  apply placed_app in Hp; destruct Hp as (Hp1 & Hp2). cbn [placed at_ bytes] in Hp2. destruct Hp2 as (Ho & Hne & Hp2). rewrite Z.add_0_l in Ho.
  assert (Hall : forall m, all (before ++ Block o (p ++ m ++ r) :: after) = (all before ++ p) ++ m ++ (r ++ all after)).
  { intros m. rewrite all_app. unfold all at 2; cbn. fold (all after). rewrite !app_assoc. reflexivity. }
  assert (Hm' : memory a = Some ((all before ++ p) ++ old ++ (r ++ all after))) by (rewrite Hm, <- Hall; destruct before; reflexivity).
  rewrite Hall in Hs. rewrite !app_length in Hs.
  exists (Area (Some ((all before ++ p) ++ new ++ (r ++ all after))) (size a)). split.
  - cbn [step]. unfold get_pointer. rewrite Hm'. destruct (Z.ltb_spec (o + Z.of_nat (length p)) (size a)); [|lia].
    unfold put. rewrite Hm'. replace (Z.to_nat (o + Z.of_nat (length p))) with (length (all before ++ p)) by (rewrite app_length; lia).
    rewrite overwrite_mid by exact Hl. rewrite !app_length.
    match goal with |- context [Nat.leb ?x ?y] => destruct (Nat.leb_spec x y); [reflexivity|lia] end.
  - unfold inv. cbn [memory size]. rewrite Hall. repeat split.
    + destruct before; reflexivity.
    + rewrite !app_length; lia.
    + apply placed_app; split; [exact Hp1|]. cbn [placed at_ bytes]. repeat split.
      * lia.
      * intros E; apply (f_equal (@length byte)) in E; rewrite !app_length in E; cbn in E; lia.
      * unfold length_of in *; cbn [bytes] in *. rewrite !app_length in *. rewrite Hl. exact Hp2.
    + exact Hb.
Qed.
Lemma repeat_ne n : 0 < n -> repeat (@None Z) (Z.to_nat n) <> [].
Proof. intros H E; apply (f_equal (@length byte)) in E; rewrite repeat_length in E; cbn in E; lia. Qed.

Lemma history_inv a bs : history a bs -> inv a bs.
Proof.
  induction 1 as [|a bs n o a' _ IH Hn Hl E|a bs s more o a' _ IH Hn Hl E|a n a' _ IH E|a bs n o a' _ IH Hn Hl E|a before o p old r after new a' _ IH Hl Hn E|a bs a' _ IH E].
  - repeat split.
  - cbn [step] in E. rewrite (inv_add _ bs) in E by assumption. inversion E; subst.
    pose proof (inv_snoc _ _ (repeat None (Z.to_nat n)) IH (repeat_ne n Hn)) as Hq. rewrite repeat_length, Z2Nat.id in Hq by lia. auto.
  - cbn [step] in E. rewrite (inv_copy _ bs) in E by assumption. inversion E; subst. apply inv_snoc; assumption.
  - destruct IH as (Hm & Hs & _ & _). unfold all in Hs; cbn in Hs. cbn [step] in E. unfold add in E. rewrite Hs in E. cbn [Z.eqb] in E.
    unfold malloc in E. rewrite orb_true_r in E. inversion E; subst. repeat split.
  - cbn [step] in E. unfold add_copy in E. rewrite (inv_add _ bs) in E by assumption. inversion E; subst.
    pose proof (inv_snoc _ _ (repeat None (Z.to_nat n)) IH (repeat_ne n Hn)) as Hq. rewrite repeat_length, Z2Nat.id in Hq by lia. auto.
  - destruct (inv_write _ _ _ _ _ _ _ _ IH Hl Hn) as (b & E' & Hb). rewrite E' in E. inversion E; subst. exact Hb.
  - cbn in E. inversion E; subst. repeat split.
Qed.

Lemma inv_get a x b y : inv a (x ++ b :: y) -> get a (at_ b) (length (bytes b)) = Some (bytes b) /\ 0 <= at_ b /\ at_ b + length_of b <= size a.
Proof.
  intros (Hm & Hs & Hp & Hb). apply placed_app in Hp; destruct Hp as (_ & Ho & Hne & _). apply nonempty_pos in Hne. rewrite Z.add_0_l in Ho.
  assert (Hall : all (x ++ b :: y) = all x ++ bytes b ++ all y) by (rewrite all_app; reflexivity).
  assert (Hm' : memory a = Some (all x ++ bytes b ++ all y)) by (rewrite Hm, <- Hall; destruct x; reflexivity).
  rewrite Hall, !app_length in Hs. unfold length_of. split; [|lia].
  unfold get, get_pointer. rewrite Hm'. destruct (Z.ltb_spec (at_ b) (size a)); [|lia]. rewrite Ho, Nat2Z.id, !app_length.
  match goal with |- context [Nat.leb ?u ?v] => destruct (Nat.leb_spec u v); [|lia] end.
  rewrite skipn_app, skipn_all, Nat.sub_diag. cbn. rewrite firstn_app, Nat.sub_diag, firstn_all, firstn_O, app_nil_r. reflexivity.
Qed.
Lemma inv_apart a x b y c z : inv a (x ++ b :: y ++ c :: z) -> at_ b + length_of b <= at_ c.
Proof.
  intros (_ & _ & Hp & _). apply placed_app in Hp; destruct Hp as (_ & Ho & _ & Hp). apply placed_app in Hp; destruct Hp as (_ & Hc & _). lia.
Qed.
