(** The sizes. *)
From Verif Require Import Base Flt_Model Flt_Spec Flt_Proofs Flt_Proofs2 Ftx_Model Ftx_Spec Ftx_Proofs Ftx_Proofs2 Fpr_Model Fpr_Spec.
From Coq Require Import Lia ZArith Bool List.
Import ListNotations.
Open Scope Z_scope.

(** the length of a number in fixed point with p significant digits *)
Definition len_fixed (e p : Z) : Z := if e <? 0 then 1 - e + p else if e + 1 <? p then p + 1 else e + 1.
Definition sg (s : bool) : Z := if s then 1 else 0.
Ltac cmp := repeat match goal with
  | |- context [?a <? ?b] => destruct (Z.ltb_spec a b)
  | |- context [?a <=? ?b] => destruct (Z.leb_spec a b)
  | |- context [?a =? ?b] => destruct (Z.eqb_spec a b)
  | H : context [?a <? ?b] |- _ => destruct (Z.ltb_spec a b)
  | H : context [?a <=? ?b] |- _ => destruct (Z.leb_spec a b)
  | H : context [?a =? ?b] |- _ => destruct (Z.eqb_spec a b)
  end.
Ltac prs := repeat match goal with H : (_, _) = (_, _) |- _ => apply pair_equal_spec in H; destruct H end.
Lemma fixed_ok e s p m size q : 0 <= p -> size_fixed e s p m = (size, q) -> 0 < q ->
  size = sg s + len_fixed e q /\ size <= m /\ (0 <= e -> e + 1 <= q <= e + 1 + p) /\ (e < 0 -> q <= p + e + 1)
  /\ (Z.abs e + 5 + p <= m -> q = e + 1 + p).
Proof. intros Hp H Hq. unfold size_fixed, len_fixed, sg in *; cbv beta zeta in *. destruct s; cmp; cbn [andb] in *; try lia; prs; lia. Qed.
Lemma fixed_next e s p m size q size' q' : 0 <= p -> size_fixed e s p m = (size, q) -> size_fixed (e + 1) s p m = (size', q') -> 0 < q' -> 0 <= q /\ q' <= q + 1.
Proof. intros Hp H H' Hq. unfold size_fixed in *; cbv beta zeta in *. destruct s; cmp; try lia; prs; lia. Qed.
Lemma fixed_zero e s p m size q : 0 <= p -> size_fixed e s p m = (size, q) -> q <= 0 -> Z.abs e + 5 + p <= m -> q = 0 /\ p + e + 1 <= 0.
Proof. intros Hp H Hq Hm. unfold size_fixed in *; cbv beta zeta in *. destruct s; cmp; try lia; prs; lia. Qed.
Lemma relative_ok e s p m size q : 0 <= p -> size_relative e s p m = (size, q) -> 0 < q ->
  size = sg s + len_fixed e q /\ size <= m /\ q <= p /\ (0 <= e -> Z.min (e + 1) p <= q) /\ (Z.abs e + 5 + p <= m -> q = p).
Proof. intros Hp H Hq. unfold size_relative, len_fixed, sg in *; cbv beta zeta in *. destruct s; cmp; cbn [andb] in *; try lia; prs; lia. Qed.
Lemma relative_next e s p m size q size' q' : 0 <= p -> size_relative e s p m = (size, q) -> size_relative (e + 1) s p m = (size', q') -> 0 < q' -> 0 <= q /\ q' <= q + 1.
Proof. intros Hp H H' Hq. unfold size_relative in *; cbv beta zeta in *. destruct s; cmp; cbn [andb] in *; try lia; prs; lia. Qed.
Lemma relative_zero e s p m size q : 0 <= p -> size_relative e s p m = (size, q) -> q <= 0 -> Z.abs e + 5 + p <= m -> q = p.
Proof. intros Hp H Hq Hm. unfold size_relative in *; cbv beta zeta in *. destruct s; cmp; cbn [andb] in *; try lia; prs; lia. Qed.
(** no room before, no room for one more digit *)
Lemma relative_room e s p p' m size q size' q' : 0 <= e -> 0 <= p -> size_relative e s p m = (size, q) -> q < 0 -> size_relative (e + 1) s p' m = (size', q') -> q' < 0.
Proof. intros He Hp H Hq H'. unfold size_relative in *; cbv beta zeta in *. destruct s; cmp; cbn [andb] in *; try lia; prs; lia. Qed.
