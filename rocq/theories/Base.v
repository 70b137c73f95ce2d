(** Shared conventions: fixed-width integers over Z with explicit wrap-around,
    and arithmetic automation. *)
From Coq Require Export ZArith List Bool Lia.
From Coq Require Export ZifyBool ZifyNat.
Export ListNotations.
Open Scope Z_scope.

(** Value of [z] after conversion to an unsigned integer of [w] bits (C++ modular conversion). *)
Definition uwrap (w z : Z) : Z := z mod 2 ^ w.

(** Value of [z] after conversion to a two's complement signed integer of [w] bits. *)
Definition swrap (w z : Z) : Z := (z + 2 ^ (w - 1)) mod 2 ^ w - 2 ^ (w - 1).

(** The integer types of the code: intN/uintN with N bits (GeneralDefinitions: int8..uint64). *)
Record ity := ITy { ibits : Z; isgn : bool }.

Definition imin (t : ity) : Z := if isgn t then - 2 ^ (ibits t - 1) else 0.
Definition imax (t : ity) : Z := if isgn t then 2 ^ (ibits t - 1) - 1 else 2 ^ ibits t - 1.
Definition in_ty (t : ity) (z : Z) : Prop := imin t <= z <= imax t.

(** C++ conversion static_cast<T>(z): modular. *)
Definition cast (t : ity) (z : Z) : Z := if isgn t then swrap (ibits t) z else uwrap (ibits t) z.

(** The widths for which the code instantiates its templates. *)
Definition std_ty (t : ity) : Prop := ibits t = 8 \/ ibits t = 16 \/ ibits t = 32 \/ ibits t = 64.

Lemma uwrap_range w z : 0 <= w -> 0 <= uwrap w z < 2 ^ w.
Proof. intros H; unfold uwrap; apply Z.mod_pos_bound; lia. Qed.

Lemma uwrap_id w z : 0 <= z < 2 ^ w -> uwrap w z = z.
Proof. intros H; unfold uwrap; apply Z.mod_small; lia. Qed.

Lemma pow2_half w : 0 < w -> 2 ^ w = 2 * 2 ^ (w - 1).
Proof. intros H. replace w with (Z.succ (w - 1)) at 1 by lia. rewrite Z.pow_succ_r by lia. reflexivity. Qed.

Lemma swrap_range w z : 0 < w -> - 2 ^ (w - 1) <= swrap w z <= 2 ^ (w - 1) - 1.
Proof.
  intros H; unfold swrap. pose proof (pow2_half w H).
  assert (0 < 2 ^ (w - 1)) by lia.
  pose proof (Z.mod_pos_bound (z + 2 ^ (w - 1)) (2 ^ w) ltac:(lia)). lia.
Qed.

Lemma swrap_id w z : 0 < w -> - 2 ^ (w - 1) <= z <= 2 ^ (w - 1) - 1 -> swrap w z = z.
Proof.
  intros H Hz; unfold swrap. pose proof (pow2_half w H).
  rewrite Z.mod_small; lia.
Qed.

Lemma cast_range t z : 0 < ibits t -> in_ty t (cast t z).
Proof.
  intros H; unfold in_ty, cast, imin, imax; destruct (isgn t).
  - pose proof (swrap_range (ibits t) z H); lia.
  - pose proof (uwrap_range (ibits t) z ltac:(lia)); lia.
Qed.

Lemma cast_id t z : 0 < ibits t -> in_ty t z -> cast t z = z.
Proof.
  unfold in_ty, cast, imin, imax; intros H Hz; destruct (isgn t).
  - apply swrap_id; lia.
  - apply uwrap_id; lia.
Qed.

Lemma swrap_mod w z : 0 < w -> swrap w z mod 2 ^ w = z mod 2 ^ w.
Proof.
  intros H. unfold swrap.
  rewrite Zminus_mod_idemp_l. f_equal. lia.
Qed.

Lemma cast_mod t z : 0 < ibits t -> cast t z mod 2 ^ ibits t = z mod 2 ^ ibits t.
Proof.
  intros H; unfold cast; destruct (isgn t).
  - apply swrap_mod; lia.
  - unfold uwrap. apply Zmod_mod.
Qed.

Lemma cast_eq_mod t a b : 0 < ibits t -> a mod 2 ^ ibits t = b mod 2 ^ ibits t -> cast t a = cast t b.
Proof.
  intros H E; unfold cast, swrap, uwrap; destruct (isgn t); [|exact E].
  f_equal. rewrite <- (Zplus_mod_idemp_l a), <- (Zplus_mod_idemp_l b), E. reflexivity.
Qed.
