(** The loops as matrix algebra (mathcomp). *)
From mathcomp Require Import all_ssreflect all_algebra.
From Verif Require Mtx_Model Mtx_Spec Mtx_Loops.
Set Implicit Arguments.
Unset Strict Implicit.
Unset Printing Implicit Defensive.
Import GRing.Theory.
Local Open Scope ring_scope.

(** The exact arithmetic of a field, and of a ring (whose division, absent, is never used). *)
Definition field_ops (F : fieldType) (junk : F) : Mtx_Model.ops F :=
  @Mtx_Model.Ops F 0 1 (fun x y => x + y) (fun x y => x * y) (fun x => - x) (fun x y => x / y) (fun x => x == 0) junk.

Definition ring_ops (R : ringType) (junk : R) : Mtx_Model.ops R :=
  @Mtx_Model.Ops R 0 1 (fun x y => x + y) (fun x y => x * y) (fun x => - x) (fun x _ => x) (fun x => x == 0) junk.

(** The matrix with r rows and c columns whose element (i, j) is [a i j]. *)
Definition mx (R : Type) (r c : nat) (a : nat -> nat -> R) : 'M[R]_(r, c) := \matrix_(i, j) a i j.

Lemma loop_sum (R : zmodType) (n : nat) (g : nat -> R) :
  Mtx_Model.loop n (fun k acc => acc + g k) 0 = \sum_(k < n) g k.
Proof. by elim: n => [|n IH] /=; rewrite ?big_ord0 // big_ord_recr /= IH. Qed.

Lemma skip_bump k m : Mtx_Spec.skip k m = bump k m.
Proof.
  rewrite /Mtx_Spec.skip /bump. case: PeanoNat.Nat.ltb_spec => H.
  - have ->: (k <= m)%N = false by apply/negbTE; rewrite -ltnNge; apply/ltP. by [].
  - have ->: (k <= m)%N by apply/leP. by [].
Qed.

Lemma sign_exp (F : fieldType) (j : F) k : Mtx_Model.sign (field_ops j) k = (-1) ^+ k.
Proof.
  rewrite /Mtx_Model.sign /=. have ->: PeanoNat.Nat.even k = ~~ odd k.
  { elim: k => [|k IH] //. by rewrite PeanoNat.Nat.even_succ -PeanoNat.Nat.negb_even IH oddS. }
  by rewrite -signr_odd; case: (odd k); rewrite ?expr1 ?expr0.
Qed.

Lemma det_mx (F : fieldType) (j : F) n : forall a, Mtx_Model.det (field_ops j) n.+1 a = \det (mx n.+1 n.+1 a).
Proof.
  elim: n => [|n IH] a.
  - by rewrite [mx _ _ _]mx11_scalar det_scalar1 mxE.
  - rewrite Mtx_Loops.det_SS (expand_det_row _ ord0).
    transitivity (\sum_(k < n.+2) Mtx_Model.sign (field_ops j) k * a 0%N k
       * Mtx_Model.det (field_ops j) n.+1 (Mtx_Model.first_minor (field_ops j) n.+2 k a)).
    { exact: (loop_sum n.+2 (fun k => Mtx_Model.sign (field_ops j) k * a 0%N k
       * Mtx_Model.det (field_ops j) n.+1 (Mtx_Model.first_minor (field_ops j) n.+2 k a))). }
    apply: eq_bigr => k _. rewrite IH sign_exp /cofactor mxE /= add0n.
    rewrite [_ * a _ _]mulrC -mulrA. congr (_ * (_ * \det _)).
    apply/matrixP => r c. rewrite !mxE Mtx_Loops.first_minor_spec /=.
    + by rewrite skip_bump.
    + apply/ltP. exact: ltn_ord.
    + apply/ltP. exact: ltn_ord.
    + apply/ltP. exact: ltn_ord.
Qed.

Lemma cofactor_mx (F : fieldType) (j0 : F) n (a : nat -> nat -> F) (i j : 'I_n.+2) :
  Mtx_Model.det (field_ops j0) n.+1 (fun r c => a (Mtx_Spec.skip i r) (Mtx_Spec.skip j c)) * (-1) ^+ (i + j)
  = cofactor (mx n.+2 n.+2 a) i j.
Proof.
  rewrite det_mx /cofactor mulrC. congr (_ * \det _). apply/matrixP => r c. by rewrite !mxE !skip_bump.
Qed.
