(** C58: matrices. *)
From mathcomp Require Import all_ssreflect all_algebra.
From Coq Require Import ZArith Lia.
From Verif Require Import Base Mtx_Model Mtx_Spec Mtx_Loops Mtx_Memory Mtx_Algebra.
Set Implicit Arguments.
Unset Strict Implicit.
Unset Printing Implicit Defensive.
Import GRing.Theory.
Local Open Scope ring_scope.

(** The value of matrix object [v] in memory [m]: r rows, c columns. *)
Definition value (R : Type) (r c : nat) (v : view) (m : memory R) : 'M[R]_(r, c) := mx r c (fun i j => m (cell v i j)).

(** Every element of a matrix has an address of its own: in one block of at most 2^32 elements, and in rows
    that do not overlap. *)
Theorem C58_addresses :
  (forall base r c, (Z.of_nat r * Z.of_nat c <= 2 ^ 32)%Z -> apart (block base r c))
  /\ (forall ptrs c, (forall i k : nat, (i < List.length ptrs)%coq_nat -> (k < List.length ptrs)%coq_nat -> i <> k ->
        (List.nth i ptrs 0%Z + Z.of_nat c <= List.nth k ptrs 0%Z \/ List.nth k ptrs 0%Z + Z.of_nat c <= List.nth i ptrs 0%Z)%Z) ->
        apart (by_rows ptrs c)).
Proof. split; [exact: block_apart|exact: by_rows_apart]. Qed.
Print Assumptions C58_addresses.

(** Product: true exactly when the shapes fit, otherwise nothing happens; when the result shares no memory
    with the factors it becomes their product and nothing else changes.  For every ring of elements. *)
Theorem C58_product (R : ringType) (junk : R) this factor result (m : memory R) :
  let p := product (ring_ops junk) this factor result m in
  let fits := nrows factor = ncols this /\ nrows result = nrows this /\ ncols result = ncols factor in
  (p.1 = true <-> fits) /\ (p.1 = false -> p.2 = m)
  /\ (fits -> apart result -> disjoint result this -> disjoint result factor ->
      only result m p.2
      /\ value (nrows this) (ncols factor) result p.2
         = value (nrows this) (ncols this) this m *m value (ncols this) (ncols factor) factor m).
Proof.
  cbv zeta. split; [exact: product_shape|]. split; [exact: product_false|].
  move=> [E1 [E2 E3]] A D1 D2. have [m' [-> [On H]]] := product_mem (ring_ops junk) this factor result m E1 E2 E3 A D1 D2.
  split=> //=. apply/matrixP => i j. rewrite !mxE H; [|by apply/ltP..].
  transitivity (\sum_(k < ncols this) m (cell this i k) * m (cell factor k j)).
  - exact: (loop_sum (ncols this) (fun k => m (cell this i k) * m (cell factor k j))).
  - by apply: eq_bigr => k _; rewrite !mxE.
Qed.
Print Assumptions C58_product.

(** Sum: also in place. *)
Theorem C58_sum (R : ringType) (junk : R) this addend result (m : memory R) :
  let p := sum (ring_ops junk) this addend result m in
  let fits := nrows addend = nrows this /\ nrows result = nrows this /\ ncols addend = ncols this /\ ncols result = ncols this in
  (p.1 = true <-> fits) /\ (p.1 = false -> p.2 = m)
  /\ (fits -> apart result -> aligned result this -> aligned result addend ->
      only result m p.2
      /\ value (nrows this) (ncols this) result p.2
         = value (nrows this) (ncols this) this m + value (nrows this) (ncols this) addend m).
Proof.
  cbv zeta. split; [exact: sum_shape|]. split; [exact: sum_false|].
  move=> [E1 [E2 [E3 E4]]] A D1 D2. have [m' [-> [On H]]] := sum_mem (ring_ops junk) this addend result m E1 E2 E3 E4 A D1 D2.
  split=> //=. apply/matrixP => i j. rewrite !mxE H; [by []|by apply/ltP..].
Qed.
Print Assumptions C58_sum.

(** Copy, of a matrix with the same shape. *)
Theorem C58_copy (R : Type) this from (m : memory R) :
  let p := copy this from m in
  let fits := nrows from = nrows this /\ ncols from = ncols this in
  (p.1 = true <-> fits) /\ (p.1 = false -> p.2 = m)
  /\ (fits -> apart this -> aligned this from ->
      only this m p.2 /\ value (nrows this) (ncols this) this p.2 = value (nrows this) (ncols this) from m).
Proof.
  cbv zeta. split; [exact: copy_shape|]. split; [exact: copy_false|].
  move=> [E1 E2] A D. have [m' [-> [On H]]] := copy_mem this from m E1 E2 A D.
  split=> //=. apply/matrixP => i j. rewrite !mxE H; [by []|by apply/ltP..].
Qed.
Print Assumptions C58_copy.

(** SubMatrix: rows r0 to r1 and columns c0 to c1, both ends included. *)
Theorem C58_submatrix (R : Type) this r0 r1 c0 c1 sub (m : memory R) :
  let p := submatrix this r0 r1 c0 c1 sub m in
  let fits := ((r0 <= r1)%coq_nat /\ (r1 < nrows this)%coq_nat) /\ ((c0 <= c1)%coq_nat /\ (c1 < ncols this)%coq_nat)
              /\ nrows sub = (r1 - r0 + 1)%coq_nat /\ ncols sub = (c1 - c0 + 1)%coq_nat in
  (p.1 = true <-> fits) /\ (p.1 = false -> p.2 = m)
  /\ (fits -> apart sub -> disjoint sub this ->
      only sub m p.2
      /\ forall i j, (i < nrows sub)%coq_nat -> (j < ncols sub)%coq_nat -> p.2 (cell sub i j) = m (cell this (r0 + i)%coq_nat (c0 + j)%coq_nat)).
Proof.
  cbv zeta. split; [exact: submatrix_shape|]. split; [exact: submatrix_false|].
  move=> [[E1 E2] [[E3 E4] [E5 E6]]] A D. have [m' [-> [On H]]] := submatrix_mem this r0 r1 c0 c1 sub m E1 E3 E2 E4 E5 E6 A D. by [].
Qed.
Print Assumptions C58_submatrix.

(** Transpose. *)
Theorem C58_transpose (R : Type) this tr (m : memory R) :
  let p := transpose this tr m in
  let fits := nrows tr = ncols this /\ ncols tr = nrows this in
  (p.1 = true <-> fits) /\ (p.1 = false -> p.2 = m)
  /\ (fits -> apart tr -> disjoint tr this ->
      only tr m p.2 /\ value (ncols this) (nrows this) tr p.2 = (value (nrows this) (ncols this) this m)^T).
Proof.
  cbv zeta. split; [exact: transpose_shape|]. split; [exact: transpose_false|].
  move=> [E1 E2] A D. have [m' [-> [On H]]] := transpose_mem this tr m (esym E2) (esym E1) A D.
  split=> //=. apply/matrixP => i j. rewrite !mxE H; [by []|by apply/ltP..].
Qed.
Print Assumptions C58_transpose.

(** Determinant: of square matrices with at least one row, the determinant.  Partial: exact arithmetic. *)
Theorem C58_determinant_partial (F : fieldType) (junk : F) this (m : memory F) n :
  (nrows this = n.+1 -> ncols this = n.+1 -> determinant (field_ops junk) this m = Some (\det (value n.+1 n.+1 this m)))
  /\ (nrows this <> ncols this -> determinant (field_ops junk) this m = None).
Proof.
  rewrite /determinant. split.
  - move=> -> ->. by rewrite PeanoNat.Nat.eqb_refl det_mx.
  - by move=> /PeanoNat.Nat.eqb_neq ->.
Qed.
Print Assumptions C58_determinant_partial.

(** Inverse: for matrices with at least two rows, true exactly when the shapes fit and the determinant is not
    zero, and then the result is the inverse on both sides.  Partial: exact arithmetic; for a single row see
    C58_inverse_refuted. *)
Theorem C58_inverse_partial (F : fieldType) (junk : F) this inv (m : memory F) n :
  nrows this = n.+2 ->
  let p := inverse (field_ops junk) this inv m in
  (p.1 = true <-> ncols this = n.+2 /\ nrows inv = n.+2 /\ ncols inv = n.+2 /\ \det (value n.+2 n.+2 this m) <> 0)
  /\ (p.1 = false -> p.2 = m)
  /\ (p.1 = true -> apart inv -> disjoint inv this ->
      only inv m p.2
      /\ value n.+2 n.+2 this m *m value n.+2 n.+2 inv p.2 = 1%:M
      /\ value n.+2 n.+2 inv p.2 *m value n.+2 n.+2 this m = 1%:M).
Proof.
  move=> En. cbv zeta.
  have Iff : (inverse (field_ops junk) this inv m).1 = true <-> ncols this = n.+2 /\ nrows inv = n.+2 /\ ncols inv = n.+2 /\ \det (value n.+2 n.+2 this m) <> 0.
  { split.
    - move/inverse_true => [E1 [E2 [E3 [d [Hd Z0]]]]]. rewrite En in E1 E2 E3.
      rewrite (proj1 (C58_determinant_partial junk this m n.+1) En E1) in Hd. case: Hd => Hd.
      split=> //. split=> //. split=> //. rewrite Hd. move=> E. by rewrite /= E eqxx in Z0.
    - move=> [E1 [E2 [E3 Dz]]]. apply/inverse_true. rewrite E1 E2 E3 En. do 3 split=> //.
      exists (\det (value n.+2 n.+2 this m)). split; [exact: (proj1 (C58_determinant_partial junk this m n.+1) En E1)|].
      exact/eqP. }
  split=> //. split; [exact: inverse_false|]. move=> T A D. have [E1 [E2 [E3 Dz]]] := proj1 Iff T.
  set M := value n.+2 n.+2 this m.
  have Hd : determinant (field_ops junk) this m = Some (\det M) := proj1 (C58_determinant_partial junk this m n.+1) En E1.
  have Z0 : is0 (field_ops junk) (\det M) = false by apply/eqP.
  have [m' [Ep [On H]]] := inverse_mem (field_ops junk) this inv m n.+2 (\det M) En E1 E2 E3 Hd Z0 A D. rewrite Ep. split=> //=.
  have V : value n.+2 n.+2 inv m' = (\det M)^-1 *: \adj M.
  { apply/matrixP => j i. rewrite !mxE H; [|by apply/ltP..]. rewrite sign_exp /=.
    rewrite mulrC. congr (_ * _). exact: (cofactor_mx junk (fun r c => m (cell this r c)) i j). }
  have U : \det M != 0 by apply/eqP.
  split.
  - by rewrite V -scalemxAr mul_mx_adj scale_scalar_mx mulVf.
  - by rewrite V -scalemxAl mul_adj_mx scale_scalar_mx mulVf.
Qed.
Print Assumptions C58_inverse_partial.

(** ** Cases *)
Definition left_block : view := block 0 2 2.
Definition right_block : view := block 4 2 2.
Definition rows_apart : view := by_rows [:: 30%Z; 10%Z] 2.

Lemma blocks_ok : apart left_block /\ apart right_block /\ apart rows_apart
  /\ disjoint right_block left_block /\ disjoint rows_apart left_block /\ disjoint rows_apart right_block
  /\ aligned left_block left_block /\ aligned left_block right_block.
Proof.
  have A1 : apart left_block by apply: (proj1 C58_addresses).
  have A2 : apart right_block by apply: (proj1 C58_addresses).
  have in_left a : inside left_block a -> (0 <= a < 4)%Z.
  { move=> [i [j [/= Hi [Hj <-]]]]. move: Hi Hj. case: i => [|[|i]]; case: j => [|[|j]]; move=> Hi Hj; try (exfalso; lia); vm_compute; split; congruence. }
  have in_right a : inside right_block a -> (4 <= a < 8)%Z.
  { move=> [i [j [/= Hi [Hj <-]]]]. move: Hi Hj. case: i => [|[|i]]; case: j => [|[|j]]; move=> Hi Hj; try (exfalso; lia); vm_compute; split; congruence. }
  have in_rows a : inside rows_apart a -> (10 <= a < 32)%Z.
  { move=> [i [j [/= Hi [Hj <-]]]]. move: Hi Hj. case: i => [|[|i]]; case: j => [|[|j]]; move=> Hi Hj; try (exfalso; lia); vm_compute; split; congruence. }
  split=> //. split=> //. split.
  { apply: (proj2 C58_addresses) => i k /=. case: i => [|[|i]]; case: k => [|[|k]]; move=> *; try (exfalso; lia); simpl; lia. }
  split; [by move=> a /in_right H /in_left H'; lia|]. split; [by move=> a /in_rows H /in_left H'; lia|].
  split; [by move=> a /in_rows H /in_right H'; lia|]. split; [exact: A1|].
  move=> i j i' j' Hi Hj Hi' Hj' E. exfalso.
  have H1 := in_left _ (in_cell left_block i j Hi Hj). have H2 := in_right _ (in_cell right_block i' j' Hi' Hj'). lia.
Qed.

(** The matrix 2 1 / 1 1 in a block, its inverse in rows. *)
Definition sample : memory rat := fun a => if (a =? 0)%Z then 2%:Q else 1%:Q.

Example C58_inverse_case : (inverse (field_ops 0) left_block rows_apart sample).1 = true
  /\ nrows left_block = 2%N /\ apart rows_apart /\ disjoint rows_apart left_block
  /\ List.map (inverse (field_ops 0) left_block rows_apart sample).2 [:: 30; 31; 10; 11]%Z = [:: 1%:Q; - 1%:Q; - 1%:Q; 2%:Q].
Proof.
  split; [by vm_compute|]. split=> //. split; [by apply blocks_ok|]. split; [by apply blocks_ok|].
  have E x y : (x == y :> rat) -> x = y by move/eqP.
  congr (_ :: _ :: _ :: _ :: _); apply: E; by vm_compute.
Qed.
Print Assumptions C58_inverse_case.

Example C58_product_case : apart rows_apart /\ disjoint rows_apart left_block /\ disjoint rows_apart right_block
  /\ (product (ring_ops 0) left_block right_block rows_apart (fun a => (Z.to_nat a)%:Z)).1 = true
  /\ List.map (product (ring_ops 0) left_block right_block rows_apart (fun a => (Z.to_nat a)%:Z)).2 [:: 30; 31; 10; 11]%Z
     = [:: 6%:Z; 7%:Z; 26%:Z; 31%:Z].
Proof. split; [by apply blocks_ok|]. split; [by apply blocks_ok|]. split; [by apply blocks_ok|]. split; by vm_compute. Qed.
Print Assumptions C58_product_case.

Example C58_sum_case : apart left_block /\ aligned left_block left_block /\ aligned left_block right_block
  /\ List.map (sum (ring_ops 0) left_block right_block left_block (fun a => (Z.to_nat a)%:Z)).2 [:: 0; 1; 2; 3]%Z
     = [:: 4%:Z; 6%:Z; 8%:Z; 10%:Z].
Proof. split; [by apply blocks_ok|]. split; [by apply blocks_ok|]. split; [by apply blocks_ok|]. by vm_compute. Qed.

(** ** Findings *)

(** The inverse of a matrix with one row and one column is not computed: Inverse returns true and stores 0,
    whatever the element. *)
Theorem C58_inverse_refuted :
  ~ (forall (F : fieldType) (junk : F) this inv (m : memory F) n, nrows this = n.+1 -> apart inv -> disjoint inv this ->
       (inverse (field_ops junk) this inv m).1 = true ->
       value n.+1 n.+1 this m *m value n.+1 n.+1 inv (inverse (field_ops junk) this inv m).2 = 1%:M).
Proof.
  move=> H. have := H [fieldType of rat] 0 (block 0 1 1) (block 1 1 1) (fun _ => 1) 0%N erefl.
  have A : apart (block 1 1 1) by apply: (proj1 C58_addresses).
  have D : disjoint (block 1 1 1) (block 0 1 1).
  { move=> a [i [j [/= Hi [Hj <-]]]] [k [l [/= Hk [Hl]]]].
    move: Hi Hj Hk Hl. case: i => [|i]; case: j => [|j]; case: k => [|k]; case: l => [|l]; move=> Hi Hj Hk Hl; try (exfalso; lia). by vm_compute. }
  move=> /(_ A D) /(_ _). have T : (inverse (field_ops (0 : rat)) (block 0 1 1) (block 1 1 1) (fun _ => 1)).1 = true by vm_compute.
  move=> /(_ T) /matrixP /(_ ord0 ord0). rewrite !mxE big_ord1 !mxE. move/eqP. by vm_compute.
Qed.
Print Assumptions C58_inverse_refuted.

(** Whatever the element. *)
Theorem C58_inverse_one (F : fieldType) (junk : F) (x : F) : x <> 0 ->
  let p := inverse (field_ops junk) (block 0 1 1) (block 1 1 1) (fun _ => x) in p.1 = true /\ p.2 1%Z = 0.
Proof.
  move=> /eqP /negbTE N. rewrite /inverse /= N /=. split=> //. by rewrite mul0r mul0r.
Qed.
Print Assumptions C58_inverse_one.

(** A product or a transposition whose result is one of the operands returns true and gives something else. *)
Theorem C58_in_place_product_refuted :
  ~ (forall (R : ringType) (junk : R) this factor (m : memory R) n, nrows this = n -> ncols this = n -> nrows factor = n -> ncols factor = n ->
       apart this -> disjoint this factor -> (product (ring_ops junk) this factor this m).1 = true ->
       value n n this (product (ring_ops junk) this factor this m).2 = value n n this m *m value n n factor m).
Proof.
  move=> H. have := H int_Ring 0 left_block right_block (fun a => (Z.to_nat a)%:Z) 2%N erefl erefl erefl erefl.
  have D : disjoint left_block right_block by move=> a Ha Hb; exact: (proj1 (proj2 (proj2 (proj2 blocks_ok))) a Hb Ha).
  have T : (product (ring_ops (0 : int)) left_block right_block left_block (fun a => (Z.to_nat a)%:Z)).1 = true by [].
  move=> /(_ (proj1 blocks_ok) D T) /matrixP /(_ ord0 ord_max). rewrite !mxE !big_ord_recl big_ord0 !mxE. move/eqP. by vm_compute.
Qed.
Print Assumptions C58_in_place_product_refuted.

Theorem C58_in_place_transpose_refuted :
  ~ (forall (R : Type) this (m : memory R) n, nrows this = n -> ncols this = n -> apart this -> (transpose this this m).1 = true ->
       value n n this (transpose this this m).2 = (value n n this m)^T).
Proof.
  move=> H. have := H Z left_block (fun a => a) 2%N erefl erefl (proj1 blocks_ok) erefl.
  move=> /matrixP /(_ ord0 ord_max). rewrite !mxE. by vm_compute.
Qed.
Print Assumptions C58_in_place_transpose_refuted.
