(** C70: the check of a value against its attributes. *)
From Verif Require Import Vbt_Model Vbt_Spec Vbt_Proofs.
From Coq Require Import List Arith ZArith Lia Bool.
Import ListNotations.
Open Scope Z_scope.

(** A scalar, a vector or a square matrix is accepted if and only if every element meets the attributes. *)
Theorem C70_validate_partial v a : proper a -> complete v -> kd v <> Other -> (kd v = Int false 32 -> dims v = 0%nat) -> (dims v = 2%nat -> n0 v = n1 v) ->
  exists b, validate v (Some a) = Some b /\ (b = true <-> Forall (meets (kd v) a) (elements v)).
Proof. apply validate_ok. Qed.
Print Assumptions C70_validate_partial.

(** The number of characters of an integer is one number. *)
Theorem C70_written z : Z.abs z < 2 ^ 64 -> exists c, written z c /\ forall c', written z c' -> c' = c.
Proof. intros B. exists (length_n z). split; [apply written_iff; auto|]. intros c'. apply written_iff. exact B. Qed.
Print Assumptions C70_written.

(** Cases that meet the hypotheses: a vector of int16, a square matrix of rows, strings. *)
Definition none : limits := Limits None None None None None None None None.
Definition band : limits := Limits (Some 100) (Some (-100)) None None None None (Some 1) (Some 3).
Definition words : limits := Limits None None None (Some [109]) (Some [98]) None None (Some 2).
Definition vec (k : kind) (l : list elem) : value := Value k 1 (length l) 1 1 true l [].
Definition grid (k : kind) (r : list (list elem)) : value := Value k 2 (length (hd [] r)) (length r) 1 false [] r.
Example C70_cases : complete (vec (Int true 16) [Num 5; Num (-20); Num 100]) /\ validate (vec (Int true 16) [Num 5; Num (-20); Num 100]) (Some band) = Some true
  /\ validate (vec (Int true 16) [Num 5; Num (-20); Num 101]) (Some band) = Some false /\ validate (vec (Int true 16) [Num 5; Num (-100)]) (Some band) = Some false
  /\ complete (grid Chr [[Num 65; Num 66]; [Num 67; Num 68]]) /\ validate (grid Chr [[Num 65; Num 66]; [Num 67; Num 68]]) (Some band) = Some true
  /\ validate (grid Chr [[Num 65; Num 66]; [Num 67; Num 101]]) (Some band) = Some false
  /\ complete (vec Str [Ptr (Some [99; 99]); Ptr (Some [109])]) /\ validate (vec Str [Ptr (Some [99; 99]); Ptr (Some [109])]) (Some words) = Some true
  /\ validate (vec Str [Ptr (Some [99; 99]); Ptr (Some [109; 97])]) (Some words) = Some false /\ validate (vec Str [Ptr (Some [97])]) (Some words) = Some false
  /\ proper band /\ proper words.
Proof.
  repeat split; try reflexivity; cbn; try (repeat constructor; cbn; lia); try lia; intros s E; injection E as <-; lia.
Qed.
(** Every attribute counts. *)
Example C70_attributes : validate (vec (Int false 8) [Num 7]) (Some (Limits (Some 7) (Some 7) (Some [1; 7]) None None None (Some 1) (Some 1))) = Some true
  /\ validate (vec (Int false 8) [Num 7]) (Some (Limits None None (Some [1; 8]) None None None None None)) = Some false
  /\ validate (vec (Int true 64) [Num (- 2 ^ 63)]) (Some (Limits None None None None None None (Some 20) (Some 20))) = Some true
  /\ validate (vec Str [Ptr (Some [65])]) (Some (Limits None None None None None (Some [[66]; [65]]) None None)) = Some true
  /\ validate (vec Str [Ptr (Some [65])]) (Some (Limits None None None None None (Some [[66]; [65; 65]]) None None)) = Some false
  /\ validate (vec Chr [Num 65]) (Some (Limits None None (Some [66]) None None None None None)) = Some false.
Proof. repeat split. Qed.

Definition top10 : limits := Limits (Some 10) None None None None None None None.
(** In a vector of uint32 only the first element is checked, again and again. *)
Theorem C70_uint32_refuted : ~ (forall v a, proper a -> complete v -> dims v = 1%nat -> kd v = Int false 32 -> validate v (Some a) = Some true -> Forall (meets (kd v) a) (elements v)).
Proof.
  intros H. specialize (H (vec (Int false 32) [Num 5; Num 1000]) top10). cbn in H.
  assert (X : Forall (meets (Int false 32) top10) [Num 5; Num 1000]).
  { apply H; try reflexivity; [intros s E; discriminate|]. split; [repeat constructor|]; cbn; lia. }
  apply Forall_inv_tail, Forall_inv in X. destruct X as [(X & _) _]. specialize (X 10 eq_refl). lia.
Qed.
Print Assumptions C70_uint32_refuted.
(** In a matrix with more columns than rows the columns beyond the number of rows are not checked. *)
Theorem C70_matrix_refuted : ~ (forall v a, proper a -> complete v -> dims v = 2%nat -> kd v = Int true 32 -> static v = true -> validate v (Some a) = Some true -> Forall (meets (kd v) a) (elements v)).
Proof.
  intros H. specialize (H (Value (Int true 32) 2 3 2 1 true [Num 1; Num 2; Num 1000; Num 3; Num 4; Num 1000] []) top10).
  assert (X : Forall (meets (Int true 32) top10) [Num 1; Num 2; Num 1000; Num 3; Num 4; Num 1000]).
  { apply H; try reflexivity; [intros s E; discriminate|]. split; [repeat constructor|]; cbn; lia. }
  do 2 apply Forall_inv_tail in X. apply Forall_inv in X. destruct X as [(X & _) _]. specialize (X 10 eq_refl). lia.
Qed.
Print Assumptions C70_matrix_refuted.
(** In a matrix of rows with more rows than columns the check reads beyond the end of the rows. *)
Theorem C70_rows_refuted : ~ (forall v a, proper a -> complete v -> dims v = 2%nat -> static v = false -> kd v = Int true 32 -> validate v (Some a) <> None).
Proof.
  intros H. apply (H (grid (Int true 32) [[Num 1; Num 2]; [Num 3; Num 4]; [Num 5; Num 6]]) top10); try reflexivity; [intros s E; discriminate|].
  split; [repeat constructor|]; cbn; repeat split; repeat constructor.
Qed.
Print Assumptions C70_rows_refuted.
(** With three dimensions, with a type that is not known, with attributes that cannot be parsed and for a NULL string, nothing is checked and the value is accepted. *)
Theorem C70_accepted_refuted : (forall v a, dims v = 3%nat -> validate v (Some a) = Some true)
  /\ (forall v, validate v None = Some true)
  /\ (forall a e, e <> Ptr None -> validate (vec Other [e]) (Some a) = Some true)
  /\ (forall a, validate (vec Str [Ptr None]) (Some a) = Some true).
Proof.
  split; [|split; [reflexivity|split; [|reflexivity]]].
  - intros v a D. assert (C : forall i j, check a v i j = Some (true, true)) by (intros i j; unfold check, element; rewrite D; reflexivity).
    unfold validate. rewrite D. cbn [pred count nth_error]. assert (N : forall i n j, columns a v i j n = Some (true, true)) by (intros i; induction n; intros j; cbn [columns]; [reflexivity|rewrite C; apply IHn]).
    assert (M : forall m n i, lines a v i m n = Some (true, true)) by (induction m; intros n i; cbn [lines]; [reflexivity|rewrite N; apply IHm]). rewrite M. reflexivity.
  - intros a e E. destruct e as [z|[t|]]; [reflexivity|reflexivity|congruence].
Qed.
Print Assumptions C70_accepted_refuted.
