(** C14: the unordered map answers every call of every history as a finite map, as long as the keys used
    have different 64-bit hashes; without that it does not. *)
From Verif Require Import Base BitsBase Map_Model Map_Spec Map_Proofs.
From Coq Require Import Permutation.

Theorem C14_map_history {V} (H : key -> Z) (ops : list (mop V)) : no_collision H ops -> Z.of_nat (length ops) < 2 ^ 32 ->
  exists m, mrun H um_new ops = Some (answers [] ops, m).
Proof. apply map_history. Qed.

(** FNV-1a, the hash used by the configuration database: names that differ in exactly one byte never collide. *)
Definition byte_ok (b : Z) : Prop := 0 <= b < 256.

Lemma lxor_range64 h b : 0 <= h < 2 ^ 64 -> byte_ok b -> 0 <= Z.lxor h b < 2 ^ 64.
Proof.
  intros Hh Hb. unfold byte_ok in Hb. assert (N : 0 <= Z.lxor h b) by (apply Z.lxor_nonneg; lia). split; [auto|].
  destruct (Z.eq_dec (Z.lxor h b) 0) as [->|NZ]; [lia|]. apply Z.log2_lt_pow2; [lia|].
  pose proof (Z.log2_lxor h b ltac:(lia) ltac:(lia)).
  assert (Z.log2 h < 64) by (destruct (Z.eq_dec h 0); [subst; cbn; lia|apply Z.log2_lt_pow2; lia]).
  assert (Z.log2 b < 64) by (destruct (Z.eq_dec b 0); [subst; cbn; lia|apply Z.log2_lt_pow2; lia]). lia.
Qed.
Lemma mul_prime_inj a b : 0 <= a < 2 ^ 64 -> 0 <= b < 2 ^ 64 -> (a * 1099511628211) mod 2 ^ 64 = (b * 1099511628211) mod 2 ^ 64 -> a = b.
Proof.
  intros Ha Hb E. apply (f_equal (fun z => (z * 14886173955864302971) mod 2 ^ 64)) in E.
  rewrite !Zmult_mod_idemp_l in E. rewrite <- !Z.mul_assoc in E.
  rewrite <- (Zmult_mod_idemp_r (1099511628211 * _) a), <- (Zmult_mod_idemp_r (1099511628211 * _) b) in E.
  change ((1099511628211 * 14886173955864302971) mod 2 ^ 64) with 1 in E. rewrite !Z.mul_1_r in E.
  rewrite !Z.mod_small in E; auto.
Qed.
Lemma fnv_step_inj h h' b : 0 <= h < 2 ^ 64 -> 0 <= h' < 2 ^ 64 -> byte_ok b -> fnv_step h b = fnv_step h' b -> h = h'.
Proof.
  intros Hh Hh' Hb E. apply mul_prime_inj in E; try (apply lxor_range64; auto).
  apply (f_equal (fun z => Z.lxor z b)) in E. rewrite !Z.lxor_assoc, Z.lxor_nilpotent, !Z.lxor_0_r in E. exact E.
Qed.
Lemma fnv_step_range h b : 0 <= fnv_step h b < 2 ^ 64. Proof. apply uwrap_range. lia. Qed.
Lemma fnv_fold_inj y : Forall byte_ok y -> forall h h', 0 <= h < 2 ^ 64 -> 0 <= h' < 2 ^ 64 -> fold_left fnv_step y h = fold_left fnv_step y h' -> h = h'.
Proof.
  induction 1 as [|b y B F IH]; intros h h' Hh Hh' E; cbn [fold_left] in E; [exact E|].
  apply IH in E; try apply fnv_step_range. eapply fnv_step_inj; eauto.
Qed.
Lemma fnv_range k : 0 <= fnv64 k < 2 ^ 64.
Proof.
  unfold fnv64. assert (H : 0 <= 14695981039346656037 < 2 ^ 64) by lia. revert H. generalize 14695981039346656037 as h.
  induction k as [|b k IH]; cbn [fold_left]; intros h H; [auto|]. apply IH, fnv_step_range.
Qed.
Theorem C14_fnv_one_byte_difference x b c y : Forall byte_ok y -> byte_ok b -> byte_ok c -> b <> c ->
  fnv64 (x ++ b :: y) <> fnv64 (x ++ c :: y).
Proof.
  intros Y B C N E. unfold fnv64 in E. rewrite !fold_left_app in E. cbn [fold_left] in E.
  apply fnv_fold_inj in E; auto; try apply fnv_step_range. pose proof (fnv_range x) as R. unfold fnv64 in R.
  apply mul_prime_inj in E; try (apply lxor_range64; auto). apply N.
  apply (f_equal (Z.lxor (fold_left fnv_step x 14695981039346656037))) in E.
  rewrite <- !Z.lxor_assoc, Z.lxor_nilpotent, !Z.lxor_0_l in E. exact E.
Qed.

(** The hypothesis no_collision cannot be dropped, for either hash function of the library:
    a key never inserted is found (and inserting it is refused). *)
Definition k_aB : key := [97; 66].
Definition k_b_bang : key := [98; 33].
Theorem C14_never_inserted_is_found_djb_refuted :
  ~ (forall ops : list (mop Z), Z.of_nat (length ops) < 2 ^ 32 -> exists m, mrun djb64 um_new ops = Some (answers [] ops, m)).
Proof.
  intros H. destruct (H [MInsert k_aB 1; MSearch k_b_bang] ltac:(cbn; lia)) as [m E]. vm_compute in E. discriminate.
Qed.
(** "8yn0iYCKYHlIj4-BwPqk" and "GReLUrM4wMqfg9yzV3KQ" *)
Definition k_8y : key := [56;121;110;48;105;89;67;75;89;72;108;73;106;52;45;66;119;80;113;107].
Definition k_GR : key := [71;82;101;76;85;114;77;52;119;77;113;102;103;57;121;122;86;51;75;81].
Theorem C14_never_inserted_is_found_fnv_refuted :
  ~ (forall ops : list (mop Z), Z.of_nat (length ops) < 2 ^ 32 -> exists m, mrun fnv64 um_new ops = Some (answers [] ops, m)).
Proof.
  intros H. destruct (H [MInsert k_8y 1; MSearch k_GR] ltac:(cbn; lia)) as [m E]. vm_compute in E. discriminate.
Qed.

(** The hypotheses hold for a history that grows the table (more than 6 keys), removes and re-inserts. *)
Definition demo : list (mop Z) :=
  map (fun i => MInsert [65; i] i) [66; 67; 68; 69; 70; 71; 72; 73; 74] ++
  [MSearch [65; 70]; MInsert [65; 70] 5; MRemove [65; 70]; MSearch [65; 70]; MInsert [65; 70] 6; MSearch [65; 70]; MSearch [65; 90]; MSize; MReset; MSize].
Example C14_nonvacuous : no_collision fnv64 demo /\ Z.of_nat (length demo) < 2 ^ 32 /\
  skipn 9 (answers [] demo) = [ASearch (Some 70); AInsert false 70; ARemove true; ASearch None; AInsert true 6; ASearch (Some 6); ASearch None; ASize 9; AReset; ASize 0] /\
  exists l m, mrun fnv64 um_new (firstn 9 demo) = Some (l, m) /\ um_cap m = 16.
Proof.
  split; [|split; [cbn; lia|split; [vm_compute; reflexivity|eexists; eexists; split; vm_compute; reflexivity]]].
  intros a b Ia Ib E. 
  assert (C : forallb (fun a => forallb (fun b => if fnv64 a =? fnv64 b then key_eqb a b else true) (op_keys demo)) (op_keys demo) = true) by (vm_compute; reflexivity).
  rewrite forallb_forall in C. specialize (C a Ia). rewrite forallb_forall in C. specialize (C b Ib).
  rewrite E, Z.eqb_refl in C. apply key_eqb_true in C. exact C.
Qed.

Print Assumptions C14_map_history.
Print Assumptions C14_fnv_one_byte_difference.
Print Assumptions C14_never_inserted_is_found_djb_refuted.
Print Assumptions C14_never_inserted_is_found_fnv_refuted.
