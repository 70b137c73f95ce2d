(** C63: the database of the threads over every history of registrations, removals and queries. *)
From Coq Require Import String Permutation.
From Verif Require Import Base Tdb_Model Tdb_Spec Tdb_Proofs Tdb_Proofs2.

(** Every history of calls is defined, and every call answers as a collection of threads answers: nothing is lost, duplicated or invented. *)
Theorem C63_registry_partial : forall cs, Forall sane cs -> memory_kept cs -> Z.of_nat (List.length cs) < 2 ^ 28 ->
  exists rs d live, run start cs = Some (rs, d) /\ answers [] cs rs live /\ number d = Z.of_nat (List.length live).
Proof.
  intros cs S M L. destruct (reaches cs S M L) as (rs & d & live & R & A & I & _). exists rs, d, live. repeat split; auto.
  destruct I as [[-> ->]|(t & -> & _)]; reflexivity.
Qed.
Print Assumptions C63_registry_partial.

(** After any history, the indexes below NumberOfThreads give each registered thread exactly once. *)
Theorem C63_enumeration : forall cs rs d, Forall sane cs -> memory_kept cs -> Z.of_nat (List.length cs) < 2 ^ 28 -> run start cs = Some (rs, d) ->
  exists live, answers [] cs rs live /\
    Permutation (map (fun k => thread_id d (Z.of_nat k)) (seq 0 (Z.to_nat (number d)))) (map (fun i => Some (tid i)) live).
Proof.
  intros cs rs d S M L R0. destruct (reaches cs S M L) as (rs' & d' & live & R & A & I & Lv & _). rewrite R in R0. injection R0 as -> ->.
  exists live. split; [exact A|]. destruct I as [[-> ->]|(t & -> & Hn & P & T & Md & B)]; [constructor|].
  unfold number. cbn [n_of]. rewrite Nat2Z.id.
  assert (E : map (fun k => thread_id (Db (Z.of_nat (List.length live)) (Z.of_nat (List.length t)) (Some t)) (Z.of_nat k)) (seq 0 (List.length live)) = map (fun i => Some (tid i)) (occ t)).
  { replace (seq 0 (List.length live)) with (seq 0 (List.length (occ t))) by (rewrite (Permutation_length P); reflexivity).
    assert (Lo : Z.of_nat (List.length (occ t)) < 2 ^ 28) by (rewrite <- (Permutation_length P); lia).
    rewrite (map_ext_in _ (fun k => match nth_error (map (fun i => Some (tid i)) (occ t)) k with Some x => x | None => None end)).
    - rewrite <- (map_length (fun i => Some (tid i)) (occ t)). generalize (map (fun i => Some (tid i)) (occ t)) as l. clear. intros l.
      assert (G : forall a, map (fun k => match nth_error (a ++ l) k with Some x => x | None => None end) (seq (List.length a) (List.length l)) = l).
      { induction l as [|x l IH]; intros a; cbn [List.length seq map]; [reflexivity|]. rewrite nth_error_app2, Nat.sub_diag by lia. cbn [nth_error]. f_equal.
        specialize (IH (a ++ [x])). rewrite app_length, <- app_assoc in IH. cbn [List.length app] in IH. replace (List.length a + 1)%nat with (S (List.length a)) in IH by lia. exact IH. }
      exact (G []).
    - intros k Hk. apply in_seq in Hk. rewrite thread_id_at by (assumption || lia). rewrite Nat2Z.id, nth_error_map.
      destruct (nth_error (occ t) k) eqn:E; [reflexivity|]. apply nth_error_None in E. lia. }
  rewrite E. apply Permutation_map. symmetry. exact P.
Qed.
Print Assumptions C63_enumeration.

(** Once NewEntry refuses a thread although there is memory, nothing has changed, so it refuses every thread until one is removed. *)
Theorem C63_refused_forever : forall cs rs d i d', Forall sane cs -> memory_kept cs -> Z.of_nat (List.length cs) < 2 ^ 28 -> run start cs = Some (rs, d) ->
  new_entry true d i = Some (false, d') -> d' = d /\ forall j m, new_entry m d j = Some (false, d).
Proof.
  intros cs rs d i d' S M L R0 N. destruct (reaches cs S M L) as (rs' & d0 & live & R & A & I & Lv & _). rewrite R in R0. injection R0 as -> ->.
  unfold new_entry in *. destruct I as [[-> ->]|(t & -> & Hn & P & T & Md & B)]; [rewrite alloc_first in N; discriminate|].
  assert (Le : Z.of_nat (List.length live) <= Z.of_nat (List.length t)) by (rewrite (Permutation_length P); pose proof (occ_length t); lia).
  assert (N1 : 1 <= Z.of_nat (List.length live)) by (destruct live; [congruence|cbn; lia]).
  assert (Lo : Z.of_nat (List.length (occ t)) = Z.of_nat (List.length live)) by (rewrite (Permutation_length P); reflexivity).
  destruct (Z.eq_dec (Z.of_nat (List.length live)) (Z.of_nat (List.length t))) as [E|E].
  - exfalso. rewrite (alloc_grow t (Z.of_nat (List.length live)) E T) in N by lia. cbn [n_of max_of] in N.
    assert (Lt : Z.of_nat (List.length (t ++ repeat Free 64)) = Z.of_nat (List.length t) + 64) by (rewrite app_length, repeat_length; lia).
    rewrite <- Lt, Nat2Z.id in N. replace (Z.of_nat (List.length live) <? Z.of_nat (List.length (t ++ repeat Free 64))) with true in N by lia.
    destruct (new_spec i (t ++ repeat Free 64) (Z.of_nat (List.length live))) as [(u & S0 & _)|[_ E2]]; try lia.
    + apply Forall_app. split; [exact T|apply tidy_free].
    + rewrite occ_app, occ_free, app_nil_r. exact Lo.
    + rewrite S0 in N. discriminate.
  - rewrite alloc_none in N by lia. cbn [n_of max_of] in N. rewrite Nat2Z.id in N. replace (Z.of_nat (List.length live) <? Z.of_nat (List.length t)) with true in N by lia.
    destruct (new_spec i t (Z.of_nat (List.length live)) T Lo ltac:(lia) ltac:(lia)) as [(u & S0 & _)|[S0 E2]]; rewrite S0 in N; [discriminate|].
    injection N as <-. split; [reflexivity|]. intros j m. rewrite alloc_none by lia. cbn [n_of max_of]. rewrite Nat2Z.id. replace (Z.of_nat (List.length live) <? Z.of_nat (List.length t)) with true by lia.
    (* the search does not depend on the thread *)
    assert (G : forall fuel k b d1, new_loop fuel (Db (Z.of_nat (List.length live)) (Z.of_nat (List.length t)) (Some t)) i k = Some (false, d1) ->
      b = j -> new_loop fuel (Db (Z.of_nat (List.length live)) (Z.of_nat (List.length t)) (Some t)) b k = Some (false, d1)).
    { induction fuel as [|fuel IH]; intros k b d1 H ->; cbn [new_loop n_of max_of entries] in *; [discriminate|].
      destruct (k =? _); [exact H|]. destruct (read (Some t) k) as [[|x|]|]; try discriminate.
      - destruct (write (Some t) k (Used i)); discriminate.
      - apply (IH _ j d1 H eq_refl).
      - apply (IH _ j d1 H eq_refl). }
    exact (G _ _ j _ S0 eq_refl).
Qed.
Print Assumptions C63_refused_forever.

Open Scope string_scope. Open Scope list_scope. Open Scope Z_scope.
Definition worker (k : nat) : info := Info (1000 + Z.of_nat k) (1 + Z.of_nat k) "worker".
(** The full promise, that a thread is registered whenever there is memory, is false: with the 64 places of the table taken, the end of the
    thread at the last but one leaves a free place that is never looked at. *)
Theorem C63_registered_refuted :
  exists cs rs d i, Forall sane cs /\ memory_kept cs /\ Z.of_nat (List.length cs) < 2 ^ 28 /\ run start cs = Some (rs, d) /\ number d = 63 /\
    step d (New i true) = Some (RBool false, d).
Proof.
  exists (map (fun k => New (worker k) true) (seq 0 64) ++ [Remove 63]).
  eexists _, _, (worker 99). split; [|split; [|split; [vm_compute; reflexivity|split; [vm_compute; reflexivity|split; vm_compute; reflexivity]]]].
  - apply Forall_app. split; [|repeat constructor]. apply Forall_forall. intros c H. apply in_map_iff in H. destruct H as (k & <- & _). unfold sane, worker, tid. lia.
  - intros a i b rs d E. exfalso. assert (H : In (New i false) (map (fun k => New (worker k) true) (seq 0 64) ++ [Remove 63])) by (rewrite E; apply in_or_app; right; left; reflexivity).
    apply in_app_or in H. destruct H as [H|[H|[]]]; [|discriminate]. apply in_map_iff in H. destruct H as (k & H & _). discriminate.
Qed.
Print Assumptions C63_registered_refuted.

(** Without memory for the 65th thread, the table is lost: the next look into it goes through a NULL pointer. *)
Theorem C63_no_memory_refuted :
  exists cs, Forall sane cs /\ run start cs = None /\ (exists rs d, run start (removelast cs) = Some (rs, d) /\ number d = 64).
Proof.
  exists (map (fun k => New (worker k) true) (seq 0 64) ++ [New (worker 64) false; Get 1]). split; [|split].
  - apply Forall_app. split; [|repeat constructor; cbn; lia]. apply Forall_forall. intros c H. apply in_map_iff in H. destruct H as (k & <- & _). unfold sane, worker, tid. lia.
  - vm_compute. reflexivity.
  - eexists _, _. split; vm_compute; reflexivity.
Qed.
Print Assumptions C63_no_memory_refuted.

(** The largest index is not refused: GetThreadID reads out of the table, for every history. *)
Theorem C63_largest_index_refuted : forall cs rs d, Forall sane cs -> memory_kept cs -> Z.of_nat (List.length cs) < 2 ^ 28 -> run start cs = Some (rs, d) ->
  thread_id d (2 ^ 32 - 1) = None.
Proof.
  intros cs rs d S M L R0. destruct (reaches cs S M L) as (rs' & d' & live & R & A & I & Lv & _). rewrite R in R0. injection R0 as -> ->.
  unfold thread_id. change (u32 (2 ^ 32 - 1 + 1)) with 0.
  assert (E : forall fuel, count_loop fuel d 0 0 = Some (0, 0)) by (intros [|fuel]; reflexivity). rewrite E. cbn [Z.eqb negb]. change (u32 (0 - 1)) with 4294967295.
  destruct I as [[-> ->]|(t & -> & Hn & P & T & Md & B)]; [reflexivity|]. cbn [entries]. unfold read. replace (4294967295 <? Z.of_nat (List.length t))%Z with false by lia.
  rewrite andb_false_r. reflexivity.
Qed.
Print Assumptions C63_largest_index_refuted.

(** A history that meets the hypotheses, with the refusal for lack of memory, and its answers. *)
Definition history : list call :=
  [New (worker 0) false; New (worker 0) true; New (worker 1) true; New (Info 7 9 "timer") true; Number; Remove 1; Remove 1; Get 2; Id 0; Id 1; Id 2; InfoAt 1; Find "timer"; Find "none"; Remove 2; Remove 9; Number].
Example C63_history_meets :
  Forall sane history /\ memory_kept history /\
  exists d, run start history = Some ([RBool false; RBool true; RBool true; RBool true; RNum 3; RInfo (Some (worker 0)); RInfo None; RInfo (Some (worker 1)); RNum 2; RNum 9; RNum 0;
    RInfo (Some (Info 7 9 "timer")); RNum 9; RNum 0; RInfo (Some (worker 1)); RInfo (Some (Info 7 9 "timer")); RNum 0], d) /\ d = start.
Proof.
  split; [|split].
  - repeat constructor; cbn; lia.
  - intros a i b rs d E R. destruct a as [|c a]; [injection R as <- <-; reflexivity|]. exfalso. injection E as _ E.
    do 16 (destruct a as [|? a]; [discriminate E|injection E as _ E]). destruct a; discriminate E.
  - eexists. split; vm_compute; reflexivity.
Qed.
