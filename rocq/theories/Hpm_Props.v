(** C65: the manager of the heaps, after every history of calls. *)
From Verif Require Import Base Hpm_Model Hpm_Spec Hpm_Proofs.

Lemma after H l : Forall proper l -> let (rs, st) := run H start l in
  kept st (registered l) /\ exists G, covers st G /\ forall p n, In (p, n) G <-> given rs p n.
Proof.
  intros P. pose proof (run_ok H l start [] [] kept_start start_covers P) as R. destruct (run H start l) as [rs st]. destruct R as (K & G & C & E). split; [exact K|].
  exists G. split; [exact C|]. intros p n. rewrite E. split; [intros [[]|I]; exact I|auto].
Qed.

(** A heap is registered exactly if it is not yet and there is room; it is removed exactly if it is registered. *)
Theorem C65_registry : forall H l k, Forall proper l -> let st := snd (run H start l) in
  (ok (fst (step H st (Add (Some k)))) = true <-> ~ In k (registered l) /\ (length (registered l) < 16)%nat) /\
  (ok (fst (step H st (Remove (Some k)))) = true <-> In k (registered l)) /\ ok (fst (step H st (Add None))) = false.
Proof.
  intros H l k P. pose proof (after H l P) as R. destruct (run H start l) as [rs st]. cbn [snd]. destruct R as (K & _). cbn [step].
  pose proof (add_ok st _ k K) as A. pose proof (remove_ok st _ k K) as B. destruct (add_heap st (Some k)), (remove_heap st (Some k)). cbn. destruct A as (A & _), B as (B & _). auto.
Qed.
Print Assumptions C65_registry.

(** An address goes to the smallest registered heap that contains it; if there is none, to the standard heap if it is in its range. *)
Theorem C65_find : forall H l x, addresses H -> Forall proper l -> let (rs, st) := run H start l in
  (exists k, innermost H (registered l) x k /\ find_heap H st x = Some (Reg k)) \/
  (nobody H (registered l) x /\ (find_heap H st x = Some Std \/ find_heap H st x = None) /\
   (find_heap H st x = Some Std <->
      (exists p1 n1 p2 n2, given rs p1 n1 /\ given rs p2 n2 /\ p1 <= x <= p2 + n2) \/ ((forall p n, ~ given rs p n) /\ x = 0))).
Proof.
  intros H l x A P. pose proof (after H l P) as R. destruct (run H start l) as [rs st]. destruct R as (K & G & C & E).
  destruct (find_ok H st _ x A K) as [F|(N & F)]; [left; exact F|]. right. split; [exact N|]. rewrite F. split; [destruct (owns (low st) (high st) x); auto|].
  transitivity (low st <= x <= high st).
  { unfold owns. split; [destruct ((low st <=? x) && (x <=? high st)) eqn:O; [intros _; lia|discriminate]|]. intros [L1 L2]. apply Z.leb_le in L1, L2. rewrite L1, L2. reflexivity. }
  destruct C as [(-> & -> & ->)|((p1 & n1 & I1 & ->) & (p2 & n2 & I2 & ->) & B)].
  - split; [intros; right; split; [intros p n Q; apply E in Q; exact Q|lia]|]. intros [(p1 & n1 & _ & _ & Q & _)|[_ ->]]; [apply E in Q; destruct Q|lia].
  - split.
    + intros X. left. exists p1, n1, p2, n2. repeat split; try (apply E; assumption); lia.
    + intros [(q1 & m1 & q2 & m2 & Q1 & Q2 & X)|[Q _]]; [|apply E in I1; destruct (Q _ _ I1)]. apply E, B in Q1. apply E, B in Q2. lia.
Qed.
Print Assumptions C65_find.

(** So every byte of a block that the standard heap ever gave is found in it, is freed and reallocated by it, and copied into it, unless a registered heap contains the byte. *)
Theorem C65_standard_block : forall H l p n x, addresses H -> Forall proper l -> let (rs, st) := run H start l in
  given rs p n -> p <= x < p + n -> nobody H (registered l) x ->
  find_heap H st x = Some Std /\ fst (step H st (Free x)) = Out true 0 (Some Std) 0 /\
  (forall size a, did (fst (step H st (Realloc x size a))) = Some Std) /\ (forall size len a, did (fst (step H st (Duplicate x size len None a))) = Some Std).
Proof.
  intros H l p n x A P. pose proof (C65_find H l x A P) as F. destruct (run H start l) as [rs st]. intros Gv X N.
  assert (E : find_heap H st x = Some Std).
  { destruct F as [(k & (I & Y & _) & _)|(_ & _ & F)]; [destruct (N k I Y)|]. apply F. left. exists p, n, p, n. repeat split; auto; lia. }
  split; [exact E|]. cbn [step]. unfold free, realloc, duplicate. rewrite E. split; [reflexivity|]. split; intros.
  - destruct (std_realloc st x size a). reflexivity.
  - destruct (std_duplicate st x size len a). reflexivity.
Qed.
Print Assumptions C65_standard_block.
(** And every address in a registered heap that is smaller than all the others that contain it goes to that heap. *)
Theorem C65_registered_block : forall H l k x, addresses H -> Forall proper l -> let st := snd (run H start l) in
  In k (registered l) -> inside H x k -> (forall j, In j (registered l) -> inside H x j -> j <> k -> span H k < span H j) ->
  find_heap H st x = Some (Reg k) /\ fst (step H st (Free x)) = Out true 0 (Some (Reg k)) 0 /\
  (forall size a, fst (step H st (Realloc x size a)) = Out true a (Some (Reg k)) size) /\
  (forall size len a, did (fst (step H st (Duplicate x size len None a))) = Some (Reg k)).
Proof.
  intros H l k x A P. pose proof (C65_find H l x A P) as F. destruct (run H start l) as [rs st]. cbn [snd]. intros I X M.
  assert (E : find_heap H st x = Some (Reg k)).
  { destruct F as [(j & (J & Y & Q) & F)|(N & _)]; [|destruct (N k I X)]. rewrite F. destruct (Nat.eq_dec j k) as [->|D]; [reflexivity|]. specialize (M j J Y D). specialize (Q k I X). lia. }
  split; [exact E|]. cbn [step]. unfold free, realloc, duplicate. rewrite E. repeat split.
Qed.
Print Assumptions C65_registered_block.

(** A name: with different names, the registered heap of that name allocates; the standard heap without a name. *)
Theorem C65_name : forall H l k size n p, Forall proper l -> let st := snd (run H start l) in
  In k (registered l) -> name (H k) = n -> (forall j, In j (registered l) -> name (H j) = n -> j = k) ->
  step H st (Malloc size (Some n) p) = (Out true p (Some (Reg k)) size, st).
Proof.
  intros H l k size n p P. pose proof (after H l P) as R. destruct (run H start l) as [rs st]. cbn [snd]. destruct R as (K & _). intros I E U. cbn [step]. unfold malloc.
  pose proof (find_name_ok H n (slots st)) as F. destruct (find_name H n (slots st)) as [j|].
  - destruct F as [J Q]. rewrite (U j); [reflexivity| |exact Q]. apply (kept_in _ _ _ K). exact J.
  - exfalso. apply (F k); [|exact E]. apply (kept_in _ _ _ K). exact I.
Qed.
Print Assumptions C65_name.
Theorem C65_default : forall H l size p, Forall proper l -> let st := snd (run H start l) in did (fst (step H st (Malloc size None p))) = Some Std /\
  ptr (fst (step H st (Malloc size None p))) = if size =? 0 then 0 else p.
Proof.
  intros H l size p P st. cbn [step]. unfold malloc, std_malloc. destruct (size =? 0); [split; reflexivity|]. destruct (p =? 0) eqn:E; [split; [reflexivity|cbn; lia]|split; reflexivity].
Qed.
Print Assumptions C65_default.

(** Duplicate with the name of a registered heap is done by that heap, wherever the data are. *)
Theorem C65_duplicate_name : forall H l k x size len n p, Forall proper l -> let st := snd (run H start l) in
  In k (registered l) -> name (H k) = n -> (forall j, In j (registered l) -> name (H j) = n -> j = k) ->
  exists given_size, step H st (Duplicate x size len (Some n) p) = (Out true p (Some (Reg k)) given_size, st).
Proof.
  intros H l k x size len n p P st I E U. pose proof (C65_name H l k size n p P I E U) as M. fold st in M. cbn [step] in *. unfold malloc in M. unfold duplicate.
  destruct (find_name H n (slots st)) as [j|]; [|discriminate M]. injection M as ->. eexists. reflexivity.
Qed.
Print Assumptions C65_duplicate_name.
(** Realloc of NULL allocates in the standard heap, unless a registered heap claims the address 0. *)
Theorem C65_realloc_null : forall H l size p, addresses H -> Forall proper l -> let st := snd (run H start l) in
  nobody H (registered l) 0 -> step H st (Realloc 0 size p) = step H st (Malloc size None p).
Proof.
  intros H l size p A P. pose proof (C65_find H l 0 A P) as F. destruct (run H start l) as [rs st]. cbn [snd]. intros N. cbn [step]. unfold realloc, malloc, std_realloc. cbn [Z.eqb].
  destruct F as [(k & (I & X & _) & _)|(_ & [F|F] & _)]; [destruct (N k I X)| |]; rewrite F; reflexivity.
Qed.
Print Assumptions C65_realloc_null.
(** Free of an address that is in no registered heap, and below or above all the blocks ever given, is refused and changes nothing. *)
Theorem C65_free_refused : forall H l x, addresses H -> Forall proper l -> let (rs, st) := run H start l in
  nobody H (registered l) x -> x <> 0 -> ((forall p n, given rs p n -> x < p) \/ (forall p n, given rs p n -> p + n < x)) -> step H st (Free x) = (Out false x None 0, st).
Proof.
  intros H l x A P. pose proof (C65_find H l x A P) as F. destruct (run H start l) as [rs st]. intros N NZ B. cbn [step]. unfold free.
  destruct F as [(k & (I & X & _) & _)|(_ & [F|F] & G)]; [destruct (N k I X)| |rewrite F; reflexivity].
  apply G in F. destruct F as [(p1 & n1 & p2 & n2 & G1 & G2 & X)|[_ Z0]]; [|lia]. destruct B as [B|B]; [apply B in G1|apply B in G2]; lia.
Qed.
Print Assumptions C65_free_refused.

(** The documentation says that a name that is unknown is served by the standard heap: it is not, the call returns NULL. *)
Theorem C65_unknown_name_refuted : forall H l size n p, Forall proper l -> let st := snd (run H start l) in
  (forall k, In k (registered l) -> name (H k) <> n) -> step H st (Malloc size (Some n) p) = (Out true 0 None 0, st).
Proof.
  intros H l size n p P. pose proof (after H l P) as R. destruct (run H start l) as [rs st]. cbn [snd]. destruct R as (K & _). intros U. cbn [step]. unfold malloc.
  pose proof (find_name_ok H n (slots st)) as F. destruct (find_name H n (slots st)) as [j|]; [|reflexivity]. destruct F as [J Q]. exfalso. apply (U j); [|exact Q]. apply (kept_in _ _ _ K). exact J.
Qed.
Print Assumptions C65_unknown_name_refuted.
(** RemoveHeap of NULL succeeds, although NULL is never registered, whenever there is room for one more heap. *)
Theorem C65_remove_null_refuted : forall H l, Forall proper l -> let st := snd (run H start l) in
  (ok (fst (step H st (Remove None))) = true <-> (length (registered l) < 16)%nat).
Proof.
  intros H l P. pose proof (after H l P) as R. destruct (run H start l) as [rs st]. cbn [snd]. destruct R as (K & _). cbn [step]. unfold remove_heap.
  pose proof (unset_null (slots st)) as [_ U]. destruct (unset_loop None (slots st)) as [r l']. cbn in *. rewrite U, (kept_length _ _ K). destruct K as (-> & _). tauto.
Qed.
Print Assumptions C65_remove_null_refuted.
(** Free succeeds for addresses that no heap ever gave: between two blocks of the standard heap, and after its last block. *)
Definition two : list op := [Malloc 16 None 4096; Malloc 16 None 8192].
Theorem C65_foreign_refuted : forall H, Forall proper two /\ (forall x, 4096 <= x <= 8208 -> find_heap H (snd (run H start two)) x = Some Std) /\
  (forall p n, given (fst (run H start two)) p n -> (p = 4096 \/ p = 8192) /\ n = 16) /\ fst (step H (snd (run H start two)) (Free 5000)) = Out true 0 (Some Std) 0.
Proof.
  intros H. split; [repeat constructor; cbn; unfold block_ok; lia|]. split; [|split; [|reflexivity]].
  - intros x X. cbn. unfold find_heap. cbn -[Z.leb]. unfold owns. replace (4096 <=? x) with true by lia. replace (x <=? 8208) with true by lia. reflexivity.
  - intros p n (r & I & D & <- & <- & _). cbn in I. destruct I as [<-|[<-|[]]]; cbn; lia.
Qed.
Print Assumptions C65_foreign_refuted.
(** Free of NULL: true before the first allocation, false afterwards. *)
Theorem C65_free_null_refuted : forall H, ok (fst (step H start (Free 0))) = true /\ ok (fst (step H (snd (run H start two)) (Free 0))) = false.
Proof. intros H. split; reflexivity. Qed.
Print Assumptions C65_free_null_refuted.

(** A case that meets the hypotheses: a heap in a part of a larger one, blocks of all three. *)
Definition demo (k : nat) : heap := match k with 0%nat => Heap 65536 131071 [65] | 1%nat => Heap 69632 73727 [66] | _ => Heap 0 0 [] end.
Definition story : list op := [Malloc 100 None 1048576; Add (Some 0%nat); Add (Some 1%nat); Malloc 8 (Some [66]) 69640; Realloc 1048576 200 2097152; Add (Some 0%nat)].
Example C65_case_hypotheses : addresses demo /\ Forall proper story /\ registered story = [1%nat; 0%nat] /\ given (fst (run demo start story)) 2097152 200 /\
  nobody demo (registered story) 2097200 /\ inside demo 69640 0 /\ inside demo 69640 1 /\ span demo 1 < span demo 0.
Proof.
  split; [intros [|[|k]]; cbn; lia|]. split; [repeat constructor; cbn; unfold block_ok; lia|]. split; [reflexivity|].
  split; [exists (Out true 2097152 (Some Std) 200); split; [cbn; tauto|]; repeat split; discriminate|]. split; [intros k [<-|[<-|[]]]; unfold inside; cbn; lia|]. unfold inside, span; cbn; lia.
Qed.
Example C65_case_calls : map ok (fst (run demo start story)) = [true; true; true; true; true; false] /\
  let st := snd (run demo start story) in map (fun x => find_heap demo st x) [69640; 65540; 2097200; 1048576; 4; 3000000] = [Some (Reg 1); Some (Reg 0); Some Std; Some Std; None; None] /\
  did (fst (step demo st (Free 69640))) = Some (Reg 1).
Proof. repeat split. Qed.
