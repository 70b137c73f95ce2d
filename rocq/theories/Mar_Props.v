(** C71: blocks of a growing memory keep their place and their contents. *)
From Verif Require Import Base Mar_Model Mar_Spec Mar_Proofs.
From Coq Require Import List ZArith Lia Bool.
Import ListNotations.
Open Scope Z_scope.

(** Over every history every block reads, at the offset that the call gave, what the program last stored in it; the blocks do not overlap, lie in the order
    in which they were asked for, and fill the area exactly *)
Theorem C71_kept_partial : forall a bs, history a bs ->
  (forall b, In b bs -> get a (at_ b) (length (bytes b)) = Some (bytes b) /\ 0 <= at_ b /\ at_ b + length_of b <= size a) /\
  (forall x b y c z, bs = x ++ b :: y ++ c :: z -> at_ b + length_of b <= at_ c) /\
  size a = total bs.
Proof.
  intros a bs H. apply history_inv in H. repeat split.
  - destruct (in_split _ _ H0) as (x & y & ->). apply (inv_get _ _ _ _ H).
  - destruct (in_split _ _ H0) as (x & y & ->). apply (inv_get _ _ _ _ H).
  - destruct (in_split _ _ H0) as (x & y & ->). apply (inv_get _ _ _ _ H).
  - intros x b y c z ->. apply (inv_apart _ _ _ _ _ _ H).
  - rewrite total_all. apply H.
Qed.
Print Assumptions C71_kept_partial.

(** After every history a request that the heap grants succeeds and gives the end of the area; a copy too; writing inside a block is defined; Free empties *)
Theorem C71_serves_partial : forall a bs, history a bs ->
  (forall n, 0 < n -> size a + n < 2 ^ 32 -> exists a', step true a (AddNew n) = Some (true, Some (size a), a') /\ size a' = size a + n) /\
  (forall s more, s <> [] -> size a + Z.of_nat (length s) < 2 ^ 32 ->
     exists a', step true a (AddCopy (Some (s ++ more)) (Z.of_nat (length s))) = Some (true, Some (size a), a') /\ size a' = size a + Z.of_nat (length s)) /\
  (forall x o p old r y new, bs = x ++ Block o (p ++ old ++ r) :: y -> length new = length old -> new <> [] ->
     exists a', step true a (Write (o + Z.of_nat (length p)) new) = Some (true, None, a') /\ size a' = size a) /\
  (exists a', step true a Free = Some (true, None, a') /\ size a' = 0 /\ memory a' = None) /\
  (forall offset, 0 <= offset -> (exists p, get_pointer a offset = Some p) /\ (get_pointer a offset = Some (Inside offset) <-> offset < size a)).
Proof.
  intros a bs H. apply history_inv in H. split; [|split; [|split; [|split]]].
  - intros n Hn Hl. cbn [step]. rewrite (inv_add _ bs) by assumption. eexists; split; reflexivity.
  - intros s more Hn Hl. cbn [step]. rewrite (inv_copy _ bs) by assumption. eexists; split; reflexivity.
  - intros x o p old r y new -> Hl Hn. destruct (inv_write _ _ _ _ _ _ _ _ H Hl Hn) as (a' & E & Hi). exists a'. split; [exact E|].
    destruct H as (_ & -> & _), Hi as (_ & -> & _). rewrite !all_app. unfold all; cbn. rewrite !app_length, Hl. reflexivity.
  - eexists; repeat split.
  - intros offset Hoff. unfold get_pointer. destruct H as (Hm & Hs & Hp & _). destruct (Z.ltb_spec offset (size a)).
    + rewrite Hm. destruct bs; [unfold all in Hs; cbn in Hs; lia|]. split; [eexists; reflexivity|tauto].
    + split; [eexists; reflexivity|]. split; [discriminate|lia].
Qed.
Print Assumptions C71_serves_partial.

(** A refused request, then three blocks (two bytes copied, three reserved, one copied), then the middle of the second is written *)
Definition story_area : area := Area (Some [Some 7; Some 8; None; Some 5; None; Some 9]) 6.
Definition story_blocks : list block := [Block 0 [Some 7; Some 8]; Block 2 [None; Some 5; None]; Block 5 [Some 9]].
Example story : history story_area story_blocks.
Proof.
  assert (H0 : history (Area None 0) []) by (eapply (H_refused empty 4); [constructor|vm_compute; reflexivity]).
  assert (H1 : history (Area (Some [Some 7; Some 8]) 2) ([] ++ [Block 0 [Some 7; Some 8]])).
  { eapply (H_store _ [] [Some 7; Some 8] [Some 1]); [exact H0|discriminate|vm_compute; reflexivity|vm_compute; reflexivity]. }
  assert (H2 : history (Area (Some [Some 7; Some 8; None; None; None]) 5) (([] ++ [Block 0 [Some 7; Some 8]]) ++ [Block 2 (repeat None (Z.to_nat 3))])).
  { eapply (H_reserve _ _ 3); [exact H1|reflexivity|vm_compute; reflexivity|vm_compute; reflexivity]. }
  assert (H3 : history (Area (Some [Some 7; Some 8; None; None; None; Some 9]) 6)
                 ((([] ++ [Block 0 [Some 7; Some 8]]) ++ [Block 2 (repeat None (Z.to_nat 3))]) ++ [Block 5 [Some 9]])).
  { eapply (H_store _ _ [Some 9] []); [exact H2|discriminate|vm_compute; reflexivity|vm_compute; reflexivity]. }
  eapply (H_write _ [Block 0 [Some 7; Some 8]] 2 [None] [None] [None] [Block 5 [Some 9]] [Some 5]); [exact H3|reflexivity|discriminate|vm_compute; reflexivity].
Qed.
Example story_reads : get story_area 2 3 = Some [None; Some 5; None] /\ get story_area 5 1 = Some [Some 9] /\ total story_blocks = 6.
Proof. repeat split. Qed.

(** Finding: when the heap refuses to grow the area, the blocks given before are lost, although the call only had to fail: the area still reports its size,
    and GetPointer computes an address from NULL. This happens after every history with a block *)
Theorem C71_refused_growth_refuted : forall a bs n, history a bs -> bs <> [] ->
  exists a', step false a (AddNew n) = Some (false, None, a') /\ size a' = size a /\
    forall b, In b bs -> get_pointer a' (at_ b) = None.
Proof.
  intros a bs n H Hne. pose proof (history_inv _ _ H) as (Hm & Hs & Hp & Hb).
  destruct bs as [|b0 bs]; [congruence|]. pose proof (all_pos _ _ Hp) as Hpos.
  exists (Area None (size a)). split; [|split; [reflexivity|]].
  - cbn [step]. unfold add. destruct (Z.eqb_spec (size a) 0); [lia|]. rewrite Hm. unfold realloc. rewrite orb_true_r. reflexivity.
  - intros b Hin. unfold get_pointer. cbn [size memory].
    destruct (in_split _ _ Hin) as (x & y & E). rewrite E in H. pose proof (inv_get _ _ _ _ (history_inv _ _ H)) as (_ & _ & Hle).
    apply history_inv in H. destruct H as (_ & _ & Hq & _). apply placed_app in Hq. destruct Hq as (_ & _ & Hq & _). apply nonempty_pos in Hq.
    unfold length_of in Hle. destruct (Z.ltb_spec (at_ b) (size a)); [reflexivity|lia].
Qed.
Print Assumptions C71_refused_growth_refuted.
Example refused_case : history story_area story_blocks /\ story_blocks <> [].
Proof. split; [exact story|discriminate]. Qed.

(** Finding: if the heap grants the request after that, the call succeeds and the earlier blocks read as memory that was never written *)
Theorem C71_silent_loss_refuted : exists a1 a2, step false story_area (AddNew 4) = Some (false, None, a1) /\
  step true a1 (AddNew 4) = Some (true, Some 6, a2) /\ get a2 0 2 = Some [None; None].
Proof. do 2 eexists. split; [reflexivity|]. split; reflexivity. Qed.
Print Assumptions C71_silent_loss_refuted.

(** Finding: a request that takes the size over 2^32 succeeds: the area shrinks and the offset given is outside of it *)
Theorem C71_overflow_refuted : exists a offset, step true story_area (AddNew (2 ^ 32 - 4)) = Some (true, Some offset, a) /\
  size a < offset /\ get_pointer a offset = Some Null /\ get a 5 1 = None.
Proof. do 2 eexists. split; [vm_compute; reflexivity|]. vm_compute. repeat split. Qed.
Print Assumptions C71_overflow_refuted.

(** Finding: a request for no bytes fails on an empty area and succeeds on another, where its offset has no address *)
Theorem C71_zero_refuted : step true empty (AddNew 0) = Some (false, None, empty) /\
  forall a bs, history a bs -> bs <> [] -> exists a', step true a (AddNew 0) = Some (true, Some (size a), a') /\ get_pointer a' (size a) = Some Null.
Proof.
  split; [reflexivity|]. intros a bs H Hne. apply history_inv in H. destruct H as (Hm & Hs & Hp & Hb). destruct bs as [|b bs]; [congruence|].
  pose proof (all_pos _ _ Hp) as Hpos. cbn [step]. unfold add. destruct (Z.eqb_spec (size a) 0); [lia|]. rewrite Z.add_0_r, uwrap_id by lia.
  rewrite Hm. unfold realloc. destruct (Z.eqb_spec (size a) 0); [lia|]. cbn [orb negb]. eexists; split; [reflexivity|].
  unfold get_pointer; cbn [size memory]. rewrite Z.ltb_irrefl. reflexivity.
Qed.
Print Assumptions C71_zero_refuted.

(** Finding: a copy from NULL fails and yet takes its bytes from the area *)
Theorem C71_null_source_refuted : forall a bs n, history a bs -> 0 < n -> size a + n < 2 ^ 32 ->
  exists a' offset, step true a (AddCopy None n) = Some (false, Some offset, a') /\ size a' = size a + n.
Proof. intros a bs n H Hn Hl. apply history_inv in H. cbn [step]. unfold add_copy. rewrite (inv_add _ bs) by assumption. do 2 eexists; split; reflexivity. Qed.
Print Assumptions C71_null_source_refuted.
Example null_source_case : history story_area story_blocks /\ size story_area + 4 < 2 ^ 32.
Proof. split; [exact story|reflexivity]. Qed.
