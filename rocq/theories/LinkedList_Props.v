(** Property theorems about the intrusive lists of L0Types. *)
From Verif Require Import Base LinkedList_Model LinkedList_Spec LinkedList_Proofs LinkedList_Proofs2.

(** C09.  Any history of list operations on a new LinkedListHolder (with elements created at fresh
    addresses, put in the list only while in no list): the code never dereferences NULL or a deleted
    element, every loop ends, every result is the one the same operation gives on a sequence, and at the
    end the links are exactly that sequence, ListSize() is its length, every element taken out is cut
    loose (next = NULL), and exactly the elements in the list or outside it are still alive - none lost,
    none deleted twice. *)
Theorem C09_history : forall r tmp ops fuel, r <> 0 -> well_behaved r [] [] ops ->
  Z.of_nat (length ops) + 1 < 2 ^ 32 - 1 -> ((length ops + 3) * (length ops + 3) < fuel)%nat ->
  let start := h_new (fun _ => None) r in
  exists h H l pool xs,
    code_run fuel tmp (fst start) (snd start) ops = Some (h, H, xs) /\
    spec_run r [] [] ops l pool xs /\
    links h (r :: l) 0 /\ NoDup (r :: l ++ pool) /\
    (forall p, In p pool -> h p = Some 0) /\
    llhSize H = Z.of_nat (length l) /\
    (forall x, h x <> None -> In x (r :: l ++ pool)).
Proof.
  intros r tmp ops fuel N W B F start.
  destruct (run_ok tmp ops (fst start) (snd start) [] [] fuel (Inv_new r N) W B F) as (h & H & l & pool & xs & E & S & I & R).
  change (root (snd start)) with r in *. rewrite <- R in *. exists h, H, l, pool, xs. destruct I as [Il In_ Ip Is Iv].
  repeat (split; [first [eassumption | intros p Hp; apply Ip; exact Hp]|]). exact Iv.
Qed.
Print Assumptions C09_history.

Definition demo_ops : list op :=
  [ONew 10; ONew 20; ONew 30; ONew 40; OInsert 10; OAdd 20; OInsertAt 30 1; OSearch 30; OSize; OIterate;
   OExtract 30; OPeek 1; OInsertSorted Z.sub 30; OSort (fun a b => b - a); OIterate; ODeleteF (fun x => x =? 20);
   OExtractAt 0; OAddL 40; OSafeDeleteF (fun x => x <? 20); OIterate; OCleanUp; OSize].
Example C09_history_nonvacuous :
  let s := h_new (fun _ => None) 1 in
  match code_run 2000 2 (fst s) (snd s) demo_ops with
  | Some (_, _, xs) => xs = [RUnit; RUnit; RUnit; RUnit; RUnit; RUnit; RUnit; RBool true; RSize 3; RList [10; 30; 20];
      RBool true; RNode 20; RUnit; RUnit; RList [30; 20; 10]; RBool true; RNode 30; RUnit; RBool true; RList [40]; RUnit; RSize 0]
  | None => False
  end.
Proof. vm_compute. reflexivity. Qed.
Example C09_well_behaved_nonvacuous : well_behaved 1 [] [] [ONew 10; ONew 20; OInsert 10; OAdd 20; OSort Z.sub; OIterate].
Proof.
  cbn [well_behaved]. split; [cbn; lia|]. intros l1 p1 x1 S1; inversion S1; subst; clear S1.
  split; [cbn; intuition lia|]. intros l2 p2 x2 S2; inversion S2; subst; clear S2.
  split; [cbn; auto|]. intros l3 p3 x3 S3; inversion S3; subst; clear S3.
  split; [cbn; auto|]. intros l4 p4 x4 S4; inversion S4; subst; clear S4.
  split; [split; unfold le_of; intros; lia|]. intros l5 p5 x5 S5. split; [exact I|]. auto.
Qed.

(** C09, chains: inserting an element that already has followers inserts all of them, after position q. *)
Theorem C09_insert_chain : forall fuel h a q b p m, links h (a ++ q :: b) 0 -> links h (p :: m) 0 ->
  NoDup (a ++ q :: b ++ p :: m) -> (length m < fuel)%nat ->
  exists h', ll_insert fuel h q p = Some h' /\ links h' (a ++ q :: (p :: m) ++ b) 0 /\
    forall x, x <> q -> ~ In x (p :: m) -> h' x = h x.
Proof. exact (fun fuel h a q b p m => ll_insert_ok fuel h a q b m p). Qed.
Print Assumptions C09_insert_chain.
Theorem C09_add_chain : forall fuel h q b p m, links h (q :: b) 0 -> links h (p :: m) 0 ->
  NoDup (q :: b ++ p :: m) -> (length b < fuel)%nat ->
  exists h', ll_addl fuel h q p = Some h' /\ links h' (q :: b ++ p :: m) 0 /\
    forall x, ~ In x (q :: b) -> h' x = h x.
Proof. exact (fun fuel h q b p m => ll_addl_ok fuel h q b m p). Qed.
Print Assumptions C09_add_chain.
Definition demo_heap : heap := fun x => if x =? 1 then Some 2 else if x =? 2 then Some 0 else if x =? 7 then Some 8 else if x =? 8 then Some 0 else None.
Example C09_chain_nonvacuous : links demo_heap ([] ++ 1 :: [2]) 0 /\ links demo_heap (7 :: [8]) 0 /\ NoDup ([] ++ 1 :: [2] ++ 7 :: [8]).
Proof.
  split; [vm_compute; repeat split; lia|]. split; [vm_compute; repeat split; lia|].
  cbn. repeat constructor; cbn; lia.
Qed.

(** Appending with Add (not AddL) an element that has followers cuts the followers off: the element 8 that
    followed 7 is still alive but in no list. *)
Theorem C09_add_keeps_followers_refuted : ~ (forall fuel h q b p m, links h (q :: b) 0 -> links h (p :: m) 0 ->
  NoDup (q :: b ++ p :: m) -> (length b < fuel)%nat ->
  exists h', ll_add fuel h q p = Some h' /\ links h' (q :: b ++ p :: m) 0).
Proof.
  intros H. destruct (H 5%nat demo_heap 1 [2] 7 [8]) as (h' & E & L).
  - vm_compute; repeat split; lia.
  - vm_compute; repeat split; lia.
  - cbn. repeat constructor; cbn; lia.
  - cbn. lia.
  - vm_compute in E. injection E as <-. destruct L as (_ & _ & _ & _ & _ & L & _). vm_compute in L. discriminate.
Qed.
Print Assumptions C09_add_keeps_followers_refuted.

(** C10.  Sorting ends, keeps exactly the same elements, orders them, keeps the order of equivalent ones,
    and touches nothing else. *)
Theorem C10_sort : forall cmp fuel h H l, total_preorder cmp -> links h (root H :: l) 0 -> NoDup (root H :: l) ->
  (length l <= fuel)%nat -> Z.of_nat (length l) < 2 ^ 32 - 1 ->
  exists h' l', h_bsort fuel cmp h H = Some h' /\ links h' (root H :: l') 0 /\ sorted_version cmp l l' /\
    (forall x, ~ In x (root H :: l) -> h' x = h x).
Proof.
  intros cmp fuel h H l TP L ND Hf B. destruct (ll_bsort_ok cmp fuel h (root H) l L ND Hf B) as (h' & E & L' & F).
  exists h', (bsorted cmp l). split; [exact E|]. split; [exact L'|]. split; [apply bsorted_spec; exact TP|exact F].
Qed.
Print Assumptions C10_sort.

(** Whatever the sorter answers (it need not be an order), sorting ends and keeps exactly the same elements. *)
Theorem C10_sort_any_comparison : forall cmp fuel h H l, links h (root H :: l) 0 -> NoDup (root H :: l) ->
  (length l <= fuel)%nat -> Z.of_nat (length l) < 2 ^ 32 - 1 ->
  exists h' l', h_bsort fuel cmp h H = Some h' /\ links h' (root H :: l') 0 /\ Permutation l l' /\
    (forall x, ~ In x (root H :: l) -> h' x = h x).
Proof.
  intros cmp fuel h H l L ND Hf B. destruct (ll_bsort_ok cmp fuel h (root H) l L ND Hf B) as (h' & E & L' & F).
  exists h', (bsorted cmp l). split; [exact E|]. split; [exact L'|]. split; [|exact F].
  unfold bsorted. destruct l; [auto|]. rewrite <- bubs_perm. apply bub_perm.
Qed.
Print Assumptions C10_sort_any_comparison.

(** Sorted insertion of one element or of a whole (unsorted) chain into a sorted list. *)
Theorem C10_sorted_insert : forall cmp fuel h tmp r l p m, total_preorder cmp ->
  links h (r :: l) 0 -> links h (p :: m) 0 -> NoDup (tmp :: r :: l ++ p :: m) -> tmp <> 0 ->
  StronglySorted (le_of cmp) l -> Z.of_nat (length m) + 1 < 2 ^ 32 - 1 -> (2 * (length m + 1) + length l < fuel)%nat ->
  exists h' l', ll_insert_sorted fuel cmp h tmp r p = Some h' /\ links h' (r :: l') 0 /\
    Permutation (l ++ p :: m) l' /\ StronglySorted (le_of cmp) l' /\
    (forall x, ~ In x (tmp :: r :: l ++ p :: m) -> h' x = h x).
Proof. exact (fun cmp fuel h tmp r l p m TP => sorted_insert_ok cmp TP fuel h tmp r l p m). Qed.
Print Assumptions C10_sorted_insert.

Fixpoint chain_heap (l : list Z) : heap := fun x => match l with [] => None | y :: r => if x =? y then Some (hd 0 r) else chain_heap r x end.
Example C10_nonvacuous : total_preorder (fun a b => a mod 10 - b mod 10) /\
  exists h', h_bsort 10 (fun a b => a mod 10 - b mod 10) (chain_heap [99; 25; 12; 3; 15; 11; 2]) (Holder 99 6) = Some h' /\
    links h' [99; 11; 12; 2; 3; 25; 15] 0.
Proof.
  split; [split; unfold le_of; intros; lia|]. eexists. split; [vm_compute; reflexivity|]. vm_compute. repeat split; lia.
Qed.
