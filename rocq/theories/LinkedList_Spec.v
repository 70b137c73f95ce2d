(** What a list holder should be: a sequence of elements (addresses), plus the elements that exist but
    are in no list. *)
From Verif Require Import Base LinkedList_Model.
From Coq Require Export Sorting.Permutation Sorting.Sorted.

(** The objects [l] are alive and linked one after the other, the last one to [z]. *)
Fixpoint links (h : heap) (l : list Z) (z : Z) : Prop :=
  match l with
  | [] => True
  | x :: r => x <> 0 /\ h x = Some (hd z r) /\ links h r z
  end.

(** A sorter is a total preorder: Compare(a,b) <= 0 means "a not after b". *)
Definition le_of (cmp : Z -> Z -> Z) (a b : Z) : Prop := cmp a b <= 0.
Definition total_preorder (cmp : Z -> Z -> Z) : Prop :=
  (forall a b, le_of cmp a b \/ le_of cmp b a) /\
  (forall a b c, le_of cmp a b -> le_of cmp b c -> le_of cmp a c).

(** [l'] is [l] sorted: same elements, in order, equivalent elements in their original order. *)
Definition same_class (cmp : Z -> Z -> Z) (c : Z) (a : Z) : bool := (cmp a c <=? 0) && (cmp c a <=? 0).
Definition sorted_version (cmp : Z -> Z -> Z) (l l' : list Z) : Prop :=
  Permutation l l' /\ StronglySorted (le_of cmp) l' /\
  forall c, filter (same_class cmp c) l' = filter (same_class cmp c) l.

(** Insertion before the first greater element. *)
Fixpoint insert_before_greater (cmp : Z -> Z -> Z) (p : Z) (l : list Z) : list Z :=
  match l with
  | [] => [p]
  | n :: r => if cmp n p >? 0 then p :: n :: r else n :: insert_before_greater cmp p r
  end.

Fixpoint remove1 (p : Z) (l : list Z) : list Z :=
  match l with [] => [] | x :: r => if x =? p then r else x :: remove1 p r end.

Inductive op :=
| ONew (p : Z)                             (* an element is created (its constructor sets next to NULL) *)
| OInsert (p : Z) | OInsertAt (p i : Z) | OInsertSorted (cmp : Z -> Z -> Z) (p : Z) | OAdd (p : Z) | OAddL (p : Z)
| OSearch (p : Z) | OSearchF (f : Z -> bool)
| OExtract (p : Z) | OExtractF (f : Z -> bool) | OExtractAt (i : Z)
| ODelete (p : Z) | ODeleteF (f : Z -> bool) | OSafeDeleteF (f : Z -> bool)
| OSort (cmp : Z -> Z -> Z) | OPeek (i : Z) | OSize | OIterate | OCleanUp.

Inductive res := RUnit | RBool (b : bool) | RNode (p : Z) | RSize (n : Z) | RList (l : list Z).

(** What the client must respect: only elements it owns are put in the list, indexes are uint32. *)
Definition allowed (r : Z) (l pool : list Z) (o : op) : Prop :=
  match o with
  | ONew p => p <> 0 /\ ~ In p (r :: l ++ pool)
  | OInsert p | OAdd p | OAddL p => In p pool
  | OInsertAt p i => In p pool /\ 0 <= i < 2 ^ 32
  | OInsertSorted cmp p => In p pool
  | OExtractAt i | OPeek i => 0 <= i < 2 ^ 32
  | OSort cmp => total_preorder cmp
  | _ => True
  end.

(** One operation on the sequence [l] and the elements [pool] that are in no list. *)
Inductive spec_step (l pool : list Z) : op -> list Z -> list Z -> res -> Prop :=
| SNew p : spec_step l pool (ONew p) l (p :: pool) RUnit
| SInsert p : spec_step l pool (OInsert p) (p :: l) (remove1 p pool) RUnit
| SInsertAt p i : spec_step l pool (OInsertAt p i)
    (firstn (Z.to_nat i) l ++ p :: skipn (Z.to_nat i) l) (remove1 p pool) RUnit
| SInsertSorted cmp p : spec_step l pool (OInsertSorted cmp p) (insert_before_greater cmp p l) (remove1 p pool) RUnit
| SAdd p : spec_step l pool (OAdd p) (l ++ [p]) (remove1 p pool) RUnit
| SAddL p : spec_step l pool (OAddL p) (l ++ [p]) (remove1 p pool) RUnit
| SSearchYes p : In p l -> spec_step l pool (OSearch p) l pool (RBool true)
| SSearchNo p : ~ In p l -> spec_step l pool (OSearch p) l pool (RBool false)
| SSearchF f : spec_step l pool (OSearchF f) l pool (RNode (match find f l with Some x => x | None => 0 end))
| SExtractYes p : In p l -> spec_step l pool (OExtract p) (remove1 p l) (p :: pool) (RBool true)
| SExtractNo p : ~ In p l -> spec_step l pool (OExtract p) l pool (RBool false)
| SExtractFYes f x : find f l = Some x -> spec_step l pool (OExtractF f) (remove1 x l) (x :: pool) (RNode x)
| SExtractFNo f : find f l = None -> spec_step l pool (OExtractF f) l pool (RNode 0)
| SExtractAtYes i x : nth_error l (Z.to_nat i) = Some x ->
    spec_step l pool (OExtractAt i) (firstn (Z.to_nat i) l ++ skipn (S (Z.to_nat i)) l) (x :: pool) (RNode x)
| SExtractAtNo i : nth_error l (Z.to_nat i) = None -> spec_step l pool (OExtractAt i) l pool (RNode 0)
| SDeleteYes p : In p l -> spec_step l pool (ODelete p) (remove1 p l) pool (RBool true)
| SDeleteNo p : ~ In p l -> spec_step l pool (ODelete p) l pool (RBool false)
| SDeleteF f : spec_step l pool (ODeleteF f) (filter (fun x => negb (f x)) l) pool (RBool (existsb f l))
| SSafeDeleteF f : spec_step l pool (OSafeDeleteF f) (filter (fun x => negb (f x)) l) pool (RBool (existsb f l))
| SSort cmp l' : sorted_version cmp l l' -> spec_step l pool (OSort cmp) l' pool RUnit
| SPeek i : spec_step l pool (OPeek i) l pool (RNode (nth (Z.to_nat i) l 0))
| SSize : spec_step l pool OSize l pool (RSize (Z.of_nat (length l)))
| SIterate : spec_step l pool OIterate l pool (RList l)
| SCleanUp : spec_step l pool OCleanUp [] pool RUnit.

(** The operations of the code.  The element created by [ONew] is a new object with next = NULL
    (LinkedListable.cpp:51-53). *)
Definition lift {A} (o : option (heap * holder * A)) (f : A -> res) : option (heap * holder * res) :=
  match o with None => None | Some (h, H, x) => Some (h, H, f x) end.
Definition lift0 (o : option (heap * holder)) : option (heap * holder * res) :=
  match o with None => None | Some (h, H) => Some (h, H, RUnit) end.
Definition lift1 {A} (h : heap) (H : holder) (o : option A) (f : A -> res) : option (heap * holder * res) :=
  match o with None => None | Some x => Some (h, H, f x) end.
Definition code_step (fuel : nat) (tmp : Z) (h : heap) (H : holder) (o : op) : option (heap * holder * res) :=
  match o with
  | ONew p => Some (upd h p (Some 0), H, RUnit)
  | OInsert p => lift0 (h_insert fuel h H p)
  | OInsertAt p i => lift0 (h_insert_at fuel h H p i)
  | OInsertSorted cmp p => lift0 (h_insert_sorted fuel cmp h tmp H p)
  | OAdd p => lift0 (h_add fuel h H p)
  | OAddL p => lift0 (h_addl fuel h H p)
  | OSearch p => lift1 h H (h_search fuel h H p) RBool
  | OSearchF f => lift1 h H (h_search_f fuel h H f) RNode
  | OExtract p => lift (h_extract fuel h H p) RBool
  | OExtractF f => lift (h_extract_f fuel h H f) RNode
  | OExtractAt i => lift (h_extract_at h H i) RNode
  | ODelete p => lift (h_delete fuel h H p) RBool
  | ODeleteF f => lift (h_delete_f fuel h H f) RBool
  | OSafeDeleteF f => lift (h_safe_delete fuel h H f) RBool
  | OSort cmp => match h_bsort fuel cmp h H with None => None | Some h' => Some (h', H, RUnit) end
  | OPeek i => lift1 h H (h_peek h H i) RNode
  | OSize => Some (h, H, RSize (llhSize H))
  | OIterate => lift1 h H (h_iterate fuel h H) RList
  | OCleanUp => lift0 (h_cleanup h H)
  end.

(** A history of operations of the code, with the results. *)
Fixpoint code_run (fuel : nat) (tmp : Z) (h : heap) (H : holder) (ops : list op) : option (heap * holder * list res) :=
  match ops with
  | [] => Some (h, H, [])
  | o :: r =>
    match code_step fuel tmp h H o with
    | None => None
    | Some (h1, H1, x) =>
      match code_run fuel tmp h1 H1 r with None => None | Some (h2, H2, xs) => Some (h2, H2, x :: xs) end
    end
  end.

(** The same history on the sequence: each operation must be allowed where it occurs. *)
Inductive spec_run (r : Z) : list Z -> list Z -> list op -> list Z -> list Z -> list res -> Prop :=
| RunNil l pool : spec_run r l pool [] l pool []
| RunCons l pool o ops l1 pool1 x l2 pool2 xs :
    spec_step l pool o l1 pool1 x -> spec_run r l1 pool1 ops l2 pool2 xs ->
    spec_run r l pool (o :: ops) l2 pool2 (x :: xs).

(** The client respects the rules whatever the outcome of the steps. *)
Fixpoint well_behaved (r : Z) (l pool : list Z) (ops : list op) : Prop :=
  match ops with
  | [] => True
  | o :: rest => allowed r l pool o /\
      forall l1 pool1 x, spec_step l pool o l1 pool1 x -> well_behaved r l1 pool1 rest
  end.
