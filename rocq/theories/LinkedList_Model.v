(** Source/Core/BareMetal/L0Types/LinkedListable.cpp and LinkedListHolder.cpp.

    The heap maps the address of a live LinkedListable to its [next] pointer; NULL is 0; an address that
    is not a live object has no entry.  Every function returns None when it would dereference NULL or a
    dead object (undefined behaviour), or when the loop fuel runs out (the theorems hold for all large
    enough fuel, so they include termination).  Search filters and sorters are functions of the address:
    their virtual methods are assumed not to modify the list. *)
From Verif Require Import Base.

Definition heap := Z -> option Z.

Definition upd (h : heap) (p : Z) (v : option Z) : heap := fun x => if x =? p then v else h x.

(** p->next *)
Definition nx (h : heap) (p : Z) : option Z := if p =? 0 then None else h p.
(** p->next = v *)
Definition setn (h : heap) (p v : Z) : option heap :=
  match nx h p with None => None | Some _ => Some (upd h p (Some v)) end.
(** delete p *)
Definition del (h : heap) (p : Z) : option heap :=
  match nx h p with None => None | Some _ => Some (upd h p None) end.

Notation "'do' x <- e ;; f" := (match e with None => None | Some x => f end)
  (at level 200, x pattern, e at level 100, f at level 200, right associativity).

(** LinkedListable.cpp:67-75 Size (count is a uint32). *)
Fixpoint ll_size (fuel : nat) (h : heap) (p : Z) (count : Z) : option Z :=
  match fuel with
  | O => None
  | S f => if p =? 0 then Some count else do q <- nx h p ;; ll_size f h q (uwrap 32 (count + 1))
  end.

(** while (p->next != NULL) p = p->next;  LinkedListable.cpp:123-125, 166-168, 177-179. *)
Fixpoint last_node (fuel : nat) (h : heap) (p : Z) : option Z :=
  match fuel with
  | O => None
  | S f => do n <- nx h p ;; if n =? 0 then Some p else last_node f h n
  end.

(** LinkedListable.cpp:118-128 Insert(p). *)
Definition ll_insert (fuel : nat) (h : heap) (this p : Z) : option heap :=
  if p =? 0 then Some h else
  do q <- nx h this ;;
  do h1 <- setn h this p ;;
  do l <- last_node fuel h1 p ;;
  setn h1 l q.

(** The exchange of a1 and a2 after p: LinkedListable.cpp:87-89 and 104-106. *)
Definition swap_after (h : heap) (p a1 a2 : Z) : option heap :=
  do n2 <- nx h a2 ;;
  do h1 <- setn h a1 n2 ;;
  do h2 <- setn h1 a2 a1 ;;
  setn h2 p a2.

(** LinkedListable.cpp:82-95: the first pass, which also counts. *)
Fixpoint bs_first (fuel : nat) (cmp : Z -> Z -> Z) (h : heap) (p count : Z) : option (heap * Z) :=
  match fuel with
  | O => None
  | S f =>
    do a1 <- nx h p ;;
    do a2 <- nx h a1 ;;
    if a2 =? 0 then Some (h, count)
    else
      let count := uwrap 32 (count + 1) in
      if cmp a1 a2 >? 0 then
        do h' <- swap_after h p a1 a2 ;; bs_first f cmp h' a2 count
      else bs_first f cmp h a1 count
  end.

(** LinkedListable.cpp:99-112: one further pass; [n] = index - 2 exchanges remain. *)
Fixpoint bs_pass (n : nat) (cmp : Z -> Z -> Z) (h : heap) (p : Z) : option heap :=
  match n with
  | O => Some h
  | S n' =>
    do a1 <- nx h p ;;
    do a2 <- nx h a1 ;;
    if cmp a1 a2 >? 0 then
      do h' <- swap_after h p a1 a2 ;; bs_pass n' cmp h' a2
    else bs_pass n' cmp h a1
  end.

(** LinkedListable.cpp:96-114: while (count > 2) { pass; count-- }; [n] = count - 2. *)
Fixpoint bs_passes (n : nat) (cmp : Z -> Z -> Z) (h : heap) (this : Z) : option heap :=
  match n with
  | O => Some h
  | S n' => do h' <- bs_pass n cmp h this ;; bs_passes n' cmp h' this
  end.

(** LinkedListable.cpp:77-116 BSort (sorter not NULL). *)
Definition ll_bsort (fuel : nat) (cmp : Z -> Z -> Z) (h : heap) (this : Z) : option heap :=
  do n <- nx h this ;;
  if n =? 0 then Some h else
  do (h', count) <- bs_first fuel cmp h this 1 ;;
  bs_passes (Z.to_nat (count - 2)) cmp h' this.

(** LinkedListable.cpp:144-158: merge the chain p into the list after [l]. *)
Fixpoint merge_loop (fuel : nat) (cmp : Z -> Z -> Z) (h : heap) (l p : Z) : option heap :=
  match fuel with
  | O => None
  | S f =>
    if p =? 0 then Some h else
    do n <- nx h l ;;
    if n =? 0 then setn h l p
    else if cmp n p >? 0 then
      do p' <- nx h p ;;
      do h1 <- setn h p n ;;
      do h2 <- setn h1 l p ;;
      merge_loop f cmp h2 l p'
    else merge_loop f cmp h n p
  end.

(** LinkedListable.cpp:130-161 Insert(p, sorter), sorter not NULL.  [tmp] is the address of the local
    variable root (line 139), which lives only during the call. *)
Definition ll_insert_sorted (fuel : nat) (cmp : Z -> Z -> Z) (h : heap) (tmp this p : Z) : option heap :=
  if p =? 0 then Some h else
  do pn <- nx h p ;;
  if pn =? 0 then merge_loop fuel cmp h this p
  else
    do h1 <- ll_bsort fuel cmp (upd h tmp (Some p)) tmp ;;
    do p' <- nx h1 tmp ;;
    merge_loop fuel cmp (upd h1 tmp None) this p'.

(** LinkedListable.cpp:163-172 Add. *)
Definition ll_add (fuel : nat) (h : heap) (this p : Z) : option heap :=
  if p =? 0 then Some h else
  do q <- last_node fuel h this ;;
  do h1 <- setn h q p ;;
  setn h1 p 0.

(** LinkedListable.cpp:174-182 AddL. *)
Definition ll_addl (fuel : nat) (h : heap) (this p : Z) : option heap :=
  if p =? 0 then Some h else
  do q <- last_node fuel h this ;; setn h q p.

(** LinkedListable.cpp:184-195 Search(p). *)
Fixpoint ll_search (fuel : nat) (h : heap) (q p : Z) : option bool :=
  match fuel with
  | O => None
  | S f => if q =? 0 then Some false else if q =? p then Some true else do n <- nx h q ;; ll_search f h n p
  end.

(** LinkedListable.cpp:197-212 Search(filter): NULL when no element passes. *)
Fixpoint ll_search_f (fuel : nat) (h : heap) (test : Z -> bool) (q : Z) : option Z :=
  match fuel with
  | O => None
  | S f => if q =? 0 then Some 0 else if test q then Some q else do n <- nx h q ;; ll_search_f f h test n
  end.

(** LinkedListable.cpp:219-223: while ((q->next != p) && (q->next != NULL)) q = q->next. *)
Fixpoint before_node (fuel : nat) (h : heap) (q p : Z) : option Z :=
  match fuel with
  | O => None
  | S f => do n <- nx h q ;; if (n =? p) || (n =? 0) then Some q else before_node f h n p
  end.

(** LinkedListable.cpp:214-234 Extract(p). *)
Definition ll_extract (fuel : nat) (h : heap) (this p : Z) : option (heap * bool) :=
  if p =? 0 then Some (h, false) else
  do q <- before_node fuel h this p ;;
  do n <- nx h q ;;
  if n =? 0 then Some (h, false) else
  do nn <- nx h n ;;
  do h1 <- setn h q nn ;;
  do h2 <- setn h1 p 0 ;;
  Some (h2, true).

(** LinkedListable.cpp:236-256 Extract(filter). *)
Fixpoint ll_extract_f (fuel : nat) (h : heap) (test : Z -> bool) (q : Z) : option (heap * Z) :=
  match fuel with
  | O => None
  | S f =>
    do p <- nx h q ;;
    if p =? 0 then Some (h, 0)
    else if test p then
      do pn <- nx h p ;;
      do h1 <- setn h q pn ;;
      do h2 <- setn h1 p 0 ;;
      Some (h2, p)
    else ll_extract_f f h test p
  end.

(** LinkedListable.cpp:258-264 Delete(p). *)
Definition ll_delete (fuel : nat) (h : heap) (this p : Z) : option (heap * bool) :=
  do (h1, r) <- ll_extract fuel h this p ;;
  if r then do h2 <- del h1 p ;; Some (h2, true) else Some (h1, false).

(** LinkedListable.cpp:266-284 Delete(filter). *)
Fixpoint ll_delete_f (fuel : nat) (h : heap) (test : Z -> bool) (q deleted : Z) : option (heap * Z) :=
  match fuel with
  | O => None
  | S f =>
    do p <- nx h q ;;
    if p =? 0 then Some (h, deleted)
    else if test p then
      do pn <- nx h p ;;
      do h1 <- setn h q pn ;;
      do h2 <- del h1 p ;;
      ll_delete_f f h2 test q (uwrap 32 (deleted + 1))
    else ll_delete_f f h test p deleted
  end.

(** LinkedListable.cpp:286-293 Peek: the loop runs at most index times, so index is the fuel. *)
Fixpoint ll_peek (index : nat) (h : heap) (p : Z) : option Z :=
  match index with
  | O => Some p
  | S i => if p =? 0 then Some 0 else do n <- nx h p ;; ll_peek i h n
  end.

(** LinkedListable.cpp:295-303 Iterate: the elements visited, in order. *)
Fixpoint ll_iterate (fuel : nat) (h : heap) (p : Z) (seen : list Z) : option (list Z) :=
  match fuel with
  | O => None
  | S f => if p =? 0 then Some seen else do n <- nx h p ;; ll_iterate f h n (seen ++ [p])
  end.

(** ** LinkedListHolder: the address of llhRoot and the value of llhSize. *)
Record holder := Holder { root : Z; llhSize : Z }.

(** LinkedListHolder.cpp:60-64 (llhRoot.next = NULL). *)
Definition h_new (h : heap) (r : Z) : heap * holder := (upd h r (Some 0), Holder r 0).

(** 87-93 *)
Definition h_insert (fuel : nat) (h : heap) (H : holder) (p : Z) : option (heap * holder) :=
  if p =? 0 then Some (h, H) else
  do n <- ll_size fuel h p 0 ;;
  do h1 <- ll_insert fuel h (root H) p ;;
  Some (h1, Holder (root H) (uwrap 32 (llhSize H + n))).

(** 96-103 *)
Definition h_insert_sorted (fuel : nat) (cmp : Z -> Z -> Z) (h : heap) (tmp : Z) (H : holder) (p : Z) : option (heap * holder) :=
  if p =? 0 then Some (h, H) else
  do n <- ll_size fuel h p 0 ;;
  do h1 <- ll_insert_sorted fuel cmp h tmp (root H) p ;;
  Some (h1, Holder (root H) (uwrap 32 (llhSize H + n))).

(** 109-113: while ((p->Next() != NULL) && (index > 0)) { p = p->Next(); index--; } *)
Fixpoint walk (index : nat) (h : heap) (p : Z) : option Z :=
  do n <- nx h p ;;
  if n =? 0 then Some p
  else match index with O => Some p | S i => walk i h n end.

(** 105-117 *)
Definition h_insert_at (fuel : nat) (h : heap) (H : holder) (q index : Z) : option (heap * holder) :=
  if q =? 0 then Some (h, H) else
  do p <- walk (Z.to_nat index) h (root H) ;;
  do n <- ll_size fuel h q 0 ;;
  do h1 <- ll_insert fuel h p q ;;
  Some (h1, Holder (root H) (uwrap 32 (llhSize H + n))).

(** 119-125 *)
Definition h_add (fuel : nat) (h : heap) (H : holder) (p : Z) : option (heap * holder) :=
  if p =? 0 then Some (h, H) else
  do h1 <- ll_add fuel h (root H) p ;;
  Some (h1, Holder (root H) (uwrap 32 (llhSize H + 1))).

(** 127-133 *)
Definition h_addl (fuel : nat) (h : heap) (H : holder) (p : Z) : option (heap * holder) :=
  if p =? 0 then Some (h, H) else
  do n <- ll_size fuel h p 0 ;;
  do h1 <- ll_addl fuel h (root H) p ;;
  Some (h1, Holder (root H) (uwrap 32 (llhSize H + n))).

(** 135-138 *)
Definition h_search (fuel : nat) (h : heap) (H : holder) (p : Z) : option bool :=
  do r <- nx h (root H) ;; if r =? 0 then Some false else ll_search fuel h r p.
(** 140-143 *)
Definition h_search_f (fuel : nat) (h : heap) (H : holder) (test : Z -> bool) : option Z :=
  do r <- nx h (root H) ;; if r =? 0 then Some 0 else ll_search_f fuel h test r.

(** 145-155 *)
Definition h_extract (fuel : nat) (h : heap) (H : holder) (p : Z) : option (heap * holder * bool) :=
  do (h1, r) <- ll_extract fuel h (root H) p ;;
  if r then Some (h1, Holder (root H) (uwrap 32 (llhSize H - 1)), true) else Some (h1, H, false).

(** 157-163 *)
Definition h_extract_f (fuel : nat) (h : heap) (H : holder) (test : Z -> bool) : option (heap * holder * Z) :=
  do (h1, p) <- ll_extract_f fuel h test (root H) ;;
  if p =? 0 then Some (h1, H, 0) else Some (h1, Holder (root H) (uwrap 32 (llhSize H - 1)), p).

(** 165-173 *)
Definition h_delete (fuel : nat) (h : heap) (H : holder) (p : Z) : option (heap * holder * bool) :=
  do (h1, r) <- ll_delete fuel h (root H) p ;;
  if r then Some (h1, Holder (root H) (uwrap 32 (llhSize H - 1)), true) else Some (h1, H, false).

(** 175-179 *)
Definition h_delete_f (fuel : nat) (h : heap) (H : holder) (test : Z -> bool) : option (heap * holder * bool) :=
  do (h1, n) <- ll_delete_f fuel h test (root H) 0 ;;
  Some (h1, Holder (root H) (uwrap 32 (llhSize H - n)), n >? 0).

(** 185-201 *)
Fixpoint safe_delete_loop (fuel : nat) (h : heap) (H : holder) (test : Z -> bool) (p deleted : Z)
  : option (heap * holder * Z) :=
  match fuel with
  | O => None
  | S f =>
    if p =? 0 then Some (h, H, deleted)
    else if test p then
      do (h1, H1, r) <- h_extract f h H p ;;
      if r then
        do h2 <- del h1 p ;;
        do p' <- nx h2 (root H1) ;;
        safe_delete_loop f h2 H1 test p' (uwrap 32 (deleted + 1))
      else do n <- nx h1 p ;; safe_delete_loop f h1 H1 test n deleted
    else do n <- nx h p ;; safe_delete_loop f h H test n deleted
  end.
(** 181-204 *)
Definition h_safe_delete (fuel : nat) (h : heap) (H : holder) (test : Z -> bool) : option (heap * holder * bool) :=
  do p <- nx h (root H) ;;
  do (h1, H1, n) <- safe_delete_loop fuel h H test p 0 ;; Some (h1, H1, n >? 0).

(** 206-208 *)
Definition h_bsort (fuel : nat) (cmp : Z -> Z -> Z) (h : heap) (H : holder) : option heap := ll_bsort fuel cmp h (root H).

(** 210-212 *)
Definition h_peek (h : heap) (H : holder) (index : Z) : option Z :=
  do r <- nx h (root H) ;; if r =? 0 then Some 0 else ll_peek (Z.to_nat index) h r.

(** 216-221: while ((p != NULL) && (index > 0)) { p = p->Next(); index--; } *)
Definition h_extract_at (h : heap) (H : holder) (index : Z) : option (heap * holder * Z) :=
  do p <- ll_peek (Z.to_nat index) h (root H) ;;
  if p =? 0 then Some (h, H, 0) else
  do q <- nx h p ;;
  if q =? 0 then Some (h, H, 0) else
  do qn <- nx h q ;;
  do h1 <- setn h p qn ;;
  do h2 <- setn h1 q 0 ;;
  Some (h2, Holder (root H) (uwrap 32 (llhSize H - 1)), q).

(** 42-58 CleanUp: deletes at most llhSize elements, then Reset. *)
Fixpoint cleanup_loop (n : nat) (h : heap) (p : Z) : option heap :=
  match n with
  | O => Some h
  | S m => if p =? 0 then Some h else
           do q <- nx h p ;; do h1 <- del h p ;; cleanup_loop m h1 q
  end.
Definition h_cleanup (h : heap) (H : holder) : option (heap * holder) :=
  do p <- nx h (root H) ;;
  do h1 <- cleanup_loop (Z.to_nat (llhSize H)) h p ;;
  do h2 <- setn h1 (root H) 0 ;;
  Some (h2, Holder (root H) 0).

(** 238-242 *)
Definition h_iterate (fuel : nat) (h : heap) (H : holder) : option (list Z) :=
  do r <- nx h (root H) ;; if r =? 0 then Some [] else ll_iterate fuel h r [].
