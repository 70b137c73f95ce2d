(** The manager of the heaps: Source/Core/BareMetal/L1Portability/HeapManager.cpp (M) with MULTIHEAP_SUPPORT, as MakeDefaults/MakeStdLibDefs.gcc 77
    builds it; the standard heap: Source/Core/BareMetal/L1Portability/Environment/Generic/StandardHeap_Generic.cpp (S); HeapI.h, same directory as M.
    Simplified: the lock of the database always succeeds (FastLock without a timeout) and the functions are one step each; the range and the name
    of a heap that the user registers never change, and it does not override Owns; the contents of the memory are not modelled. What the C library
    or a registered heap answers to a request is an argument of the step: an address, 0 for NULL. *)
From Verif Require Import Base.

Definition address_mod := 2 ^ 64.
(** HeapI.h: FirstAddress, LastAddress and Name of a heap that is not the standard one *)
Record heap := Heap { first : Z; last : Z; name : list Z }.
Inductive who := Std | Reg (k : nat).
(** M 57 (heaps; None is NULL); S: firstAddress, lastAddress *)
Record state := State { slots : list (option nat); low : Z; high : Z }.
(** M 51, 198-203 (HeapDatabase), S 48-52 *)
Definition start : state := State (repeat None 16) 0 0.
Definition same_slot (a b : option nat) : bool :=
  match a, b with None, None => true | Some x, Some y => Nat.eqb x y | _, _ => false end.

(** HeapI.h 112-120: Owns *)
Definition owns (f l a : Z) : bool := (f <=? a) && (a <=? l).
(** M 236-275: FindHeap(address), the loop; [found] is foundHeap with foundSpan *)
Fixpoint find_loop (H : nat -> heap) (a : Z) (l : list (option nat)) (found : option (nat * Z)) : option (nat * Z) :=
  match l with
  | [] => found
  | None :: l => find_loop H a l found
  | Some k :: l =>
    if owns (first (H k)) (last (H k)) a then
      let span := uwrap 64 (last (H k) - first (H k)) in
      match found with
      | None => find_loop H a l (Some (k, span))
      | Some (_, s) => if span <? s then find_loop H a l (Some (k, span)) else find_loop H a l found
      end
    else find_loop H a l found
  end.
(** M 220-295: FindHeap(address) *)
Definition find_heap (H : nat -> heap) (st : state) (a : Z) : option who :=
  match find_loop H a (slots st) None with
  | Some (k, _) => Some (Reg k)
  | None => if owns (low st) (high st) a then Some Std else None
  end.
Fixpoint same_text (a b : list Z) : bool :=
  match a, b with [], [] => true | x :: a, y :: b => (x =? y) && same_text a b | _, _ => false end.
(** M 297-344: FindHeap(name) *)
Fixpoint find_name (H : nat -> heap) (n : list Z) (l : list (option nat)) : option nat :=
  match l with
  | [] => None
  | None :: l => find_name H n l
  | Some k :: l => if same_text (name (H k)) n then Some k else find_name H n l
  end.

(** S 75-82, 119-126, 177-184: the range after a block of [size] bytes at [p] *)
Definition note (st : state) (p size : Z) : state :=
  let lo := if (low st >? p) || (low st =? 0) then p else low st in
  let e := uwrap 64 (p + size) in
  let hi := if (high st <? e) || (high st =? 0) then e else high st in
  State (slots st) lo hi.
(** S 60-90: Malloc *)
Definition std_malloc (st : state) (size p : Z) : Z * state :=
  let pointer := if size =? 0 then 0 else p in
  if pointer =? 0 then (0, st) else (pointer, note st pointer size).
(** S 103-135: Realloc; the address that is returned *)
Definition std_realloc (st : state) (a size p : Z) : Z * state :=
  if a =? 0 then std_malloc st size p
  else if size =? 0 then (0, st)
  else if p =? 0 then (0, st) else (p, note st p size).
(** S 138-189: Duplicate; [len] is the strlen of the data *)
Definition std_duplicate (st : state) (a size len p : Z) : Z * state :=
  if a =? 0 then (0, st)
  else if size =? 0 then
    let size := uwrap 32 (len + 1) in
    if p =? 0 then (0, st) else (p, note st p size)
  else let (d, st) := std_malloc st size p in if d =? 0 then (0, st) else (d, note st d size).

(** M 163-179 (SetHeap, the slot is in range), 473-476 *)
Fixpoint set_loop (k : nat) (l : list (option nat)) : bool * list (option nat) :=
  match l with
  | [] => (false, [])
  | None :: l => (true, Some k :: l)
  | x :: l => let (r, l) := set_loop k l in (r, x :: l)
  end.
(** M 440-495: AddHeap *)
Definition add_heap (st : state) (h : option nat) : bool * state :=
  match h with
  | None => (false, st)
  | Some k => if existsb (same_slot (Some k)) (slots st) then (false, st)
              else let (r, l) := set_loop k (slots st) in (r, State l (low st) (high st))
  end.
(** M 181-196 (UnsetHeap), 505-508 *)
Fixpoint unset_loop (h : option nat) (l : list (option nat)) : bool * list (option nat) :=
  match l with
  | [] => (false, [])
  | x :: l => if same_slot x h then (true, None :: l) else let (r, l) := unset_loop h l in (r, x :: l)
  end.
(** M 497-517: RemoveHeap *)
Definition remove_heap (st : state) (h : option nat) : bool * state :=
  let (r, l) := unset_loop h (slots st) in (r, State l (low st) (high st)).

(** What a call returns: a boolean or an address, which heap did the work, and the size of the block it gave *)
Record out := Out { ok : bool; ptr : Z; did : option who; size_of : Z }.
(** M 346-363: Free; [ptr] is the pointer after it; a registered heap sets it to NULL as HeapI.h 66-72 requires *)
Definition free (H : nat -> heap) (st : state) (a : Z) : out :=
  match find_heap H st a with
  | Some w => Out true 0 (Some w) 0
  | None => Out false a None 0
  end.
(** M 365-388: Malloc *)
Definition malloc (H : nat -> heap) (st : state) (size : Z) (n : option (list Z)) (p : Z) : out * state :=
  match n with
  | None => let (d, st) := std_malloc st size p in (Out true d (Some Std) size, st)
  | Some n => match find_name H n (slots st) with
              | Some k => (Out true p (Some (Reg k)) size, st)
              | None => (Out true 0 None 0, st)
              end
  end.
(** M 390-405: Realloc *)
Definition realloc (H : nat -> heap) (st : state) (a size p : Z) : out * state :=
  match find_heap H st a with
  | Some (Reg k) => (Out true p (Some (Reg k)) size, st)
  | _ => let (d, st) := std_realloc st a size p in (Out true d (Some Std) size, st)
  end.
(** M 407-438: Duplicate *)
Definition duplicate (H : nat -> heap) (st : state) (a size len : Z) (n : option (list Z)) (p : Z) : out * state :=
  let by_name := match n with None => None | Some n => find_name H n (slots st) end in
  let chosen := match by_name with Some k => Some (Reg k) | None => find_heap H st a end in
  let given := if size =? 0 then len + 1 else size in
  match chosen with
  | Some (Reg k) => (Out true p (Some (Reg k)) given, st)
  | _ => let (d, st) := std_duplicate st a size len p in (Out true d (Some Std) given, st)
  end.

(** The calls of the API, each with the answer of the heap that does the work. *)
Inductive op :=
| Add (h : option nat) | Remove (h : option nat) | Malloc (size : Z) (n : option (list Z)) (p : Z) | Free (a : Z)
| Realloc (a size p : Z) | Duplicate (a size len : Z) (n : option (list Z)) (p : Z).
Definition step (H : nat -> heap) (st : state) (o : op) : out * state :=
  match o with
  | Add h => let (r, st) := add_heap st h in (Out r 0 None 0, st)
  | Remove h => let (r, st) := remove_heap st h in (Out r 0 None 0, st)
  | Malloc size n p => malloc H st size n p
  | Free a => (free H st a, st)
  | Realloc a size p => realloc H st a size p
  | Duplicate a size len n p => duplicate H st a size len n p
  end.
Fixpoint run (H : nat -> heap) (st : state) (l : list op) : list out * state :=
  match l with
  | [] => ([], st)
  | o :: l => let (r, st) := step H st o in let (rs, st) := run H st l in (r :: rs, st)
  end.
