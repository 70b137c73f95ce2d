(** The binary tree: Source/Core/BareMetal/L1Portability/BinaryTree.h, with the hash functions of L0Types.
    An identifier is the list of its non-zero bytes. The two StaticList of the tree are lists: their behaviour as lists is property C11; what the heap
    answers, when one of them grows, is an argument of the calls (true: there is memory). The sizes are uint32. A result None: memory is accessed
    out of its bounds, or the loop does not end within the given number of turns. *)
From Verif Require Import Base.

Definition ident := list Z.
(** DjbHashFunction.cpp 50-71 Compute(in, 0) *)
Definition djb32 (k : ident) : Z := fold_left (fun h b => uwrap 32 (uwrap 32 (h * 33) + b)) k 5381.
(** Fnv1aHashFunction.cpp 49-71 Compute(in, 0) *)
Definition fnv32 (k : ident) : Z := fold_left (fun h b => uwrap 32 (Z.lxor h b * 16777619)) k 2166136261.

Notation len l := (Z.of_nat (length l)).
(** BinaryTree.h 117-125: myKeyList, myList *)
Record tree (V : Type) := Tree { keys : list Z; vals : list V }.
Arguments Tree {V}. Arguments keys {V}. Arguments vals {V}.

(** StaticList.h 239-243: operator[]; behind the last element, the last one *)
Definition item {A} (l : list A) (pos : Z) : option A :=
  let e := uwrap 32 (len l - 1) in
  nth_error l (Z.to_nat (if pos >? e then e else pos)).
(** StaticListHolder.cpp 139-184: Insert; [mem] is the answer of the heap *)
Definition insert_at {A} (l : list A) (pos : Z) (x : A) (mem : bool) : bool * list A :=
  if pos >? len l then (false, l)
  else if mem then (true, firstn (Z.to_nat pos) l ++ x :: skipn (Z.to_nat pos) l) else (false, l).
(** StaticListHolder.cpp 208-235: Remove *)
Definition remove_at {A} (l : list A) (pos : Z) : list A :=
  if pos >=? len l then l else firstn (Z.to_nat pos) l ++ skipn (Z.to_nat pos + 1) l.

(** BinaryTree.h 221-248: the loop of BinarySearch *)
Fixpoint search_loop (fuel : nat) (l : list Z) (key range_1 range index : Z) : option (bool * Z) :=
  match fuel with
  | O => None
  | S fuel =>
    if range_1 >? 0 then
      match item l index with
      | None => None
      | Some k =>
        if key =? k then Some (true, index)
        else if key <? k then
          let rem := range mod 2 in
          let range_1 := range in
          let index := if rem =? 1 then uwrap 32 (index - 1) else index in
          let range := range_1 / 2 in
          search_loop fuel l key range_1 range (uwrap 32 (index - range))
        else
          let rem_1 := range_1 mod 2 in
          let range_1 := range in
          let range_1 := if rem_1 =? 0 then uwrap 32 (range_1 - 1) else range_1 in
          let range := range_1 / 2 in
          search_loop fuel l key range_1 range (uwrap 32 (index + uwrap 32 (range + 1)))
      end
    else Some (false, index)
  end.
(** BinaryTree.h 214-250: BinarySearch *)
Definition binary_search {V} (t : tree V) (key : Z) : option (bool * Z) :=
  let range_1 := len (vals t) in
  let range := range_1 / 2 in
  search_loop (S (length (vals t))) (keys t) key range_1 range range.

(** The calls; [Get] is operator[] with an identifier ([x]: the value of the variable without an initial value, 192), [At] operator[] with a position. *)
Inductive op (V : Type) :=
| Insert (id : ident) (v : V) (mem1 mem2 : bool) | Remove (id : ident) | Search (id : ident) | At (pos : Z) | Get (id : ident) (x : V) (mem1 mem2 : bool) | Reset | Size.
Arguments Insert {V}. Arguments Remove {V}. Arguments Search {V}. Arguments At {V}. Arguments Get {V}. Arguments Reset {V}. Arguments Size {V}.
Inductive out (V : Type) := Done (b : bool) (i : Z) | Value (v : V) | Nothing.
Arguments Done {V}. Arguments Value {V}. Arguments Nothing {V}.

(** BinaryTree.h 146-158 (Insert), 160-171 (Remove), 173-178 (Search), 180-183 and 185-197 (operator[]), 199-207 (Reset), 209-212 (GetSize) *)
Definition step {V} (H : ident -> Z) (t : tree V) (o : op V) : option (out V * tree V) :=
  match o with
  | Insert id v mem1 mem2 =>
    match binary_search t (H id) with
    | None => None
    | Some (true, i) => Some (Done false i, t)
    | Some (false, i) =>
      let (ret, ks) := insert_at (keys t) i (H id) mem1 in
      if ret then let (ret, vs) := insert_at (vals t) i v mem2 in Some (Done ret i, Tree ks vs)
      else Some (Done false i, t)
    end
  | Remove id =>
    match binary_search t (H id) with
    | None => None
    | Some (false, i) => Some (Done false 0, t)
    | Some (true, i) => Some (Done true 0, Tree (remove_at (keys t) i) (remove_at (vals t) i))
    end
  | Search id => match binary_search t (H id) with None => None | Some (b, i) => Some (Done b i, t) end
  | At pos => match item (vals t) pos with None => None | Some v => Some (Value v, t) end
  | Get id x mem1 mem2 =>
    match binary_search t (H id) with
    | None => None
    | Some (b, i) =>
      let t := if b then t else Tree (snd (insert_at (keys t) i (H id) mem1)) (snd (insert_at (vals t) i x mem2)) in
      match item (vals t) i with None => None | Some v => Some (Value v, t) end
    end
  | Reset => Some (Nothing, Tree [] [])
  | Size => Some (Done true (len (vals t)), t)
  end.
Fixpoint run {V} (H : ident -> Z) (t : tree V) (l : list (op V)) : option (list (out V) * tree V) :=
  match l with
  | [] => Some ([], t)
  | o :: l => match step H t o with
              | None => None
              | Some (r, t) => match run H t l with None => None | Some (rs, t) => Some (r :: rs, t) end
              end
  end.
