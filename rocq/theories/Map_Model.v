(** Source/Core/BareMetal/L1Portability/UnorderedMap.h with its default parameters
    (initialCapacity 8, loadFactor 75), and the hash functions of L0Types.
    A key is the list of its non-zero bytes.  A bucket is the list of its entries (hash, value) in list
    order: LinkedListHolderT is used through ListAdd (append), ListPeek, ListSize, ListDelete and CleanUp,
    whose behaviour as a list is property C09.  Heap exhaustion is not modelled. *)
From Verif Require Import Base.

Definition key := list Z.

(** Fnv1aHashFunction.cpp 73-95 Compute64(in, 0) *)
Definition fnv_step (h b : Z) : Z := uwrap 64 (Z.lxor h b * 1099511628211).
Definition fnv64 (k : key) : Z := fold_left fnv_step k 14695981039346656037.
(** DjbHashFunction.cpp 73-94 Compute64(in, 0) *)
Definition djb_step (h b : Z) : Z := uwrap 64 (uwrap 64 (h * 33) + b).
Definition djb64 (k : key) : Z := fold_left djb_step k 5381.

Notation bucket V := (list (Z * V)) (only parsing).
Record umap (V : Type) := UMap { um_cap : Z; um_size : Z; um_entries : list (bucket V) }.
Arguments UMap {V}. Arguments um_cap {V}. Arguments um_size {V}. Arguments um_entries {V}.

(** 165-170 *)
Definition um_new {V} : umap V := UMap 0 0 [].

(** The loops 199-206, 226-234, 248-255: the first entry of the bucket with this hash. *)
Fixpoint bfind {V} (b : bucket V) (hash : Z) : option V :=
  match b with [] => None | (h, v) :: r => if h =? hash then Some v else bfind r hash end.
Fixpoint bdel {V} (b : bucket V) (hash : Z) : bucket V :=
  match b with [] => [] | (h, v) :: r => if h =? hash then r else (h, v) :: bdel r hash end.

Definition upd {A} (l : list A) (i : Z) (x : A) : list A :=
  firstn (Z.to_nat i) l ++ match skipn (Z.to_nat i) l with [] => [] | _ :: r => x :: r end.

(** entries[h].ListAdd(newEntry); size++ ; undefined behaviour (None) outside the array. *)
Definition um_put {V} (m : umap V) (hash : Z) (v : V) : option (umap V) :=
  let i := uwrap 32 (hash mod um_cap m) in
  match nth_error (um_entries m) (Z.to_nat i) with
  | None => None
  | Some b => Some (UMap (um_cap m) (uwrap 32 (um_size m + 1)) (upd (um_entries m) i (b ++ [(hash, v)])))
  end.

(** 282-305 Resize; a zero capacity after the doubling would be a division by zero. *)
Fixpoint um_put_all {V} (m : umap V) (l : list (Z * V)) : option (umap V) :=
  match l with
  | [] => Some m
  | (h, v) :: r => match um_put m h v with None => None | Some m => um_put_all m r end
  end.
Definition um_resize {V} (m : umap V) : option (umap V) :=
  let capacity := uwrap 32 (um_cap m * 2) in
  if capacity =? 0 then None
  else um_put_all (UMap capacity 0 (repeat [] (Z.to_nat capacity))) (concat (um_entries m)).

(** 181-192 *)
Definition um_prepare {V} (m : umap V) : option (umap V) :=
  if um_cap m =? 0 then Some (UMap 8 (um_size m) (repeat [] 8))
  else if uwrap 32 (um_size m * 100) / um_cap m >? 75 then um_resize m else Some m.

(** 180-215 Insert: (result, value after the call, map) *)
Definition um_insert {V} (H : key -> Z) (m : umap V) (k : key) (v : V) : option (bool * V * umap V) :=
  match um_prepare m with
  | None => None
  | Some m =>
    let hash := H k in
    match nth_error (um_entries m) (Z.to_nat (uwrap 32 (hash mod um_cap m))) with
    | None => None
    | Some b =>
      match bfind b hash with
      | Some w => Some (false, w, m)
      | None => match um_put m hash v with None => None | Some m => Some (true, v, m) end
      end
    end
  end.

(** 218-237 Remove *)
Definition um_remove {V} (H : key -> Z) (m : umap V) (k : key) : option (bool * umap V) :=
  if um_cap m =? 0 then Some (false, m)
  else
    let hash := H k in
    let i := uwrap 32 (hash mod um_cap m) in
    match nth_error (um_entries m) (Z.to_nat i) with
    | None => None
    | Some b =>
      match bfind b hash with
      | None => Some (false, m)
      | Some _ => Some (true, UMap (um_cap m) (uwrap 32 (um_size m - 1)) (upd (um_entries m) i (bdel b hash)))
      end
    end.

(** 240-258 Search: the value found *)
Definition um_search {V} (H : key -> Z) (m : umap V) (k : key) : option (option V) :=
  if um_cap m =? 0 then Some None
  else
    let hash := H k in
    match nth_error (um_entries m) (Z.to_nat (uwrap 32 (hash mod um_cap m))) with
    | None => None
    | Some b => Some (bfind b hash)
    end.

(** 268-274 Reset *)
Definition um_reset {V} (m : umap V) : umap V := UMap (um_cap m) 0 (repeat [] (Z.to_nat (um_cap m))).

(** A history of calls; the answer of one call. *)
Inductive mop (V : Type) := MInsert (k : key) (v : V) | MRemove (k : key) | MSearch (k : key) | MReset | MSize.
Arguments MInsert {V}. Arguments MRemove {V}. Arguments MSearch {V}. Arguments MReset {V}. Arguments MSize {V}.
Inductive mans (V : Type) := AInsert (ok : bool) (v : V) | ARemove (ok : bool) | ASearch (r : option V) | AReset | ASize (n : Z).
Arguments AInsert {V}. Arguments ARemove {V}. Arguments ASearch {V}. Arguments AReset {V}. Arguments ASize {V}.

Definition mstep {V} (H : key -> Z) (m : umap V) (o : mop V) : option (mans V * umap V) :=
  match o with
  | MInsert k v => match um_insert H m k v with None => None | Some (ok, w, m) => Some (AInsert ok w, m) end
  | MRemove k => match um_remove H m k with None => None | Some (ok, m) => Some (ARemove ok, m) end
  | MSearch k => match um_search H m k with None => None | Some r => Some (ASearch r, m) end
  | MReset => Some (AReset, um_reset m)
  | MSize => Some (ASize (um_size m), m)
  end.
Fixpoint mrun {V} (H : key -> Z) (m : umap V) (ops : list (mop V)) : option (list (mans V) * umap V) :=
  match ops with
  | [] => Some ([], m)
  | o :: r => match mstep H m o with
              | None => None
              | Some (a, m) => match mrun H m r with None => None | Some (l, m) => Some (a :: l, m) end
              end
  end.
