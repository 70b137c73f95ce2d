(** The database of the threads: Source/Core/Scheduler/L1Portability/Environment/Generic/ThreadsDatabase_Generic.cpp, with the constant of
    Source/Core/BareMetal/L1Portability/Environment/Linux/GeneralDefinitions.h, the allocations of StandardHeap_Generic.cpp (same
    directory tree) through HeapManager.cpp, compiled without several heaps.
    Simplified: the functions are called one at a time (Lock and UnLock, 151-158, are what Threads.cpp puts around them; Threads::FindByIndex
    does not); the pointer given to NewEntry is not NULL; the identifier and the name of a registered thread do not change; names are compared
    as texts (StringHelper::Compare).
    A result None: the C++ behaviour is undefined (NULL table, index out of the table, memory not initialised, endless loop). *)
From Coq Require Import String.
From Verif Require Import Base.

(** ThreadInformation: its address, its thread identifier, its name *)
Record info := Info { addr : Z; tid : Z; name : string }.
(** A pointer of the table: NULL, an entry, or what malloc rest there *)
Inductive cell := Free | Used (i : info) | Junk.
(** 52-66: nOfEntries, maxNOfEntries, entries (None: NULL) *)
Record db := Db { n_of : Z; max_of : Z; entries : option (list cell) }.
Definition start : db := Db 0 0 None.
Definition u32 (z : Z) : Z := uwrap 32 z.
(** Linux/GeneralDefinitions.h 45; size of a pointer *)
Definition granularity : Z := 64.
Definition pointer_size : Z := 8.

(** entries[index] *)
Definition read (e : option (list cell)) (i : Z) : option cell :=
  match e with
  | None => None
  | Some t => if (0 <=? i) && (i <? Z.of_nat (List.length t)) then
                match nth_error t (Z.to_nat i) with Some Junk => None | r => r end
              else None
  end.
Fixpoint set_nth (t : list cell) (k : nat) (c : cell) : list cell :=
  match t, k with
  | [], _ => []
  | _ :: t, O => c :: t
  | x :: t, S k => x :: set_nth t k c
  end.
(** entries[index] = c *)
Definition write (e : option (list cell)) (i : Z) (c : cell) : option (list cell) :=
  match e with
  | None => None
  | Some t => if (0 <=? i) && (i <? Z.of_nat (List.length t)) then Some (set_nth t (Z.to_nat i) c) else None
  end.
(** StandardHeap::Malloc and Realloc (StandardHeap_Generic.cpp 60-90, 103-135) of [size] bytes, if there is memory *)
Definition malloc (memory : bool) (size : Z) : option (list cell) :=
  if memory && negb (size =? 0) then Some (repeat Junk (Z.to_nat (size / pointer_size))) else None.
Definition realloc (memory : bool) (t : list cell) (size : Z) : option (list cell) :=
  if memory && negb (size =? 0) then
    let k := Z.to_nat (size / pointer_size) in Some (firstn k t ++ repeat Junk (k - List.length t))
  else None.
(** 255-260: entries[i] = NULL from [i], [k] times *)
Fixpoint clean (k : nat) (e : option (list cell)) (i : Z) : option (list cell) :=
  match k with
  | O => e
  | S k => match write e i Free with None => None | Some t => clean k (Some t) (u32 (i + 1)) end
  end.

(** 221-263: AllocMore; [memory]: whether the heap has memory *)
Definition alloc_more (memory : bool) (d : db) : option (bool * db) :=
  if max_of d <=? n_of d then
    let '(ok, d) :=
      match entries d with
      | None =>
        match malloc memory (u32 (pointer_size * granularity)) with
        | Some t => (true, Db 0 granularity (Some t))
        | None => (false, d)
        end
      | Some t =>
        match realloc memory t (u32 (pointer_size * u32 (granularity + max_of d))) with
        | Some t => (true, Db (n_of d) (u32 (max_of d + granularity)) (Some t))
        | None => (false, Db (n_of d) (max_of d) None)
        end
      end in
    if ok then
      match clean (Z.to_nat granularity) (entries d) (u32 (max_of d - granularity)) with
      | None => None
      | Some t => Some (true, Db (n_of d) (max_of d) (Some t))
      end
    else Some (false, d)
  else Some (true, d).

(** 80-92: the loop of NewEntry from [index] *)
Fixpoint new_loop (fuel : nat) (d : db) (i : info) (index : Z) : option (bool * db) :=
  match fuel with
  | O => None
  | S fuel =>
    if index =? u32 (n_of d - 1) then Some (false, d)
    else match read (entries d) index with
         | None => None
         | Some Free => match write (entries d) index (Used i) with
                        | None => None
                        | Some t => Some (true, Db (u32 (n_of d + 1)) (max_of d) (Some t))
                        end
         | Some _ => let index := u32 (index + 1) in
                     new_loop fuel d i (if max_of d <=? index then u32 (index - max_of d) else index)
         end
  end.
(** 71-99: NewEntry *)
Definition new_entry (memory : bool) (d : db) (i : info) : option (bool * db) :=
  match alloc_more memory d with
  | None => None
  | Some (false, d) => Some (false, d)
  | Some (true, d) => if n_of d <? max_of d then new_loop (S (Z.to_nat (max_of d))) d i (n_of d) else Some (false, d)
  end.

(** 105-128, 137-147, 208-216: the first entry of the table, from [index], that passes the test, and its index *)
Fixpoint search (p : info -> bool) (fuel : nat) (d : db) (index : Z) : option (option (Z * info)) :=
  if index <? max_of d then
    match fuel with
    | O => None
    | S fuel =>
      match read (entries d) index with
      | None => None
      | Some (Used i) => if p i then Some (Some (index, i)) else search p fuel d (u32 (index + 1))
      | Some _ => search p fuel d (u32 (index + 1))
      end
    end
  else Some None.
Definition first (p : info -> bool) (d : db) : option (option (Z * info)) := search p (Z.to_nat (max_of d)) d 0.
Definition has_id (t : Z) (i : info) : bool := tid i =? t.
Definition has_name (s : string) (i : info) : bool := String.eqb (name i) s.

(** 101-132: RemoveEntry; None in the pair: NULL.  HeapManager.cpp 346-363, StandardHeap_Generic.cpp 93-100: Free makes the pointer NULL. *)
Definition remove_entry (d : db) (t : Z) : option (option info * db) :=
  match first (has_id t) d with
  | None => None
  | Some None => Some (None, d)
  | Some (Some (index, i)) =>
    match write (entries d) index Free with
    | None => None
    | Some e =>
      let n := u32 (n_of d - 1) in
      Some (Some i, if n =? 0 then Db n 0 None else Db n (max_of d) (Some e))
    end
  end.
(** 134-149: GetThreadInformation; 196-202: GetInfo copies what it returns *)
Definition get_info (d : db) (t : Z) : option (option info) :=
  match first (has_id t) d with None => None | Some None => Some None | Some (Some (_, i)) => Some (Some i) end.
(** 160-162: NumberOfThreads *)
Definition number (d : db) : Z := n_of d.
(** 168-173: the loop of GetThreadID; the final index and notEmptyN *)
Fixpoint count_loop (fuel : nat) (d : db) (rest index : Z) : option (Z * Z) :=
  if negb (rest =? 0) && (index <? max_of d) then
    match fuel with
    | O => None
    | S fuel =>
      match read (entries d) index with
      | None => None
      | Some c => count_loop fuel d (match c with Used _ => u32 (rest - 1) | _ => rest end) (u32 (index + 1))
      end
    end
  else Some (rest, index).
(** 164-185: GetThreadID *)
Definition thread_id (d : db) (n : Z) : option Z :=
  match count_loop (Z.to_nat (max_of d)) d (u32 (n + 1)) 0 with
  | None => None
  | Some (rest, index) =>
    let index := u32 (index - 1) in
    if negb (rest =? 0) then Some 0
    else match read (entries d) index with
         | None => None
         | Some (Used i) => Some (tid i)
         | Some _ => Some 0
         end
  end.
(** 187-194: GetInfoIndex *)
Definition info_at (d : db) (n : Z) : option (option info) :=
  match thread_id d n with None => None | Some t => get_info d t end.
(** 204-219: Find *)
Definition find_name (d : db) (s : string) : option Z :=
  match first (has_name s) d with None => None | Some None => Some 0 | Some (Some (_, i)) => Some (tid i) end.

(** The calls and their results *)
Inductive call := New (i : info) (memory : bool) | Remove (t : Z) | Get (t : Z) | Number | Id (n : Z) | InfoAt (n : Z) | Find (s : string).
Inductive result := RBool (b : bool) | RInfo (i : option info) | RNum (n : Z).
Definition step (d : db) (c : call) : option (result * db) :=
  match c with
  | New i m => match new_entry m d i with Some (b, d) => Some (RBool b, d) | None => None end
  | Remove t => match remove_entry d t with Some (i, d) => Some (RInfo i, d) | None => None end
  | Get t => match get_info d t with Some i => Some (RInfo i, d) | None => None end
  | Number => Some (RNum (number d), d)
  | Id n => match thread_id d n with Some t => Some (RNum t, d) | None => None end
  | InfoAt n => match info_at d n with Some i => Some (RInfo i, d) | None => None end
  | Find s => match find_name d s with Some t => Some (RNum t, d) | None => None end
  end.
Fixpoint run (d : db) (cs : list call) : option (list result * db) :=
  match cs with
  | [] => Some ([], d)
  | c :: cs => match step d c with
               | None => None
               | Some (r, d) => match run d cs with None => None | Some (rs, d) => Some (r :: rs, d) end
               end
  end.
