(** Model of the copy tables of the memory-map brokers.
    Source: Source/Core/BareMetal/L5GAMs/BrokerI.cpp (InitFunctionPointers
    108-243, InitFunctionPointersOptim 246-337, GetNumberOfRawCopies 347-376,
    FillCopyTable 388-467, SortByGAMAddress 470-540), MemoryMapBroker.cpp (Init
    69-137), MemoryMapInputBroker.cpp (Execute 52-64), MemoryMapOutputBroker.cpp
    (Execute 52-64), RealTimeApplicationConfigurationBuilder.cpp
    (CheckProducersRanges 2365-2376).

    A write outside an array of the heap is undefined behaviour and has the
    outcome [None].  The queries to the data source are assumed to succeed (the
    code stops at the first that fails and the broker is not used).  uint32
    arithmetic on sizes and offsets is assumed not to wrap. *)
From Coq Require Import ZArith List Bool Lia.
From Verif Require Import Base MultiBuf_Model.
Import ListNotations.
Open Scope Z_scope.

(** What the data source answers about one signal of the function: the offset
    in the GAM memory (GetFunctionSignalGAMMemoryOffset), the size of one sample
    in the data source (GetSignalByteSize), the number of samples
    (GetFunctionSignalSamples), the byte ranges (GetFunctionSignalByteOffsetInfo,
    start and size) and the index of the signal in the data source. *)
Record fsig := FSig
  { f_gam : Z; f_bytes : Z; f_samples : nat; f_ranges : list (Z * Z); f_sig : nat }.

(** One line of copyTableInfo (memoryInfo) or of the raw table
    (basicCopyTable): copyByteSize, copyOffset, the offset of
    functionSignalPointers in the GAM memory and copySignalIndex. *)
Record line := Line { l_size : Z; l_off : Z; l_gam : Z; l_sig : nat }.

(** noRanges, lines 196-204: one byte offset of the size of the signal. *)
Definition no_ranges (s : fsig) : bool :=
  match f_ranges s with
  | [(_, sz)] => sz =? f_bytes s
  | _ => false
  end.

(** Lines 191-195 and 428-432: zero samples count as one. *)
Definition samples_of (s : fsig) : nat := Nat.max 1 (f_samples s).

(** Lines 139-157: the number of lines allocated. *)
Definition count_sig (s : fsig) : nat :=
  if (1 <? length (f_ranges s))%nat then (length (f_ranges s) * f_samples s)%nat else 1%nat.
Definition count (sigs : list fsig) : nat := list_sum (map count_sig sigs).

(** Lines 225-235 (443-460): one line per sample. *)
Fixpoint per_sample (n : nat) (sz off gam bytes : Z) (sig : nat) : list line :=
  match n with
  | O => []
  | S n' => Line sz off gam sig :: per_sample n' sz (off + bytes) (gam + sz) bytes sig
  end.

(** Lines 220-237 (439-462): one group of lines per range. *)
Fixpoint per_range (rs : list (Z * Z)) (n : nat) (gam bytes : Z) (sig : nat) : list line :=
  match rs with
  | [] => []
  | (st, sz) :: rs' =>
      per_sample n sz st gam bytes sig
      ++ per_range rs' n (gam + Z.of_nat n * sz) bytes sig
  end.

(** Lines 169-240: the lines of one signal. *)
Definition fill_sig (s : fsig) : list line :=
  if no_ranges s then
    match f_ranges s with
    | (st, sz) :: _ => [Line (sz * Z.of_nat (samples_of s)) st (f_gam s) (f_sig s)]
    | [] => []
    end
  else per_range (f_ranges s) (samples_of s) (f_gam s) (f_bytes s) (f_sig s).

Definition fill (sigs : list fsig) : list line := flat_map fill_sig sigs.

(** InitFunctionPointers: the table; [None] when lines are written after the
    end of the array, or lines of the array are never written. *)
Definition init_plain (sigs : list fsig) : option (list line) :=
  if (length (fill sigs) =? count sigs)%nat then Some (fill sigs) else None.

(** GetNumberOfRawCopies, lines 347-376. *)
Definition count_raw (sigs : list fsig) : nat :=
  list_sum (map (fun s => (length (f_ranges s) * f_samples s)%nat) sigs).

(** FillCopyTable, lines 388-467. *)
Definition fill_raw (sigs : list fsig) : list line :=
  flat_map (fun s => per_range (f_ranges s) (samples_of s) (f_gam s) (f_bytes s) (f_sig s)) sigs.

(** ** SortByGAMAddress *)

(** The merge of lines 499-520. *)
Fixpoint merge2 (l1 : list line) : list line -> list line :=
  fix go (l2 : list line) : list line :=
    match l1, l2 with
    | [], _ => l2
    | _, [] => l1
    | a :: l1', b :: l2' =>
        if l_gam a <=? l_gam b then a :: merge2 l1' l2 else b :: go l2'
    end.

(** The array sbcp: an element never written is [None]. *)
Definition arr := list (option line).

(** The writes sbcp[k] = ... for k from leftStart. *)
Definition splice (sb : arr) (k : nat) (l : list line) : arr :=
  firstn k sb ++ map Some l ++ skipn (k + length l) sb.

(** The loop of lines 480-529.  Note that L and R are filled in from bcp
    (lines 490-497), which the loop does not change. *)
Fixpoint pass (fuel cs left : nat) (bcp : list line) (sb : arr) : option arr :=
  let e := length bcp in
  if (left <? e - 1)%nat then
    match fuel with
    | O => None
    | S f =>
        let mid := Nat.min (left + cs - 1) (e - 1) in
        let right := Nat.min (left + 2 * cs - 1) (e - 1) in
        let n1 := (mid - left + 1)%nat in
        let n2 := (right - mid)%nat in
        let sb' := if ((0 <? n1) && (0 <? n2))%nat
                   then splice sb left (merge2 (firstn n1 (skipn left bcp))
                                               (firstn n2 (skipn (mid + 1) bcp)))
                   else sb in
        pass f cs (left + 2 * cs)%nat bcp sb'
    end
  else Some sb.

(** The loop of lines 479-530. *)
Fixpoint passes (fuel cs : nat) (bcp : list line) (sb : arr) : option arr :=
  if (cs <? length bcp)%nat then
    match fuel with
    | O => None
    | S f => match pass (length bcp) cs 0 bcp sb with
             | Some sb' => passes f (2 * cs)%nat bcp sb'
             | None => None
             end
    end
  else Some sb.

Fixpoint all_written (sb : arr) : option (list line) :=
  match sb with
  | [] => Some []
  | None :: _ => None
  | Some l :: sb' => match all_written sb' with
                     | Some ls => Some (l :: ls)
                     | None => None
                     end
  end.

(** SortByGAMAddress, lines 470-540: sbcp[0] = bcp[0] (line 477), the passes,
    and the copy back (line 534). *)
Definition sort_by_gam (bcp : list line) : option (list line) :=
  match bcp with
  | [] => None
  | b :: r =>
      match passes (length bcp) 1 bcp (Some b :: map (fun _ => None) r) with
      | Some sb => all_written sb
      | None => None
      end
  end.

(** ** Merging of contiguous lines *)

(** The address of the first byte of a line in the data source, in a state
    buffer where the signals start at [base] (MemoryMapBroker.cpp 126-130,
    BrokerI.cpp 447). *)
Definition addr (base : nat -> Z) (l : line) : Z := base (l_sig l) + l_off l.

(** Lines 293-296 and 314-317. *)
Definition contiguous (base : nat -> Z) (a b : line) : bool :=
  (l_gam a + l_size a =? l_gam b) && (addr base a + l_size a =? addr base b).

(** Lines 307-328: [cur] is the line being accumulated, [prev] is bcp[i-1]. *)
Fixpoint accumulate (base : nat -> Z) (cur prev : line) (rest : list line) : list line :=
  match rest with
  | [] => [cur]
  | l :: rest' =>
      if contiguous base prev l
      then accumulate base (Line (l_size cur + l_size l) (l_off cur) (l_gam cur) (l_sig cur)) l rest'
      else cur :: accumulate base l l rest'
  end.

(** InitFunctionPointersOptim, lines 246-337: when there are no raw copies the
    table is empty. *)
Definition init_optim (base : nat -> Z) (sigs : list fsig) : option (list line) :=
  if (length (fill_raw sigs) =? count_raw sigs)%nat then
    match fill_raw sigs with
    | [] => Some []
    | raw => match sort_by_gam raw with
             | Some (l :: ls) => Some (accumulate base l l ls)
             | _ => None
             end
    end
  else None.

(** ** Execute *)

(** MemoryMapInputBroker::Execute: from the data source to the GAM. *)
Fixpoint exec_in (base : nat -> Z) (t : list line) (ds gam : mem) : option mem :=
  match t with
  | [] => Some gam
  | l :: t' => match mcopy gam (l_gam l) ds (addr base l) (l_size l) with
               | Some gam' => exec_in base t' ds gam'
               | None => None
               end
  end.

(** MemoryMapOutputBroker::Execute: from the GAM to the data source. *)
Fixpoint exec_out (base : nat -> Z) (t : list line) (gam ds : mem) : option mem :=
  match t with
  | [] => Some ds
  | l :: t' => match mcopy ds (addr base l) gam (l_gam l) (l_size l) with
               | Some ds' => exec_out base t' gam ds'
               | None => None
               end
  end.

(** ** CheckProducersRanges, RealTimeApplicationConfigurationBuilder.cpp
    2365-2376: an array of pairs (first element, last element). *)
Definition min_max_apart (a b : Z * Z) : bool :=
  ((fst a <? fst b) && (snd a <? fst b)) || ((fst b <? fst a) && (snd b <? fst a)).

Fixpoint check_ranges (rs : list (Z * Z)) : bool :=
  match rs with
  | [] => true
  | r :: rs' => forallb (min_max_apart r) rs' && check_ranges rs'
  end.
