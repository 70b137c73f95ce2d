(** Model of the circular copies of the multi-buffer brokers.
    Source: Source/Core/BareMetal/L5GAMs/MemoryMapMultiBufferBroker.cpp
    (CopyInputs 70-149, CopyOutputs 152-217; the fields of the copy table are
    filled in by Init 228-353).

    Memory is byte addressed.  A block of memory (the area of a signal in the
    data source, or the memory of the GAM) is its size and its bytes; a copy
    that leaves either block is undefined behaviour and has the outcome
    [None].  So has a signed overflow, and a loop that does not end. *)
From Coq Require Import ZArith List Bool Lia.
From Verif Require Import Base.
Import ListNotations.
Open Scope Z_scope.

(** A block of memory. *)
Record mem := Mem { msize : Z; mdat : Z -> Z }.

(** MemoryOperationsHelper::Copy(destination, source, size), called at lines
    121-123, 130-132, 141-143, 193-195, 200-202 and 210-211: [len] bytes from
    offset [spos] of [src] to offset [dpos] of [dst].  The two blocks do not
    overlap (GAM memory and data source memory are different objects). *)
Definition mcopy (dst : mem) (dpos : Z) (src : mem) (spos len : Z) : option mem :=
  if (0 <=? len) && (0 <=? dpos) && (dpos + len <=? msize dst)
     && (0 <=? spos) && (spos + len <=? msize src)
  then Some (Mem (msize dst)
               (fun i => if (dpos <=? i) && (i <? dpos + len)
                         then mdat src (spos + (i - dpos)) else mdat dst i))
  else None.

(** int32 arithmetic: an overflow is undefined behaviour. *)
Definition i32 (z : Z) : option Z :=
  if (- 2 ^ 31 <=? z) && (z <? 2 ^ 31) then Some z else None.

(** One line of the copy table: copyTable[n].copySize, the offset of
    copyTable[n].gamPointer in the memory of the GAM, GetCopyOffset(n),
    maxOffset[n] and signalIdxArr[n] (lines 329-337). *)
Record entry := Entry
  { e_size : Z; e_gam : Z; e_off : Z; e_max : Z; e_sig : nat }.

(** The loop of lines 91-94 (172-175):
    while (copyOffsetN + offset >= maxOffset) offset -= maxOffset. *)
Fixpoint reduce (fuel : nat) (o off M : Z) (changed : bool) : option (Z * bool) :=
  match i32 (o + off) with
  | None => None
  | Some p =>
      if M <=? p then
        match fuel with
        | O => None
        | S f => match i32 (off - M) with
                 | Some off' => reduce f o off' M true
                 | None => None
                 end
        end
      else Some (off, changed)
  end.

(** A chunk: offset in the GAM's signal, offset given to the data source
    pointer, length. *)
Definition chunk := (Z * Z * Z)%type.

(** The loop of lines 129-135 (199-205): full copies of maxOffset bytes. *)
Fixpoint full_copies (n : nat) (gamOffset offset M : Z) : list chunk :=
  match n with
  | O => []
  | S n' => (gamOffset, offset, M) :: full_copies n' (gamOffset + M) offset M
  end.

(** The chunks copied by lines 80-143 (164-211) for one line of the table and
    one offset answered by the data source, in the order they are copied. *)
Definition chunks (e : entry) (uintoffset : Z) : option (list chunk) :=
  let M := e_max e in
  let o := swrap 32 (e_off e) in
  let off0 := swrap 32 uintoffset in
  let L := swrap 32 (e_size e) in
  match reduce (S (Z.to_nat ((o + off0) / Z.max 1 M))) o off0 M false with
  | None => None
  | Some (off, true) => Some [(0, off, L)]
  | Some (off, false) =>
      if M - (o + off) <? L then
        let over0 := Z.rem L M in
        let full0 := Z.quot (L - over0) M in
        let isMultiple := (Z.rem (L - over0) M =? 0) && (over0 <? L) in
        let over := if isMultiple then over0 + M else over0 in
        let full := if isMultiple then full0 - 1 else full0 in
        let phased := M - (o + off) <? over in
        let phase := if phased then M - off else 0 in
        let off' := if phased then 0 else off in
        let first := if phased then [(0, off, phase)] else [] in
        let rest := L - M * full - phase in
        Some (first ++ full_copies (Z.to_nat full) phase off' M
              ++ [(phase + M * Z.of_nat (Z.to_nat full), off', rest)])
      else Some [(0, off, L)]
  end.

(** The copies of lines 121-143: from the area of the signal to the memory of
    the GAM.  dataSourcePointer is the start of the area plus GetCopyOffset(n)
    (lines 332 and 342-343). *)
Fixpoint run_in (e : entry) (area gam : mem) (cs : list chunk) : option mem :=
  match cs with
  | [] => Some gam
  | (g, d, len) :: cs' =>
      match mcopy gam (e_gam e + g) area (e_off e + d) len with
      | Some gam' => run_in e area gam' cs'
      | None => None
      end
  end.

(** The copies of lines 193-211: from the memory of the GAM to the area of the
    signal. *)
Fixpoint run_out (e : entry) (gam area : mem) (cs : list chunk) : option mem :=
  match cs with
  | [] => Some area
  | (g, d, len) :: cs' =>
      match mcopy area (e_off e + d) gam (e_gam e + g) len with
      | Some area' => run_out e gam area' cs'
      | None => None
      end
  end.

Definition copy_in (e : entry) (uintoffset : Z) (area gam : mem) : option mem :=
  match chunks e uintoffset with
  | Some cs => run_in e area gam cs
  | None => None
  end.

Definition copy_out (e : entry) (uintoffset : Z) (gam area : mem) : option mem :=
  match chunks e uintoffset with
  | Some cs => run_out e gam area cs
  | None => None
  end.

(** What the data source answers for one line: GetInputOffset /
    GetOutputOffset ([None]: it returns false) and TerminateInputCopy /
    TerminateOutputCopy.  Both are virtual methods of the data source. *)
Definition answer := (option Z * bool)%type.

(** The areas of the signals in the stateful buffer returned by
    GetCurrentStateBuffer (lines 73, 80 and 339). *)
Definition areas := nat -> mem.

Definition set_area (ds : areas) (k : nat) (m : mem) : areas :=
  fun j => if Nat.eqb j k then m else ds j.

(** CopyInputs, lines 70-149: result, memory of the GAM. *)
Fixpoint copy_inputs (tab : list (entry * answer)) (ds : areas) (gam : mem)
  : option (bool * mem) :=
  match tab with
  | [] => Some (true, gam)
  | (e, (None, _)) :: _ => Some (false, gam)
  | (e, (Some off, term)) :: tab' =>
      match copy_in e off (ds (e_sig e)) gam with
      | None => None
      | Some gam' => if term then copy_inputs tab' ds gam' else Some (false, gam')
      end
  end.

(** CopyOutputs, lines 152-217: result, areas of the data source. *)
Fixpoint copy_outputs (tab : list (entry * answer)) (gam : mem) (ds : areas)
  : option (bool * areas) :=
  match tab with
  | [] => Some (true, ds)
  | (e, (None, _)) :: _ => Some (false, ds)
  | (e, (Some off, term)) :: tab' =>
      match copy_out e off gam (ds (e_sig e)) with
      | None => None
      | Some a => let ds' := set_area ds (e_sig e) a in
                  if term then copy_outputs tab' gam ds' else Some (false, ds')
      end
  end.
