(** Model of the memory of the signals of an application: how the configuration
    builder merges what the functions (GAMs) and the data sources say of a
    signal, computes sizes and offsets, and how GAMs and data sources allocate.
    Source: Source/Core/BareMetal/L5GAMs/RealTimeApplicationConfigurationBuilder.cpp
    (ResolveDataSources 909-1062, AddSignalToDataSource 1071-1287,
    VerifyDataSourcesSignals 1295-1473, ResolveFunctionSignalsMemorySize
    2471-2565, ResolveFunctionsMemory 2573-2766, AssignFunctionsMemoryToDataSource
    2774-2932), GAM.cpp (AllocateInputSignalsMemory 108-154,
    AllocateOutputSignalsMemory 156-203), MemoryDataSourceI.cpp (AllocateMemory
    76-123, GetSignalMemoryBuffer 158-181), GAMDataSource.cpp
    (GetSignalMemoryBuffer 115-137, AllocateMemory 139-182), DataSourceI.cpp
    (GetSignalNumberOfSamples 175-244, GetSignalByteSize 246-254),
    L1Portability/TypeDescriptor.cpp (55-71).

    Not modelled: structured types (FullType, MemberSize and the signals of the
    data source that are deleted because a structured signal has their name as
    a prefix, 1347-1406), the values of Default (WriteDefault), Frequency,
    Trigger, States, and the checks of the builder that can only refuse more
    configurations (consumers, producers, brokers).  NumberOfDimensions and
    NumberOfElements are numbers; the code compares their texts. *)
From Coq Require Import ZArith List Bool String.
From Verif Require Import Base Broker_Model.
Import ListNotations.
Open Scope string_scope. Open Scope Z_scope. Open Scope list_scope.

Definition w32 (z : Z) : Z := uwrap 32 z.

(** basicTypeInfo (TypeDescriptor.cpp 55-71): the types and their numberOfBits,
    on a machine with pointers of 64 bits; None is InvalidType. *)
Definition type_table : list (string * Z) :=
  [("string", 64); ("int8", 8); ("int16", 16); ("int32", 32); ("int64", 64);
   ("uint8", 8); ("uint16", 16); ("uint32", 32); ("uint64", 64); ("bool", 8);
   ("float32", 32); ("float64", 64); ("char8", 8); ("void", 0)].

Fixpoint assoc {A} (k : string) (l : list (string * A)) : option A :=
  match l with
  | [] => None
  | (n, v) :: l' => if String.eqb n k then Some v else assoc k l'
  end.
Definition type_bits (t : string) : option Z := assoc t type_table.

(** The properties of a signal that a function and a data source share. *)
Record props := Props
  { p_type : option string; p_dims : option Z; p_elems : option Z; p_default : option string }.
Definition no_props : props := Props None None None None.

(** A signal of a function as configured.  The name and the optional alias;
    Samples; Ranges. *)
Record fsignal := FSignal
  { q_ds : option string; q_name : string; q_alias : option string; q_props : props;
    q_samples : option Z; q_ranges : option (list (Z * Z)) }.

(** AddSignalToDataSource 1078-1091: the name in the data source. *)
Definition q_key (f : fsignal) : string :=
  match q_alias f with Some a => if String.eqb a "" then q_name f else a | None => q_name f end.

(** A data source as configured: its name, whether it is locked and its signals. *)
Record dsource := DSource
  { d_name : string; d_locked : bool; d_signals : list (string * props) }.

(** 1215-1257 for one property: None is a mismatch, otherwise both sides have
    the result. *)
Definition merge1 {A} (eqb : A -> A -> bool) (f d : option A) : option (option A) :=
  match f, d with
  | Some x, Some y => if eqb x y then Some f else None
  | Some _, None => Some f
  | None, _ => Some d
  end.

(** 1210-1258 the loop over the properties: it stops at the first mismatch, and
    what was written before stays.  Result: ret, the function's and the data
    source's properties. *)
Definition merge (f d : props) : bool * props * props :=
  match merge1 String.eqb (p_type f) (p_type d) with
  | None => (false, f, d)
  | Some t =>
      let f := Props t (p_dims f) (p_elems f) (p_default f) in
      let d := Props t (p_dims d) (p_elems d) (p_default d) in
      match merge1 Z.eqb (p_dims f) (p_dims d) with
      | None => (false, f, d)
      | Some n =>
          let f := Props t n (p_elems f) (p_default f) in
          let d := Props t n (p_elems d) (p_default d) in
          match merge1 Z.eqb (p_elems f) (p_elems d) with
          | None => (false, f, d)
          | Some e =>
              let f := Props t n e (p_default f) in
              let d := Props t n e (p_default d) in
              match merge1 String.eqb (p_default f) (p_default d) with
              | None => (false, f, d)
              | Some v => (true, Props t n e v, Props t n e v)
              end
          end
      end
  end.

(** MoveToChild(foundSignalId) and the writes there. *)
Fixpoint set_assoc {A} (k : string) (v : A) (l : list (string * A)) : list (string * A) :=
  match l with
  | [] => []
  | (n, x) :: l' => if String.eqb n k then (n, v) :: l' else (n, x) :: set_assoc k v l'
  end.

(** AddSignalToDataSource (1071-1287). *)
Definition add_signal (D : dsource) (key : string) (f : props) : bool * dsource * props :=
  match assoc key (d_signals D) with
  | Some d =>
      let '(ok, f', d') := merge f d in
      (ok, DSource (d_name D) (d_locked D) (set_assoc key d' (d_signals D)), f')
  | None =>
      if d_locked D then (false, D, f)                                               (* 1172-1186 *)
      else
        let '(ok, f', d') := merge f no_props in
        (ok, DSource (d_name D) false (d_signals D ++ [(key, d')]), f')
  end.

(** 2489-2545 the ranges: the size of the signal and the table of byte offsets. *)
Fixpoint range_bytes (bits elems : Z) (rs : list (Z * Z)) (acc : Z) : option (Z * list (Z * Z)) :=
  match rs with
  | [] => Some (acc, [])
  | (lo, hi) :: rs' =>
      if hi <? lo then None
      else if elems <=? hi then None
      else
        let sz := w32 (w32 (hi - lo + 1) * bits) / 8 in
        match range_bytes bits elems rs' (w32 (acc + sz)) with
        | Some (total, t) => Some (total, (w32 (lo * bits) / 8, sz) :: t)
        | None => None
        end
  end.

(** ResolveFunctionSignalsMemorySize (2471-2565) and 2613-2627 of
    ResolveFunctionsMemory: ByteSize and ByteOffset. *)
Definition memory_size (p : props) (ranges : option (list (Z * Z))) : option (Z * list (Z * Z)) :=
  match p_elems p, p_type p with
  | Some e, Some t =>
      match type_bits t with
      | None => None
      | Some bits =>
          match ranges with
          | None => let b := w32 (e * bits) / 8 in Some (b, [(0, b)])
          | Some [] => Some (0, [(0, 0)])
          | Some rs => range_bytes bits e rs 0
          end
      end
  | _, _ => None
  end.

(** A signal of a function after the builder: where it goes, its properties,
    ByteSize, ByteOffset, Samples and GAMMemoryOffset. *)
Record rsignal := RSignal
  { r_ds : string; r_key : string; r_props : props; r_bytes : Z; r_offsets : list (Z * Z);
    r_samples : Z; r_gam : Z }.

Fixpoint find_ds (n : string) (l : list dsource) : option dsource :=
  match l with
  | [] => None
  | D :: l' => if String.eqb (d_name D) n then Some D else find_ds n l'
  end.
Fixpoint put_ds (D : dsource) (l : list dsource) : list dsource :=
  match l with
  | [] => []
  | X :: l' => if String.eqb (d_name X) (d_name D) then D :: l' else X :: put_ds D l'
  end.

(** 957-1036 of ResolveDataSources, for one signal; [total] is totalByteSize
    (and allocatedByteSize, which has always the same value).  Lines 1000-1005:
    when the function has no NumberOfElements, the result of
    AddSignalToDataSource is replaced by the result of the Write (true). *)
Definition resolve_signal (def : string) (dss : list dsource) (total : Z) (f : fsignal) :
  option (list dsource * Z * rsignal) :=
  let name := match q_ds f with Some n => n | None => def end in
  match find_ds name dss with
  | None => None
  | Some D =>
      let '(ok, D', p) := add_signal D (q_key f) (q_props f) in
      let '(ok, p) := match p_elems p with
                      | None => (true, Props (p_type p) (p_dims p) (Some 1) (p_default p))
                      | Some _ => (ok, p)
                      end in
      if negb ok then None
      else
        let p := match p_dims p with
                 | None => Props (p_type p) (Some 0) (p_elems p) (p_default p)
                 | Some _ => p
                 end in
        match memory_size p (q_ranges f) with
        | None => None
        | Some (bytes, offsets) =>
            let samples := match q_samples f with Some n => n | None => 1 end in
            if samples =? 0 then None                                                (* 2632-2640 *)
            else Some (put_ds D' dss, w32 (total + w32 (bytes * samples)),
                       RSignal name (q_key f) p bytes offsets samples total)
        end
  end.

(** 953-1044: the signals of one direction of one function. *)
Fixpoint resolve_signals (def : string) (dss : list dsource) (total : Z) (fs : list fsignal) :
  option (list dsource * Z * list rsignal) :=
  match fs with
  | [] => Some (dss, total, [])
  | f :: fs' =>
      match resolve_signal def dss total f with
      | None => None
      | Some (dss, total, r) =>
          match resolve_signals def dss total fs' with
          | None => None
          | Some (dss, total, rs) => Some (dss, total, r :: rs)
          end
      end
  end.

(** A function: its input and its output signals; after the builder also the
    ByteSize of each direction. *)
Record gam := Gam { g_in : list fsignal; g_out : list fsignal }.
Record rgam := RGam { rg_in : list rsignal; rg_in_bytes : Z; rg_out : list rsignal; rg_out_bytes : Z }.

(** 909-1062 ResolveDataSources. *)
Fixpoint resolve (def : string) (dss : list dsource) (gs : list gam) : option (list dsource * list rgam) :=
  match gs with
  | [] => Some (dss, [])
  | g :: gs' =>
      match resolve_signals def dss 0 (g_in g) with
      | None => None
      | Some (dss, ti, ri) =>
          match resolve_signals def dss 0 (g_out g) with
          | None => None
          | Some (dss, to, ro) =>
              match resolve def dss gs' with
              | None => None
              | Some (dss, rgs) => Some (dss, RGam ri ti ro to :: rgs)
              end
          end
      end
  end.

(** A signal of a data source after VerifyDataSourcesSignals. *)
Record vsignal := VSignal { v_name : string; v_type : string; v_elems : Z; v_bytes : Z }.

(** 1327-1470 for one signal. *)
Definition verify_signal (x : string * props) : option vsignal :=
  let '(n, p) := x in
  if String.eqb n "" then None
  else
    match p_type p with
    | None => None
    | Some t =>
        match type_bits t with
        | None => None
        | Some bits =>
            let e := match p_elems p with Some e => e | None => 1 end in
            if e =? 0 then None else Some (VSignal n t e (w32 (e * bits) / 8))
        end
    end.
Fixpoint map_opt {A B} (f : A -> option B) (l : list A) : option (list B) :=
  match l with
  | [] => Some []
  | x :: l' => match f x, map_opt f l' with Some y, Some r => Some (y :: r) | _, _ => None end
  end.
Definition verify_ds (D : dsource) : option (string * list vsignal) :=
  match map_opt verify_signal (d_signals D) with Some l => Some (d_name D, l) | None => None end.

(** The application: the default data source, the data sources and the functions. *)
Record app := App { a_default : string; a_ds : list dsource; a_gams : list gam }.
Definition build (a : app) : option (list (string * list vsignal) * list rgam) :=
  match resolve (a_default a) (a_ds a) (a_gams a) with
  | None => None
  | Some (dss, gs) => match map_opt verify_ds dss with Some v => Some (v, gs) | None => None end
  end.

(** GAM::AllocateInputSignalsMemory 127-148: the offsets of the pointers that
    GetInputSignalMemory returns, in a block of the size of the direction. *)
Fixpoint gam_pointers (rs : list rsignal) (off : Z) : list Z :=
  match rs with
  | [] => []
  | r :: rs' => off :: gam_pointers rs' (w32 (off + w32 (r_bytes r * r_samples r)))
  end.

(** The index of a signal in its data source (GetSignalIndex). *)
Fixpoint index_of (k : string) (l : list vsignal) : option nat :=
  match l with
  | [] => None
  | v :: l' => if String.eqb (v_name v) k then Some 0%nat
               else match index_of k l' with Some i => Some (S i) | None => None end
  end.

(** What the broker between the function and the data source [name] asks
    (AssignFunctionsMemoryToDataSource 2884-2926 copies it to the data source;
    BrokerI.cpp 108-243 reads it): one record per signal of the function in this
    data source. *)
Fixpoint broker_signals (name : string) (vs : list vsignal) (rs : list rsignal) : option (list fsig) :=
  match rs with
  | [] => Some []
  | r :: rs' =>
      if String.eqb (r_ds r) name then
        match index_of (r_key r) vs with
        | None => None
        | Some i =>
            match nth_error vs i, broker_signals name vs rs' with
            | Some v, Some l =>
                Some (FSig (r_gam r) (v_bytes v) (Z.to_nat (r_samples r)) (r_offsets r) i :: l)
            | _, _ => None
            end
        end
      else broker_signals name vs rs'
  end.

(** MemoryDataSourceI::AllocateMemory 76-123: stateMemorySize and the offsets of
    the signals; [nbuf] is NumberOfBuffers. *)
Fixpoint mem_offsets (nbuf : Z) (sizes : list Z) (off : Z) : option (Z * list Z) :=
  match sizes with
  | [] => Some (off, [])
  | s :: sizes' =>
      if s =? 0 then None
      else match mem_offsets nbuf sizes' (w32 (off + w32 (s * nbuf))) with
           | Some (e, l) => Some (e, off :: l)
           | None => None
           end
  end.
(** The memory: its size, stateMemorySize and the offsets. *)
Record dmem := DMem { m_size : Z; m_state : Z; m_offsets : list Z }.
Definition mem_allocate (nbuf nstates : Z) (vs : list vsignal) : option dmem :=
  match mem_offsets nbuf (map v_bytes vs) 0 with
  | Some (e, l) => if nstates =? 0 then None else Some (DMem (w32 (e * nstates)) e l)
  | None => None
  end.
(** MemoryDataSourceI::GetSignalMemoryBuffer 158-181. *)
Definition mem_address (nstates : Z) (m : dmem) (signal : nat) (buffer : Z) : option Z :=
  if buffer <? nstates then
    match nth_error (m_offsets m) signal with
    | Some off => Some (w32 (m_state m * buffer) + off)
    | None => None
    end
  else None.

(** DataSourceI::GetSignalNumberOfSamples 175-244: the first function of the
    data source, its output signals before its input signals, that uses the
    signal.  [uses]: for each function of the data source its output and its
    input signals, with the name (or alias) and the samples. *)
Fixpoint samples_of_signal (k : string) (uses : list (list (string * Z) * list (string * Z))) : option Z :=
  match uses with
  | [] => None
  | (outs, ins) :: uses' =>
      match assoc k outs with
      | Some n => Some n
      | None => match assoc k ins with Some n => Some n | None => samples_of_signal k uses' end
      end
  end.

(** GAMDataSource::AllocateMemory 139-182; [multi] is allowMultipleSamples. *)
Fixpoint gds_offsets (multi : bool) (uses : list (list (string * Z) * list (string * Z))) (vs : list vsignal) (off : Z) :
  option (Z * list Z) :=
  match vs with
  | [] => Some (off, [])
  | v :: vs' =>
      match (if multi then match samples_of_signal (v_name v) uses with
                           | Some n => Some (w32 (v_bytes v * n))
                           | None => None
                           end
             else Some (v_bytes v)) with
      | None => None
      | Some size =>
          if size =? 0 then None
          else match gds_offsets multi uses vs' (w32 (off + size)) with
               | Some (e, l) => Some (e, off :: l)
               | None => None
               end
      end
  end.
(** The memory has one state buffer (115-137). *)
Definition gds_allocate (multi : bool) (uses : list (list (string * Z) * list (string * Z))) (vs : list vsignal) : option dmem :=
  match vs with
  | [] => None
  | _ => match gds_offsets multi uses vs 0 with Some (e, l) => Some (DMem e e l) | None => None end
  end.
