(** Model of the memory of GAMDataSource and of what it does at a change of state.
    Source/Core/BareMetal/L5GAMs/GAMDataSource.cpp, with the accessors of DataSourceI.cpp. *)
From Verif Require Import Base.

(** A state of the application.  States are numbered; 0 stands for the empty name that is the
    name of the current state before the first change (RealTimeApplication.cpp:468-499,
    stateNameHolder).  Simplification: numbers instead of names. *)
Definition state := nat.

(** The Default of a signal, DataSourceI.cpp:409-430: number of dimensions, number of elements in
    each of them ([AnyType::GetNumberOfElements]), and the bytes that the conversion to the type of
    the signal gives when the shape is the one of the signal; [None] if the conversion is refused.
    Simplification: the conversion itself (TypeConvert) is modelled in Tcv_Model.v, here it is a
    given. *)
Record default := Default { ddims : Z; delems : list Z; dbytes : option (list Z) }.

(** A signal as the configured database describes it, DataSourceI.cpp:146-254: bytes of one sample
    (MemberSize or ByteSize), Samples of the first function that uses it ([None]: it is not found),
    NumberOfDimensions, NumberOfElements, whether Type names a known type, the Default, and the
    number of GAMProducers in each state (312-331; 0 when the state or the list is absent). *)
Record signal := Signal {
  bytes : Z; samples : option Z; dims : Z; elements : Z; known : bool;
  dflt : option default; producers : state -> Z }.

(** The data source: its signals, for each function its input signals (DataSourceI.cpp:463-517;
    the outer [None]: the function has an empty list of inputs and GetFunctionNumberOfSignals
    returns false; the inner [None]: the alias is not the name of a signal and GetSignalIndex
    returns false), and the options of Initialise (GAMDataSource.cpp:92-107). *)
Record source := Source {
  signals : list signal; inputs : list (option (list (option nat)));
  multiple : bool; reset_unused : bool }.

(** Addresses count from the start of the block; the content of an address. *)
Definition memory := Z -> Z.

(** MemoryOperationsHelper::Set, and the writes of a conversion. *)
Definition write (m : memory) (at_ : Z) (l : list Z) : memory :=
  fun a => if (at_ <=? a) && (a <? at_ + Z.of_nat (List.length l)) then nth (Z.to_nat (a - at_)) l 0 else m a.

Definition zeros (n : Z) : list Z := repeat 0 (Z.to_nat n).

(** What a call can do: return true with the new memory, return false (the memory is then not
    described), or touch memory outside the block. *)
Inductive outcome (A : Type) := Done (a : A) | Failed | Bad.
Arguments Done {A} a. Arguments Failed {A}. Arguments Bad {A}.

(** GAMDataSource.cpp:153-162: the size reserved for one signal, in 32 bits. *)
Definition reserved (d : source) (s : signal) : option Z :=
  if multiple d then match samples s with Some n => Some (uwrap 32 (bytes s * n)) | None => None end
  else Some (bytes s).

(** GAMDataSource.cpp:152-174: the loop over the signals; offsets and total in 32 bits. *)
Fixpoint offsets_from (d : source) (l : list signal) (size : Z) : option (list Z * Z) :=
  match l with
  | [] => Some ([], size)
  | s :: r =>
    match reserved d s with
    | None => None
    | Some n =>
      if 0 <? n then
        match offsets_from d r (uwrap 32 (size + n)) with
        | Some (o, t) => Some (size :: o, t)
        | None => None
        end
      else None
    end
  end.

(** The state of the object: offsets and size of the block once allocated, its content, and
    forceResetUnusedVariablesAtStateChange. *)
Record object := Object { offs : list Z; total : Z; mem : memory; force : bool }.

(** GAMDataSource.cpp:139-182, AllocateMemory for the first time after Initialise (77-109).
    Simplification: the heap always gives the memory. *)
Definition allocate (d : source) : option object :=
  match signals d with
  | [] => None
  | _ => match offsets_from d (signals d) 0 with
         | Some (o, t) => Some (Object o t (write (fun _ => 0) 0 (zeros t)) true)
         | None => None
         end
  end.

(** GAMDataSource.cpp:303-308: the product of the elements of the default over the dimensions of the
    signal, in 32 bits. *)
Definition product (n : Z) (l : list Z) : Z := fold_left (fun a e => uwrap 32 (a * e)) (firstn (Z.to_nat n) l) 1.

(** GAMDataSource.cpp:286-295 and 309-311: the shape of the default is accepted. *)
Definition shape_ok (s : signal) (v : default) : bool :=
  ((dims s =? ddims v) || ((dims s =? 1) && ((ddims v =? 0) && (nth 0 (delems v) 1 =? 1))))
  && (elements s =? product (dims s) (delems v)).

(** All of [l] written from address [at_] on, which must be inside the block. *)
Definition checked (o : object) (m : memory) (at_ : Z) (l : list Z) : outcome memory :=
  if (0 <=? at_) && (at_ + Z.of_nat (List.length l) <=? total o) then Done (write m at_ l) else Bad.

(** GAMDataSource.cpp:229-325: one input signal of one function. *)
Definition reset_input (d : source) (o : object) (cur : state) (m : memory) (i : option nat) : outcome memory :=
  match i with
  | None => Failed
  | Some k =>
    match nth_error (signals d) k with
    | None => Failed
    | Some s =>
      if producers s cur =? 0 then
        if known s then
          match dflt s with
          | None => checked o m (nth k (offs o) 0) (zeros (bytes s))
          | Some v =>
            if shape_ok s v then
              match dbytes v with
              | Some l => checked o m (nth k (offs o) 0) l
              | None => Failed
              end
            else Failed
          end
        else Failed
      else Done m
    end
  end.

(** GAMDataSource.cpp:228-326: the inputs of one function. *)
Fixpoint reset_inputs (d : source) (o : object) (cur : state) (m : memory) (l : list (option nat)) : outcome memory :=
  match l with
  | [] => Done m
  | i :: r => match reset_input d o cur m i with Done m' => reset_inputs d o cur m' r | e => e end
  end.

(** GAMDataSource.cpp:225-327: all the functions. *)
Fixpoint reset_functions (d : source) (o : object) (cur : state) (m : memory) (l : list (option (list (option nat)))) : outcome memory :=
  match l with
  | [] => Done m
  | None :: _ => Failed
  | Some f :: r => match reset_inputs d o cur m f with Done m' => reset_functions d o cur m' r | e => e end
  end.

(** GAMDataSource.cpp:212-329, PrepareNextState; the name of the next state is not used. *)
Definition prepare (d : source) (o : object) (cur : state) : outcome object :=
  if reset_unused d || force o then
    match reset_functions d o cur (mem o) (inputs d) with
    | Done m => Done (Object (offs o) (total o) m false)
    | Failed => Failed
    | Bad => Bad
    end
  else Done (Object (offs o) (total o) (mem o) false).

(** GAMDataSource.cpp:115-137, GetSignalMemoryBuffer: where the brokers of the functions read and
    write; [None] when it returns false. *)
Definition buffer (d : source) (o : object) (k buf : nat) : option Z :=
  if Nat.ltb buf 1 then if Nat.ltb k (List.length (signals d)) then Some (nth k (offs o) 0) else None else None.

(** A write of a producer through its broker (MemoryMapOutputBroker.cpp, modelled in
    Broker_Model.v): [l] at [delta] bytes from the buffer of signal [k]. *)
Definition produce (d : source) (o : object) (k : nat) (delta : Z) (l : list Z) : outcome object :=
  match buffer d o k 0 with
  | Some a =>
    match checked o (mem o) (a + delta) l with
    | Done m => Done (Object (offs o) (total o) m (force o))
    | Failed => Failed
    | Bad => Bad
    end
  | None => Failed
  end.

(** The life of an application as the data source sees it: producers write; the next state is
    prepared while the current one goes on; then the current state changes
    (RealTimeApplication.cpp:468-560). *)
Inductive event := Produce (k : nat) (delta : Z) (l : list Z) | Prepare | Change (next : state).

Definition step (d : source) (c : object * state) (e : event) : outcome (object * state) :=
  match e with
  | Produce k delta l => match produce d (fst c) k delta l with Done o => Done (o, snd c) | Failed => Failed | Bad => Bad end
  | Prepare => match prepare d (fst c) (snd c) with Done o => Done (o, snd c) | Failed => Failed | Bad => Bad end
  | Change n => Done (fst c, n)
  end.

Fixpoint run (d : source) (c : object * state) (l : list event) : outcome (object * state) :=
  match l with
  | [] => Done c
  | e :: r => match step d c e with Done c' => run d c' r | x => x end
  end.
