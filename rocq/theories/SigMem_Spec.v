(** What a user expects of the memory of the signals, without the builder. *)
From Coq Require Import ZArith List Bool String Lia.
From Verif Require Import Base Broker_Model SigMem_Model.
Import ListNotations.
Open Scope string_scope. Open Scope Z_scope. Open Scope list_scope.

Definition uint32 (z : Z) : Prop := 0 <= z < 2 ^ 32.

(** The values of a configuration that are numbers fit their types, and a list
    of ranges is not empty. *)
Definition numbers (p : props) : Prop := forall e, p_elems p = Some e -> uint32 e.
Definition sane_signal (f : fsignal) : Prop :=
  numbers (q_props f) /\
  (forall n, q_samples f = Some n -> uint32 n) /\
  match q_ranges f with
  | None => True
  | Some rs => rs <> [] /\ Forall (fun r => uint32 (fst r) /\ uint32 (snd r)) rs
  end.
Definition sane (a : app) : Prop :=
  Forall (fun D => Forall (fun x => numbers (snd x)) (d_signals D)) (a_ds a) /\
  Forall (fun g => Forall sane_signal (g_in g) /\ Forall sane_signal (g_out g)) (a_gams a).

(** The data source a signal of a function belongs to. *)
Definition source_of (a : app) (f : fsignal) : string :=
  match q_ds f with Some n => n | None => a_default a end.

(** The function states how many elements the signal has; or it says nothing of
    the signal and the data source states it. *)
Definition stated (a : app) (f : fsignal) : Prop :=
  p_elems (q_props f) <> None \/
  (p_type (q_props f) = None /\ p_dims (q_props f) = None /\
   exists D p, find_ds (source_of a f) (a_ds a) = Some D /\ assoc (q_key f) (d_signals D) = Some p /\
               p_elems p <> None).
Definition all_stated (a : app) : Prop :=
  Forall (fun g => Forall (stated a) (g_in g) /\ Forall (stated a) (g_out g)) (a_gams a).

(** Every value that [p] states is the one of the signal [s]. *)
Definition respects (p : props) (s : vsignal) : Prop :=
  (forall t, p_type p = Some t -> v_type s = t) /\ (forall e, p_elems p = Some e -> v_elems s = e).

(** The signal of a data source with this name. *)
Definition signal_of (v : list (string * list vsignal)) (ds key : string) : option vsignal :=
  match assoc ds v with
  | Some vs => List.find (fun s => String.eqb (v_name s) key) vs
  | None => None
  end.

(** The function and the data source have the same idea of the signal. *)
Definition agrees (a : app) (v : list (string * list vsignal)) (f : fsignal) (r : rsignal) : Prop :=
  r_ds r = source_of a f /\ r_key r = q_key f /\
  r_samples r = match q_samples f with Some n => n | None => 1 end /\ 0 < r_samples r /\
  match signal_of v (source_of a f) (q_key f) with
  | Some s =>
      p_type (r_props r) = Some (v_type s) /\ p_elems (r_props r) = Some (v_elems s) /\ 0 < v_elems s /\
      respects (q_props f) s
  | None => False
  end.

(** * Sizes *)

(** The bytes of one element. *)
Definition one_of (t : string) (l : list string) : bool := existsb (String.eqb t) l.
Definition elem_size (t : string) : Z :=
  if one_of t ["int8"; "uint8"; "bool"; "char8"] then 1 else if one_of t ["int16"; "uint16"] then 2
  else if one_of t ["int32"; "uint32"; "float32"] then 4 else if one_of t ["int64"; "uint64"; "float64"; "string"] then 8 else 0.

(** The elements of the signal [s] that the function wants. *)
Definition wanted_elems (f : fsignal) (s : vsignal) : Z :=
  match q_ranges f with
  | None => v_elems s
  | Some rs => fold_right (fun r n => snd r - fst r + 1 + n) 0 rs
  end.
Definition size_in_gam (v : list (string * list vsignal)) (a : app) (f : fsignal) : Z :=
  match signal_of v (source_of a f) (q_key f) with
  | Some s => wanted_elems f s * elem_size (v_type s) * match q_samples f with Some n => n | None => 1 end
  | None => 0
  end.
Definition size_in_ds (s : vsignal) : Z := v_elems s * elem_size (v_type s).
Definition sum (l : list Z) : Z := fold_right Z.add 0 l.

(** The bits of every signal can be counted with 32 bits, and so can the bytes
    of all signals of one direction of a function. *)
Definition small_signals (v : list (string * list vsignal)) : Prop :=
  Forall (fun x => Forall (fun s => 8 * size_in_ds s < 2 ^ 32) (snd x)) v.
Definition small_function (v : list (string * list vsignal)) (a : app) (fs : list fsignal) : Prop :=
  sum (map (size_in_gam v a) fs) < 2 ^ 32.

(** The ranges of bytes that the function wants of one sample. *)
Definition byte_ranges (f : fsignal) (s : vsignal) : list (Z * Z) :=
  match q_ranges f with
  | None => [(0, size_in_ds s)]
  | Some rs => map (fun r => (fst r * elem_size (v_type s), (snd r - fst r + 1) * elem_size (v_type s))) rs
  end.

(** Consecutive blocks: block [i] begins where the blocks before it end. *)
Fixpoint blocks (start : Z) (sizes : list Z) : list Z :=
  match sizes with
  | [] => []
  | s :: sizes' => start :: blocks (start + s) sizes'
  end.
