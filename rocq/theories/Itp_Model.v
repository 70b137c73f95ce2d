(** Model of MemoryMapInterpolatedInputBroker
    (Source/Core/BareMetal/L5GAMs/MemoryMapInterpolatedInputBroker.{h,cpp}). Simplifications: float64 and float32
    numbers are exact rationals (no rounding); memory is a list of values for each signal. A cast out of
    range and an overflow of a signed subtraction are undefined behaviour and give None. The data source is a
    sequence of samples: Synchronise moves to the next one or fails. *)
From Coq Require Import QArith Qround.
From Verif Require Import Base.
Local Open Scope Z_scope.

(** The types that are interpolated (cpp 131-163, 219-251). *)
Inductive kind := KInt (bits : Z) (sgn : bool) | KFlt.

(** static_cast from a floating point number to an integer truncates. *)
Definition trunc (q : Q) : Z := if 0 <=? Qnum q then Qfloor q else Qceiling q.

(** y1v - y0v (h 237): small integers are promoted to int, unsigned integers wrap around, floating point
    numbers are exact here. *)
Definition difference (k : kind) (a b : Q) : option Q :=
  match k with
  | KFlt => Some (a - b)%Q
  | KInt bits sgn =>
    let d := Qfloor a - Qfloor b in
    if bits <? 32 then Some (inject_Z d)
    else if sgn then (if (- 2 ^ (bits - 1) <=? d) && (d <=? 2 ^ (bits - 1) - 1) then Some (inject_Z d) else None)
    else Some (inject_Z (uwrap bits d))
  end.

(** static_cast<valueType>(y) (h 203). *)
Definition to_type (k : kind) (q : Q) : option Q :=
  match k with
  | KFlt => Some q
  | KInt bits sgn =>
    if (imin (ITy bits sgn) <=? trunc q) && (trunc q <=? imax (ITy bits sgn)) then Some (inject_Z (trunc q)) else None
  end.

(** One entry of the copy table with its y0, y1, m and the memory of the GAM (h 148-165). *)
Record copy := Copy {
  c_kind : kind;
  c_y0 : list Q;
  c_y1 : list Q;
  c_m : Q;
  c_gam : list Q }.

(** The members of the broker (h 125-173) and the sample at which the data source is. *)
Record broker := Broker {
  b_x0 : Z;
  b_x1 : Z;
  b_x : Z;
  b_reset : bool;
  b_copies : list copy;
  b_at : nat }.

(** The data source: the time and the values of each sample, and whether Synchronise succeeds at a sample;
    the period of the interpolation. *)
Record source := Source {
  s_time : nat -> Z;
  s_values : nat -> list (list Q);
  s_sync : nat -> bool;
  s_period : Z }.

(** A loop over two tables; None when they do not match or a step is undefined. *)
Fixpoint all2 {A B C : Type} (f : A -> B -> option C) (la : list A) (lb : list B) : option (list C) :=
  match la, lb with
  | [], [] => Some []
  | a :: la', b :: lb' =>
    match f a b with
    | None => None
    | Some c => match all2 f la' lb' with None => None | Some l => Some (c :: l) end
    end
  | _, _ => None
  end.

Fixpoint all1 {A C : Type} (f : A -> option C) (la : list A) : option (list C) :=
  match la with
  | [] => Some []
  | a :: la' =>
    match f a with
    | None => None
    | Some c => match all1 f la' with None => None | Some l => Some (c :: l) end
    end
  end.

(** The loop of ChangeInterpolationSegment<valueType> (h 209-240): the slope is that of the last element,
    because there is one m for each entry of the copy table. *)
Fixpoint slopes (k : kind) (dx : Z) (y0 y1 : list Q) (m : Q) : option Q :=
  match y0, y1 with
  | [], [] => Some m
  | a :: y0', b :: y1' =>
    match difference k b a with
    | None => None
    | Some d => slopes k dx y0' y1' (d / inject_Z dx)%Q
    end
  | _, _ => None
  end.

Definition change_segment (dx : Z) (c : copy) (v : list Q) : option copy :=
  match slopes (c_kind c) dx (c_y1 c) v (c_m c) with
  | None => None
  | Some m => Some (Copy (c_kind c) (c_y1 c) v m (c_gam c))
  end.

(** ChangeInterpolationSegments (cpp 115-166). *)
Definition change_segments (s : source) (b : broker) : option broker :=
  let x0 := b_x1 b in
  let x1 := s_time s (b_at b) in
  let dt := if x1 =? x0 then 1 else uwrap 64 (x1 - x0) in
  match all2 (change_segment dt) (b_copies b) (s_values s (b_at b)) with
  | None => None
  | Some cs => Some (Broker x0 x1 (b_x b) (b_reset b) cs (b_at b))
  end.

(** Reset (cpp 168-175). *)
Definition reset (s : source) (b : broker) : option broker :=
  match change_segments s b with
  | None => None
  | Some b1 => Some (Broker (b_x0 b1) (b_x1 b1) (s_time s (b_at b)) true (b_copies b1) (b_at b1))
  end.

(** Interpolate<valueType> (h 182-206). *)
Definition interpolate (x x0 : Z) (c : copy) : option copy :=
  match all1 (fun y => to_type (c_kind c) (y + c_m c * inject_Z (uwrap 64 (x - x0)))%Q) (c_y0 c) with
  | None => None
  | Some g => Some (Copy (c_kind c) (c_y0 c) (c_y1 c) (c_m c) g)
  end.

(** The loop of Execute (cpp 197-211): result, triggerChange, sample. Fuel that runs out gives None. *)
Fixpoint advance (fuel : nat) (s : source) (x : Z) (n : nat) (trigger : bool) : option (bool * bool * nat) :=
  match fuel with
  | O => None
  | S f =>
    if x <=? s_time s n then Some (true, trigger, n)
    else if s_sync s n then
      if s_time s (S n) =? s_time s n then Some (false, true, S n) else advance f s x (S n) true
    else Some (false, true, n)
  end.

(** The copy of the first sample after a reset (cpp 182-187). *)
Definition copy_first (c : copy) (v : list Q) : option copy := Some (Copy (c_kind c) (c_y0 c) (c_y1 c) (c_m c) v).

(** Execute (cpp 178-256), the x axis of the data source having been set. *)
Definition execute (fuel : nat) (s : source) (b : broker) : option (bool * broker) :=
  if b_reset b then
    match all2 copy_first (b_copies b) (s_values s (b_at b)) with
    | None => None
    | Some cs => Some (true, Broker (b_x0 b) (b_x1 b) (b_x b) false cs (b_at b))
    end
  else
    let x := uwrap 64 (b_x b + s_period s) in                                (* 193 *)
    match advance fuel s x (b_at b) false with
    | None => None
    | Some (ok, trigger, n) =>
      let b1 := Broker (b_x0 b) (b_x1 b) x false (b_copies b) n in
      if negb ok then Some (false, b1)
      else
        match (if trigger then change_segments s b1 else Some b1) with       (* 213-215 *)
        | None => None
        | Some b2 =>
          match all1 (interpolate x (b_x0 b2)) (b_copies b2) with            (* 217-253 *)
          | None => None
          | Some cs => Some (true, Broker (b_x0 b2) (b_x1 b2) x false cs n)
          end
        end
    end.

(** [k] more calls of Execute. *)
Fixpoint executes (fuel : nat) (s : source) (k : nat) (b : broker) : option broker :=
  match k with
  | O => Some b
  | S k' =>
    match executes fuel s k' b with
    | None => None
    | Some b1 => match execute fuel s b1 with Some (true, b2) => Some b2 | _ => None end
    end
  end.
