(** What a user expects from the memory of a GAMDataSource, without its offsets and loops. *)
From Verif Require Import Base Gds_Model.

(** Bytes that one signal needs: all its samples. *)
Definition need (d : source) (s : signal) : Z :=
  bytes s * (if multiple d then match samples s with Some n => n | None => 0 end else 1).

Definition needs (d : source) (l : list signal) : Z := fold_right (fun s a => need d s + a) 0 l.

(** Where signal [k] lies: after the ones declared before it. *)
Definition place (d : source) (k : nat) : Z := needs d (firstn k (signals d)).

(** A declaration that can be served: there are signals, each needs some bytes, and all together
    they need less than 2^32. *)
Definition servable (d : source) : Prop :=
  signals d <> [] /\ needs d (signals d) < 2 ^ 32
  /\ forall s, In s (signals d) -> 0 < bytes s /\ (multiple d = true -> exists n, samples s = Some n /\ 0 < n).

(** A default has the shape of its signal: the same dimensions (or a single value for a vector) and
    as many elements. *)
Definition same_shape (s : signal) (v : default) : Prop :=
  (ddims v = dims s \/ dims s = 1 /\ ddims v = 0 /\ nth 0 (delems v) 1 = 1)
  /\ elements s = fold_right Z.mul 1 (firstn (Z.to_nat (dims s)) (delems v)).

(** The defaults are well formed: at least one element in each dimension, fewer than 2^32 in all,
    and a converted default fills its signal. *)
Definition wellformed (d : source) : Prop :=
  forall s v, In s (signals d) -> dflt s = Some v ->
    (forall e, In e (delems v) -> 0 < e)
    /\ fold_right Z.mul 1 (firstn (Z.to_nat (dims s)) (delems v)) < 2 ^ 32
    /\ (forall l, dbytes v = Some l -> Z.of_nat (List.length l) = bytes s).

(** Signal [k] is the input of some function. *)
Definition consumed (d : source) (k : nat) : bool :=
  existsb (fun f => match f with
                    | Some l => existsb (fun i => match i with Some j => Nat.eqb j k | None => false end) l
                    | None => false end) (inputs d).

(** The value a signal starts from. *)
Definition initial (s : signal) : list Z :=
  match dflt s with
  | Some v => match dbytes v with Some l => l | None => [] end
  | None => zeros (bytes s)
  end.

(** One sample of signal [k], as the functions read it from memory. *)
Definition content (d : source) (m : memory) (k : nat) : list Z :=
  match nth_error (signals d) k with
  | Some s => map (fun i => m (place d k + Z.of_nat i)) (seq 0 (Z.to_nat (bytes s)))
  | None => []
  end.

(** ** The data source as a store of values *)
Definition store := nat -> list Z.

Definition splice (old : list Z) (delta : nat) (l : list Z) : list Z :=
  firstn delta old ++ l ++ skipn (delta + List.length l) old.

(** A producer overwrites part of its signal; nothing happens at Prepare; at a change of state the
    signals that are consumed and were not produced in the state that ends go back to their initial
    value, if this is the first change or the option says so. *)
Fixpoint life (d : source) (first : bool) (cur : state) (v : store) (l : list event) : store :=
  match l with
  | [] => v
  | Produce k delta b :: r =>
      life d first cur (fun j => if Nat.eqb j k then splice (v j) (Z.to_nat delta) b else v j) r
  | Prepare :: r => life d first cur v r
  | Change n :: r =>
      life d false n (fun j => match nth_error (signals d) j with
                               | Some s => if (reset_unused d || first) && consumed d j && (producers s cur =? 0)
                                           then initial s else v j
                               | None => v j end) r
  end.

(** A history in which producers write in the states that list them, inside their signals, and each
    state is prepared before the change to it; [prep]: it already is. *)
Fixpoint proper (d : source) (cur : state) (prep : bool) (l : list event) : Prop :=
  match l with
  | [] => True
  | Produce k delta b :: r =>
      (exists s, nth_error (signals d) k = Some s /\ producers s cur > 0 /\ 0 <= delta /\ delta + Z.of_nat (List.length b) <= bytes s)
      /\ proper d cur prep r
  | Prepare :: r => proper d cur true r
  | Change n :: r => prep = true /\ proper d n false r
  end.

(** The inputs are in order: a prepared change can reset what it has to. *)
Definition resettable (d : source) (cur : state) : Prop :=
  forall f, In f (inputs d) -> exists l, f = Some l /\
    forall i, In i l -> exists k s, i = Some k /\ nth_error (signals d) k = Some s /\
      (producers s cur = 0 -> known s = true /\
         forall v, dflt s = Some v -> same_shape s v /\ exists b, dbytes v = Some b).
