(** What a user expects of a stream over a block of memory: the block, how much of it counts as written ([used]),
    and a cursor ([cur]). *)
From Verif Require Import Base Smr_Model.

Record view := View { block : list Z; writable : bool; used : Z; cur : Z }.
Definition room (v : view) : Z := Z.of_nat (length (block v)).
(** the block with the bytes [d] at offset [p] *)
Definition overwrite (m : list Z) (p : Z) (d : list Z) : list Z :=
  firstn (Z.to_nat p) m ++ d ++ skipn (Z.to_nat p + length d) m.
Definition part (m : list Z) (p n : Z) : list Z := firstn (Z.to_nat n) (skipn (Z.to_nat p) m).

Definition expect (v : view) (o : op) : res * view :=
  match o with
  | Read n => let k := Z.min n (used v - cur v) in
              (RBytes (part (block v) (cur v) k), View (block v) (writable v) (used v) (cur v + k))
  | Write d =>
      if writable v then
        let k := Z.min (Z.of_nat (length d)) (room v - cur v) in
        (RWritten true k,
         View (overwrite (block v) (cur v) (firstn (Z.to_nat k) d)) true (Z.max (used v) (cur v + k)) (cur v + k))
      else (RWritten false (Z.of_nat (length d)), v)
  | Seek p => (RBool (p <=? used v), View (block v) (writable v) (used v) (Z.min p (used v)))
  | RelSeek d =>
      if (-2147483648 <=? d) && (d <=? 2147483647) then
        (RBool ((0 <=? cur v + d) && (cur v + d <=? used v)),
         View (block v) (writable v) (used v) (Z.max 0 (Z.min (cur v + d) (used v))))
      else (RBool false, v)
  | SetSize n => (RBool (n <=? room v), View (block v) (writable v) (Z.min n (room v)) (cur v))
  | Size => (RNum (used v), v)
  | Position => (RNum (cur v), v)
  end.
Fixpoint expects (v : view) (ops : list op) : list res * view :=
  match ops with
  | [] => ([], v)
  | o :: ops => let (r, v) := expect v o in let (rs, v) := expects v ops in (r :: rs, v)
  end.
(** Arguments in their types; the smallest int32 is not an offset; a size fits 32 bits and is not below the cursor. *)
Definition proper (v : view) (o : op) : Prop :=
  match o with
  | Read n => 0 <= n < 2 ^ 32
  | Write d => Z.of_nat (length d) < 2 ^ 32
  | Seek p => 0 <= p < 2 ^ 64
  | RelSeek d => - 2 ^ 63 <= d < 2 ^ 63 /\ d <> - 2 ^ 31
  | SetSize n => cur v <= n < 2 ^ 32
  | Size | Position => True
  end.
(** A move backwards by a relative offset is followed by an absolute one before the stream is read or written:
    [back] says that such a move is still to come. *)
Definition moved_back (back : bool) (o : op) : bool :=
  match o with Seek _ => false | RelSeek d => back || (d <? 0) | _ => back end.
Definition settled (back : bool) (o : op) : Prop :=
  match o with Read _ | Write _ => back = false | _ => True end.
Fixpoint all_proper (back : bool) (v : view) (ops : list op) : Prop :=
  match ops with
  | [] => True
  | o :: ops => proper v o /\ settled back o /\ all_proper (moved_back back o) (snd (expect v o)) ops
  end.
(** The stream just opened *)
Definition opened (w : bool) (m : list Z) : view := View m w (if w then 0 else Z.of_nat (length m)) 0.
Definition open (w : bool) (m : list Z) : smr := if w then open_rw m else open_ro m.
