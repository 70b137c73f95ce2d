(** What the manager of the heaps promises: a set of at most 16 registered heaps, and the heap that an address or a name belongs to. *)
From Verif Require Import Base Hpm_Model.

Definition addresses (H : nat -> heap) : Prop := forall k, 0 <= first (H k) <= last (H k) /\ last (H k) < 2 ^ 64.
(** The heaps that are registered after a history: a heap is registered once, while there are fewer than 16. *)
Definition enter (regs : list nat) (o : op) : list nat :=
  match o with
  | Add (Some k) => if in_dec Nat.eq_dec k regs then regs else if (length regs <? 16)%nat then k :: regs else regs
  | Remove (Some k) => remove Nat.eq_dec k regs
  | _ => regs
  end.
Definition registered (l : list op) : list nat := fold_left enter l [].

Definition inside (H : nat -> heap) (x : Z) (k : nat) : Prop := first (H k) <= x <= last (H k).
Definition span (H : nat -> heap) (k : nat) : Z := last (H k) - first (H k).
(** The heap [k] contains the address, and no registered heap that contains it is smaller. *)
Definition innermost (H : nat -> heap) (regs : list nat) (x : Z) (k : nat) : Prop :=
  In k regs /\ inside H x k /\ forall j, In j regs -> inside H x j -> span H k <= span H j.
Definition nobody (H : nat -> heap) (regs : list nat) (x : Z) : Prop := forall j, In j regs -> ~ inside H x j.

(** The C library answers with NULL or with a block in the address space; sizes are uint32 and texts shorter than that. *)
Definition block_ok (p n : Z) : Prop := p = 0 \/ (0 < p /\ p + n < 2 ^ 64).
Definition proper (o : op) : Prop :=
  match o with
  | Malloc size _ p => 0 <= size < 2 ^ 32 /\ block_ok p size
  | Realloc _ size p => 0 <= size < 2 ^ 32 /\ block_ok p size
  | Duplicate _ size len _ p => 0 <= size < 2 ^ 32 /\ 0 <= len /\ len + 1 < 2 ^ 32 /\ block_ok p (if size =? 0 then len + 1 else size)
  | _ => True
  end.
(** The standard heap returned, at some time of the history, the block of [n] bytes at [p]. *)
Definition given (rs : list out) (p n : Z) : Prop := exists r, In r rs /\ did r = Some Std /\ ptr r = p /\ size_of r = n /\ p <> 0.
