(** Source/Core/BareMetal/L4Messages: MessageFilterPool.cpp (ReceiveMessage 53-88), MessageI.cpp (WaitForReply 159-194) and
    ReplyMessageCatcherMessageFilter.cpp (Wait 80-97). *)
From Verif Require Import Base.

(** ** MessageFilterPool *)
(** An element of the container: [fid] its identity; [fok]: it is a MessageFilter (the ReferenceT of line 57 is valid); [perm]:
    IsPermanentFilter. *)
Record entry := En { fid : nat; fok : bool; perm : bool }.
(** ErrorType.h 112-113, 130-131, 166-167 *)
Definition timeout_bit : Z := 9.
Definition unsupported_bit : Z := 12.
Definition not_completed : Z := 2 ^ 18.

Section Pool.
(** [S]: the state of all filters; [M]: messages; [beh]: ConsumeMessage of a filter: its ErrorType as an integer, and the new state.
    Simplification: ConsumeMessage does not itself install or remove filters (StateMach_Model has filters that do). *)
Context {S M : Type} (beh : nat -> S -> M -> Z * S).

Inductive outcome := Matched (e : entry) | Partial | NoMatch.
(** The loop 60-70, with the filters asked (latest first). *)
Fixpoint scan (l : list entry) (s : S) (m : M) (err : Z) (asked : list nat) : outcome * S * Z * list nat :=
  match l with
  | [] => (NoMatch, s, err, asked)
  | e :: r =>
    if fok e then
      let '(c, s') := beh (fid e) s m in
      if c =? 0 then (Matched e, s', c, fid e :: asked)
      else if c =? not_completed then (Partial, s', c, fid e :: asked)
      else scan r s' m c (fid e :: asked)
    else scan r s m err asked
  end.
(** ReferenceContainer::Delete (ReferenceContainer.cpp 231-237) *)
Fixpoint delete (f : nat) (l : list entry) : list entry * bool :=
  match l with [] => ([], false) | e :: r => if (fid e =? f)%nat then (r, true) else let '(r', b) := delete f r in (e :: r', b) end.
(** ReceiveMessage: the filters left, the new state, the ErrorType returned, the filters asked in order. *)
Definition receive (l : list entry) (s : S) (m : M) : list entry * S * Z * list nat :=
  let '(o, s', err, asked) := scan l s m 0 [] in
  match o with
  | Matched e => if perm e then (l, s', err, rev asked)
                 else let '(l', ok) := delete (fid e) l in (l', s', if ok then err else Z.setbit err timeout_bit, rev asked)
  | Partial => (l, s', Z.clearbit err 18, rev asked)
  | NoMatch => (l, s', Z.setbit err unsupported_bit, rev asked)
  end.
End Pool.

(** ** Waiting for a reply *)
(** The readings of the clock (HighResolutionTimer::Counter, uint64): [start], and [clock i] after the sleep of iteration i; [replied i]:
    what IsReply (or [caught]) says when it is tested in iteration i; [ticks]: None for TTInfiniteWait, else HighResolutionTimerTicks.
    The result is None while the loop goes on, else the value of err.timeout. *)
(** MessageI::WaitForReply 176-191, for a valid message that expects a reply (163-174 refuse others): the reply is tested before the loop (182) and at the end of each iteration (190). *)
Fixpoint reply_loop (fuel : nat) (i : nat) (start : Z) (clock : nat -> Z) (replied : nat -> bool) (ticks : option Z) : option bool :=
  match fuel with
  | O => None
  | S k =>
    let timeout := match ticks with None => false | Some t => (uwrap 64 (clock i - start)) <? t end in   (* 188: ticks > deltaT *)
    if timeout || replied i then Some timeout else reply_loop k (S i) start clock replied ticks
  end.
Definition wait_for_reply (fuel : nat) (start : Z) (clock : nat -> Z) (before : bool) (replied : nat -> bool) (ticks : option Z) : option bool :=
  if before then Some false else reply_loop fuel 0 start clock replied ticks.

(** ReplyMessageCatcherMessageFilter::Wait 84-94, used by SendMessageAndWaitIndirectReply: [caught] is tested at the beginning of each
    iteration (88). *)
Fixpoint catch_loop (fuel : nat) (i : nat) (start : Z) (clock : nat -> Z) (caught : nat -> bool) (ticks : option Z) : option bool :=
  match fuel with
  | O => None
  | S k =>
    if caught i then Some false else
    let timeout := match ticks with None => false | Some t => t <? (uwrap 64 (clock i - start)) end in   (* 92: deltaT > ticks *)
    if timeout then Some true else catch_loop k (S i) start clock caught ticks
  end.
