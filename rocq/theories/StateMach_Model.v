(** Source/Core/Scheduler/L4StateMachine/StateMachine.cpp and StateMachineEvent.cpp, with the parts of QueuedMessageI.cpp and
    MessageFilterPool.cpp that they use.  The state machine is driven by the single thread that processes its queue, one message at a
    time.

    Simplifications: a message is its function name; whether the messages of an event and of ENTER could all be delivered and were
    answered in time (SendMultipleMessagesAndWaitReply, StateMachine.cpp 296-353) is an input of the model; the names of states are
    plain names (no '.'); Purge is not modelled; the replies of the queue thread (QueuedMessageI.cpp 116-126) are not modelled;
    ReferenceContainer::Insert does not fail. *)
From Coq Require Export String.
From Verif Require Import Base Conc.
Open Scope nat_scope.
Open Scope list_scope.

(** StateMachineEvent.h: the name of the event, NextState and NextStateError; [eid] is the identity of the object. *)
Record event := Ev { eid : nat; ename : string; enext : string; enerr : string }.
(** A state machine is a container of states (name and events), in the order of the configuration. *)
Definition config := list (string * list event).

(** [cur]: currentState, as a position in the configuration; [pool]: queuedMessageFilters, first filter first; [armed]: the member
    [reset] of every event. *)
Record st := St { cur : nat; pool : list event; armed : nat -> bool }.

Definition name_of (c : config) (i : nat) : string := match nth_error c i with Some p => fst p | None => EmptyString end.
Definition events_of (c : config) (i : nat) : list event := match nth_error c i with Some p => snd p | None => [] end.

(** ReferenceContainer::Find(name) on the state machine (ReferenceContainer.cpp 354-367): the first child of that name. *)
Fixpoint find_from (k : nat) (c : config) (n : string) : option nat :=
  match c with [] => None | p :: r => if String.eqb (fst p) n then Some k else find_from (S k) r n end.
Definition find_state (c : config) (n : string) : option nat := find_from 0 c n.

(** QueuedMessageI::RemoveMessageFilter (QueuedMessageI.cpp 152-159) with ReferenceContainer::Delete (ReferenceContainer.cpp 231-237):
    the first occurrence of the reference is removed; the flag tells whether there was one. *)
Fixpoint remove (e : event) (p : list event) : list event * bool :=
  match p with
  | [] => ([], false)
  | x :: r => if eid x =? eid e then (r, true) else let '(r', b) := remove e r in (x :: r', b)
  end.
(** QueuedMessageI::InstallMessageFilter (QueuedMessageI.cpp 142-150) with the default position 0 (QueuedMessageI.h 88-89): in front. *)
Definition install (e : event) (p : list event) : list event := e :: p.

(** StateMachine::EventTriggered 209-219: remove the filters of the current state but that of the event; stop at the first failure. *)
Fixpoint remove_others (e : event) (es p : list event) : list event :=
  match es with
  | [] => p
  | x :: r => if eid x =? eid e then remove_others e r p else let '(p', ok) := remove x p in if ok then remove_others e r p' else p'
  end.
(** EventTriggered 249-260: Reset and install the events of the new state. *)
Fixpoint enter_events (ins : bool) (es : list event) (s : st) : st :=
  match es with
  | [] => s
  | x :: r => enter_events ins r (St (cur s) (if ins then install x (pool s) else pool s) (upd (armed s) (eid x) true))
  end.

(** StateMachine::EventTriggered 183-294.  [send]: the messages of the event were delivered; [enter]: those of ENTER were.  None: the
    null reference of a state that does not exist is dereferenced (251, 263).  The error of 215 is overwritten at 231 or 242.  The flag
    of the result: no error. *)
Definition event_triggered (c : config) (e : event) (send enter : bool) (s : st) : option (st * bool) :=
  let moving := negb (String.eqb (enext e) (name_of c (cur s))) in
  let p1 := if moving then remove_others e (events_of c (cur s)) (pool s) else pool s in
  match find_state c (if send then enext e else enerr e) with
  | None => None
  | Some i => Some (enter_events moving (events_of c i) (St i p1 (armed s)), enter)
  end.

(** StateMachineEvent::ConsumeMessage 104-131. *)
Definition consume (c : config) (e : event) (m : string) (send enter : bool) (s : st) : option (st * bool) :=
  if String.eqb m (ename e) then
    if armed s (eid e) then event_triggered c e send enter (St (cur s) (pool s) (upd (armed s) (eid e) false)) else Some (s, true)
  else Some (s, false).

(** MessageFilterPool::ReceiveMessage (MessageFilterPool.cpp 53-70), from filter i on: the filters are asked in turn until one returns
    no error.  [orc] has the outcomes for the transitions started, in order. *)
Fixpoint receive (fuel : nat) (c : config) (m : string) (i : nat) (orc : list (bool * bool)) (s : st) : option st :=
  match fuel with
  | O => None
  | S k =>
    match nth_error (pool s) i with
    | None => Some s
    | Some e =>
      let '(send, enter) := match orc with o :: _ => o | [] => (true, true) end in
      let orc' := if String.eqb m (ename e) && armed s (eid e) then tl orc else orc in
      match consume c e m send enter s with
      | None => None
      | Some (s', true) => Some s'
      | Some (s', false) => receive k c m (S i) orc' s'
      end
    end
  end.

(** Processing one message (QueuedMessageI::QueueProcessing 100-136), and a sequence of messages. *)
Definition processed (c : config) (s : st) (m : string) (orc : list (bool * bool)) (s' : st) : Prop := exists fuel, receive fuel c m 0 orc s = Some s'.
Inductive runs (c : config) : st -> list (string * list (bool * bool)) -> st -> Prop :=
| runs_nil s : runs c s [] s
| runs_cons s m orc s1 r s2 : processed c s m orc s1 -> runs c s1 r s2 -> runs c s ((m, orc) :: r) s2.

(** StateMachine::Initialise 106-181 (its checks 110-162, and 163-172). *)
Definition has (c : config) (n : string) : bool := match find_state c n with Some _ => true | None => false end.
Definition state_ok (c : config) (p : string * list event) : bool :=
  forallb (fun e => has c (enext e) && has c (enerr e)) (snd p) && match snd p with [] => false | _ => true end.
Definition initialise (c : config) : option st :=
  if forallb (state_ok c) c then
    match c with
    | [] => None
    | p :: _ => Some (St 0 (fold_left (fun q e => install e q) (snd p) []) (fun _ => true))
    end
  else None.
