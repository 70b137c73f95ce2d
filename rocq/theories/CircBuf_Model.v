(** Source/Core/Scheduler/L5GAMs/CircularBufferThreadInputDataSource.cpp: the acquisition thread (Execute 838-973) and the reader
    (Synchronise 275-339, GetInputOffset 814-827, TerminateInputCopy 977-1003), for the synchronising signal. *)
From Verif Require Import Base Conc.

(** The index is below zero after a subtraction in uint32 (307-310, 820-823): "startFromIdx is negative hence the +". *)
Definition zwrap (n x : Z) : Z := if n <=? uwrap 32 x then uwrap 32 (uwrap 32 x + n) else uwrap 32 x.
(** Synchronise 307-310 *)
Definition zback (n last back : Z) : Z := zwrap n (last - back).
(** GetInputOffset 820-824 *)
Definition in_offset (n last samples size : Z) : Z := uwrap 32 (zwrap n (uwrap 32 (last - samples) + 1) * size).

Open Scope nat_scope.
(** numberOfBuffers, triggerAfterNSamples (the samples of the synchronising signal), getFirst *)
Record cfg := Cf { nbuf : nat; trig : nat; first : bool }.

(** The acquisition thread, for the signal: Execute 854-863 (DriverRead writes into the buffer), 900-912 (overlap check), 913-920. *)
Inductive ppc := PIdle | PWritten | PChecked.
(** The reader. *)
Inductive cpc :=
| Idle                             (* before Synchronise *)
| Scan (k : nat)                   (* 285-301, nStepsForward = k *)
| Back (k : nat)                   (* 303-310 *)
| Wait (m : nat)                   (* 315-333, numberOfSamplesSinceLastTrigger = m *)
| Copy (j i : nat) (b : list nat)  (* the broker has copied j samples, latest first; the next is in buffer i *)
| Clear (i : nat).                 (* TerminateInputCopy 986-998, index = i *)
(** [data i]: the number of the sample in buffer i (the samples are numbered as they are acquired); [fresh i]: isRefreshed; [cur], [npub]:
    currentBuffer and the samples published (919) so far; [marks]: the samples whose ErrorCheck has bit 1; [blocks]: what the reader was
    given, latest first; [freed]: the samples whose buffer was marked as read (993), latest first.
    Simplifications: StartupStage (957-964) is the initial state; [stop] is never set; one broker with one range reads the signal;
    ErrorCheck is defined and cleared before each sample (948-954); a copy of a sample is one step. *)
Record st := St { data : nat -> nat; fresh : nat -> bool; cur : nat; npub : nat; pp : ppc; marks : list nat;
                  last : nat; last1 : nat; cp : cpc; blocks : list (list nat); freed : list nat }.
Inductive act := Prod | Cons.

(** 286-289, 318-321, 989-991, 918-921 *)
Definition nxt (c : cfg) (i : nat) : nat := if nbuf c <=? S i then 0 else S i.
Definition back (c : cfg) (i k : nat) : nat := Z.to_nat (zback (Z.of_nat (nbuf c)) (Z.of_nat i) (Z.of_nat k)).
Definition start (c : cfg) (i : nat) : nat := Z.to_nat (in_offset (Z.of_nat (nbuf c)) (Z.of_nat i) (Z.of_nat (trig c)) 1).

Definition set_p (s : st) d f cu np p m : st := St d f cu np p m (last s) (last1 s) (cp s) (blocks s) (freed s).
Definition set_c (s : st) f l l1 p b r : st := St (data s) f (cur s) (npub s) (pp s) (marks s) l l1 p b r.
Definition step (c : cfg) (s : st) (a : act) : option st :=
  match a with
  | Prod =>
    match pp s with
    | PIdle => Some (set_p s (upd (data s) (cur s) (npub s)) (fresh s) (cur s) (npub s) PWritten (marks s))
    | PWritten => Some (set_p s (data s) (fresh s) (cur s) (npub s) PChecked (if fresh s (cur s) then npub s :: marks s else marks s))
    | PChecked => Some (set_p s (data s) (upd (fresh s) (cur s) true) (nxt c (cur s)) (S (npub s)) PIdle (marks s))
    end
  | Cons =>
    match cp s with
    | Idle => Some (set_c s (fresh s) (last s) (last s) (if first c then Back 0 else Scan 0) (blocks s) (freed s))     (* 280-281 *)
    | Scan k =>
      if k <? nbuf c then
        if fresh s (nxt c (last s)) then Some (set_c s (fresh s) (nxt c (last s)) (last1 s) (Scan (S k)) (blocks s) (freed s))
        else Some (set_c s (fresh s) (last s) (last1 s) (Back k) (blocks s) (freed s))
      else Some (set_c s (fresh s) (last s) (last1 s) Idle (blocks s) (freed s))                                      (* returns false *)
    | Back k => Some (set_c s (fresh s) (back c (last s) (k mod trig c)) (last1 s) (Wait (trig c)) (blocks s) (freed s))
    | Wait 0 => Some (set_c s (fresh s) (last s) (last1 s) (Copy 0 (start c (last s)) []) (blocks s) (freed s))
    | Wait (S m) => if fresh s (nxt c (last s)) then Some (set_c s (fresh s) (nxt c (last s)) (last1 s) (Wait m) (blocks s) (freed s)) else None
    | Copy j i b => if j <? trig c then Some (set_c s (fresh s) (last s) (last1 s) (Copy (S j) (nxt c i) (data s i :: b)) (blocks s) (freed s))
                    else Some (set_c s (fresh s) (last s) (last1 s) (Clear (last1 s)) (rev b :: blocks s) (freed s))
    | Clear i => if i =? last s then Some (set_c s (fresh s) (last s) (last1 s) Idle (blocks s) (freed s))
                 else Some (set_c s (upd (fresh s) (nxt c i) false) (last s) (last1 s) (Clear (nxt c i)) (blocks s)
                         (if fresh s (nxt c i) then data s (nxt c i) :: freed s else freed s))
    end
  end.
(** SetConfiguredDatabase 380-388 *)
Definition init (c : cfg) : st := St (fun _ => 0) (fun _ => false) 0 0 PIdle [] (nbuf c - 1) 0 Idle [] [].
