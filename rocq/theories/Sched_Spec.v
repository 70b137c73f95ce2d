(** What a history of the scheduler should look like: written on the log (latest event first), without reference to the code. *)
From Coq Require Import String.
From Verif Require Import Base Sched_Model.
Open Scope nat_scope.

(** The order of the executables of a thread: for each function its readers, itself, its writers. *)
Definition names (l : list (option exec)) : list exec := flat_map (fun x => match x with Some e => [e] | None => [] end) l.
Definition thread_order (gs : list gam) : list exec := flat_map (fun g => names (g_in g) ++ [g_self g] ++ names (g_out g)) gs.

(** The threads of the state of that name. *)
Definition declared (states : list (string * list (list exec))) (name : string) : option (list (list exec)) :=
  match find (fun p => String.eqb name (fst p)) states with Some (_, l) => Some l | None => None end.

(** Nothing has been started since the last successful StopCurrentStateExecution. *)
Fixpoint stopped (l : list ev) : bool :=
  match l with
  | [] => true
  | ERet OStop true :: _ => true
  | ECall OStart :: _ => false
  | _ :: l => stopped l
  end.
(** The state prepared by the last PrepareNextState, if it succeeded, and not yet started. *)
Fixpoint prepared (l : list ev) : option string :=
  match l with
  | [] => None
  | ERet (OPrepare name) ok :: _ => if ok then Some name else None
  | ECall OStart :: _ => None
  | _ :: l => prepared l
  end.
(** The client calls StartNextStateExecution only when the current state has been stopped and a state has been prepared. *)
Fixpoint disciplined (l : list ev) : Prop :=
  match l with
  | [] => True
  | ECall OStart :: l => stopped l = true /\ prepared l <> None /\ disciplined l
  | _ :: l => disciplined l
  end.
(** The state that was started last. *)
Fixpoint in_force (l : list ev) : option string :=
  match l with
  | [] => None
  | ECall OStart :: l => prepared l
  | _ :: l => in_force l
  end.
(** What the threads number i have executed since the last start, oldest first. *)
Fixpoint runs (i : nat) (l : list ev) : list (exec * outcome) :=
  match l with
  | [] => []
  | ECall OStart :: _ => []
  | ERun _ j e o :: l => if Nat.eqb i j then runs i l ++ [(e, o)] else runs i l
  | _ :: l => runs i l
  end.
(** Cycles over [es], each in order and from the first to the last or to the first that fails.  [rest]: what remains of the current
    cycle ([] between two cycles).  None: not such a sequence. *)
Fixpoint walk (es rest : list exec) (seq : list (exec * outcome)) : option (list exec) :=
  match seq with
  | [] => Some rest
  | (e, o) :: seq =>
    match (match rest with [] => es | _ => rest end) with
    | [] => None
    | x :: r => if Nat.eqb e x then walk es (match o with Failed => [] | _ => r end) seq else None
    end
  end.
Definition cycles (es : list exec) (seq : list (exec * outcome)) : Prop := walk es [] seq <> None.

(** A stricter client: it stops the current state before it prepares the next one, and prepares once. *)
Fixpoint strict (l : list ev) : Prop :=
  match l with
  | [] => True
  | ECall OStart :: l => stopped l = true /\ prepared l <> None /\ strict l
  | ECall (OPrepare _) :: l => stopped l = true /\ prepared l = None /\ strict l
  | _ :: l => strict l
  end.
