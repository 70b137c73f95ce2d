(** Source/Core/BareMetal/L1Portability/FastResourceContainer.cpp used by any number of threads: every access to a sem or a
    size of the buffers is one action.  Memory is sequentially consistent, Atomic::TestAndSet, Increment and Decrement are
    atomic.  The int32 sizes are unbounded integers here: their absolute value never exceeds the number of resources plus
    the number of threads. *)
From Verif Require Import Base Conc.

(** 50-54: smallest power of two not below n, for n <= 2^31 (fuel 32). *)
Fixpoint grow (fuel : nat) (bit n : Z) : Z :=
  match fuel with
  | O => bit
  | S k => if bit <? n then grow k (uwrap 32 (Z.shiftl bit 1)) n else bit
  end.
Definition tree_half (n : Z) : Z := Z.shiftr (grow 32 1 n) 1.

Inductive ev :=
| ECallTake | ERetTake (r : option Z)    (* None: 0xFFFFFFFF *)
| ECallReturn (i : Z) | ERetReturn.

Inductive pc :=
| Idle
| TSize                                  (* 103: about to read buffers[0].size *)
| THead (bit pos path ret : Z)           (* 107: head of the search loop *)
| TTot (bit pos path ret tot : Z)        (* 147: tot read, about to read right *)
| TDec (pos temp bit : Z)                (* 112, 116: about to decrement buffers[temp].size *)
| TDecLoop (pos temp bit : Z)            (* 113: head of the loop *)
| TRet (r : option Z)
| RStore (i : Z)                         (* 180 *)
| RInc (temp bit : Z)                    (* 181, 187: about to increment buffers[temp].size *)
| RLoop (temp bit : Z)                   (* 184: head of the loop *)
| RRet.

Record sys := Sys { sem : Z -> Z; size : Z -> Z; pcs : nat -> pc; log : list (nat * ev) (* latest first *) }.
Definition put (f : Z -> Z) (i v : Z) : Z -> Z := fun x => if x =? i then v else f x.

(** A resource is out when it was taken and has not been given back since; those of a pool created taken start out. *)
Fixpoint out (taken : bool) (l : list (nat * ev)) (i : Z) : bool :=
  match l with
  | [] => taken
  | (_, ERetTake (Some j)) :: r => if j =? i then true else out taken r i
  | (_, ECallReturn j) :: r => if j =? i then false else out taken r i
  | _ :: r => out taken r i
  end.

(** 177-193 run alone, as the constructor does (65). *)
Fixpoint return_loop (fuel : nat) (half bit temp : Z) (sz : Z -> Z) : Z -> Z :=
  match fuel with
  | O => sz
  | S k => if bit <=? half then
             if negb (Z.land temp bit =? 0) then return_loop k half (uwrap 32 (Z.shiftl bit 1)) (temp - bit) (put sz (temp - bit) (sz (temp - bit) + 1))
             else return_loop k half (uwrap 32 (Z.shiftl bit 1)) temp sz
           else sz
  end.
Definition return_one (half i : Z) (sz : Z -> Z) : Z -> Z := return_loop 33 half 1 i (put sz i (sz i + 1)).
(** 44-67 *)
Definition init (n : Z) (taken : bool) : sys :=
  Sys (fun _ => 0)
      (if taken then fun _ => 0
       else fold_left (fun sz i => return_one (tree_half n) (Z.of_nat i) sz) (seq 0 (Z.to_nat n)) (fun _ => 0))
      (fun _ => Idle) [].

Inductive action :=
| ACall (t : nat) (e : ev)
| AStep (t : nat).

Section Pool.
Variables (n : Z) (taken : bool) (threads : nat).
Let half := tree_half n.
Definition inside (i : Z) : bool := (0 <=? i) && (i <? n).

(** The next action of a thread; None when it has none or when it would access the array out of its bounds. *)
Definition step (s : sys) (a : action) : option sys :=
  match a with
  | ACall t e =>
    if Nat.ltb t threads then
    match pcs s t with
    | Idle =>
      match e with
      | ECallTake => Some (Sys (sem s) (size s) (upd (pcs s) t TSize) ((t, e) :: log s))
      | ECallReturn i =>          (* a client gives back a resource that is out *)
        if inside i && out taken (log s) i then Some (Sys (sem s) (size s) (upd (pcs s) t (RStore i)) ((t, e) :: log s)) else None
      | _ => None
      end
    | _ => None
    end
    else None
  | AStep t =>
    let go p := Some (Sys (sem s) (size s) (upd (pcs s) t p) (log s)) in
    match pcs s t with
    | Idle => None
    | TSize => if inside 0 then go (if size s 0 =? 0 then TRet None else THead half 0 0 0) else None
    | THead bit pos path ret =>
      if bit <=? half then
        if bit =? 0 then         (* 108-128; after a failure the loop condition is evaluated at once, with the same outcome *)
          if inside pos then
            if sem s pos =? 0 then Some (Sys (put (sem s) pos 1) (size s) (upd (pcs s) t (TDec pos pos 1)) (log s))
            else Some (Sys (put (sem s) pos 1) (size s) (upd (pcs s) t (THead 1 (if negb (Z.land path 1 =? 0) then pos - 1 else pos) path ret)) (log s))
          else None
        else if negb (Z.land ret bit =? 0) then  (* 132-139 *)
          let bit' := uwrap 32 (Z.shiftl bit 1) in
          go (THead bit' (if negb (Z.land path bit' =? 0) then pos - bit' else pos) path (Z.ldiff ret bit))
        else if negb (Z.land path bit =? 0) then (* 142-145 *)
          if inside pos then go (TTot bit pos (Z.ldiff path bit) (Z.lor ret bit) (size s pos)) else None
        else                     (* 156-167 *)
          if uwrap 32 (pos + bit) <? n then
            if inside (uwrap 32 (pos + bit)) then
              if size s (uwrap 32 (pos + bit)) >? 0 then go (THead (Z.shiftr bit 1) (uwrap 32 (pos + bit)) (Z.lor path bit) ret)
              else go (THead bit pos (Z.lor path bit) ret)
            else None
          else go (THead bit pos (Z.lor path bit) ret)
      else go (TRet None)
    | TTot bit pos path ret tot =>  (* 146-154 *)
      if uwrap 32 (pos + bit) <? n then
        if inside (uwrap 32 (pos + bit)) then
          go (THead (if tot - size s (uwrap 32 (pos + bit)) >? 0 then Z.shiftr bit 1 else bit) pos path ret)
        else None
      else go (THead (if tot >? 0 then Z.shiftr bit 1 else bit) pos path ret)
    | TDec pos temp bit =>
      if inside temp then Some (Sys (sem s) (put (size s) temp (size s temp - 1)) (upd (pcs s) t (TDecLoop pos temp bit)) (log s)) else None
    | TDecLoop pos temp bit =>
      go (if bit <=? half then if negb (Z.land temp bit =? 0) then TDec pos (temp - bit) (uwrap 32 (Z.shiftl bit 1)) else TDecLoop pos temp (uwrap 32 (Z.shiftl bit 1))
          else TRet (Some pos))
    | TRet r => Some (Sys (sem s) (size s) (upd (pcs s) t Idle) ((t, ERetTake r) :: log s))
    | RStore i => if inside i then Some (Sys (put (sem s) i 0) (size s) (upd (pcs s) t (RInc i 1)) (log s)) else None
    | RInc temp bit =>
      if inside temp then Some (Sys (sem s) (put (size s) temp (size s temp + 1)) (upd (pcs s) t (RLoop temp bit)) (log s)) else None
    | RLoop temp bit =>
      go (if bit <=? half then if negb (Z.land temp bit =? 0) then RInc (temp - bit) (uwrap 32 (Z.shiftl bit 1)) else RLoop temp (uwrap 32 (Z.shiftl bit 1)) else RRet)
    | RRet => Some (Sys (sem s) (size s) (upd (pcs s) t Idle) ((t, ERetReturn) :: log s))
    end
  end.
End Pool.

(** An operation run to its end by a thread without interference. *)
Fixpoint run_alone (n : Z) (taken : bool) (threads fuel : nat) (s : sys) (t : nat) : option sys :=
  match fuel with
  | O => None
  | S k => match pcs s t with
           | Idle => Some s
           | _ => match step n taken threads s (AStep t) with None => None | Some s => run_alone n taken threads k s t end
           end
  end.

(** Source/Core/BareMetal/L4Logger/Logger.cpp, its operations run one at a time (thread 0 of each pool, n <= 2^31 pages). *)
Record logger := Logger { l_pages : sys (* pagesIndex *); l_logs : sys (* logsIndex *); l_text : Z -> Z (* the message in each page *) }.
(** 73-82 *)
Definition logger_new (n : Z) : logger := Logger (init n false) (init n true) (fun _ => 0).
Definition last_take (s : sys) : option Z := match log s with (_, ERetTake r) :: _ => r | _ => None end.
Definition call_alone (n : Z) (taken : bool) (s : sys) (e : ev) : option sys :=
  match step n taken 1 s (ACall 0 e) with None => None | Some s => run_alone n taken 1 1000 s 0 end.
(** LoggerErrorProcessFunction, 47-58, with GetPage 86-96 and AddLogEntry 106-110; the text of a message is a number here. *)
Definition log_message (n : Z) (g : logger) (m : Z) : option logger :=
  match call_alone n false (l_pages g) ECallTake with
  | None => None
  | Some p =>
    match last_take p with
    | None => Some (Logger p (l_logs g) (l_text g))
    | Some i => match call_alone n true (l_logs g) (ECallReturn i) with None => None | Some q => Some (Logger p q (put (l_text g) i m)) end
    end
  end.
(** GetLogEntry 112-121, use of the entry, ReturnPage 98-104 (as LoggerService does): the message found, if any. *)
Definition read_message (n : Z) (g : logger) : option (option Z * logger) :=
  match call_alone n true (l_logs g) ECallTake with
  | None => None
  | Some q =>
    match last_take q with
    | None => Some (None, Logger (l_pages g) q (l_text g))
    | Some i => match call_alone n false (l_pages g) (ECallReturn i) with None => None | Some p => Some (Some (l_text g i), Logger p q (l_text g)) end
    end
  end.
