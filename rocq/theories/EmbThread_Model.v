(** Source/Core/Scheduler/L3Services/EmbeddedThread.cpp and EmbeddedThreadI.cpp: one embedded thread object, its service thread and a
    client that calls Start and Stop one after the other.  One action is one access to the shared fields, the start or the return of a
    callback, or the creation, end or killing of the service thread.  The mutex mux makes SetCommands and the test in lines 55-60
    single actions.  Assumed: BeginThread and Kill succeed; a thread identifier set by Start or by the thread (line 69) is the same. *)
From Verif Require Import Base Conc.

(** What a callback returns: no error, the completed flag (with or without others), or other errors. *)
Inductive res := CNone | CCompleted | CError.
Inductive stage := Startup | Main | Termination | BadTermination | AsyncTermination.
Inductive command := Start | KeepRunning | Stop | Kill.
(** EmbeddedThreadI.h: the states returned by GetStatus. *)
Inductive status := Off | Running | Starting | TimeoutStarting | Stopping | TimeoutStopping | Killing | TimeoutKilling.
(** SError: the error of the callback of Stop. *)
Inductive sres := SOk | SError | STimeout | SIllegal.
Inductive ev :=
| ECallStart | ERetStart (ok : bool) | ECallStop | ERetStop (r : sres)
| ECreate | EExit | EKill              (* the service thread begins, ends, is killed *)
| ECb (g : stage) | ECbRet (r : res).  (* a callback begins, returns *)

(** The service thread: EmbeddedThread.cpp ThreadLoop. *)
Inductive spc :=
| SDead
| STest                       (* 55-60 *)
| SSet                        (* 61 *)
| SOuter                      (* 67 *)
| SStartup | SInStartup       (* 69-74 *)
| SIf (r : res)               (* 80 *)
| SInner (r : res) (ok : bool) (* 84; r: err *)
| SMain | SInMain             (* 85 *)
| STerm (r : res) | SInTerm.  (* 91-98 *)
(** The client: EmbeddedThreadI.cpp.  Why GetStatus is called. *)
Inductive why := KStart | KStop | KStopLoop | KStopEnd | KKillLoop | KKillEnd.
Inductive cpc :=
| CIdle
| CAlive (k : why)            (* GetStatus 142-152 *)
| CRead1 (k : why)            (* 155 *)
| CRead2 (k : why)            (* 158 *)
| CRead3 (k : why)            (* 167 *)
| CStartSet | CBegin          (* 201, 204 *)
| CStartRet (ok : bool)
| CStopSet                    (* 223 *)
| CStopReset                  (* 231-233 *)
| CKillSet                    (* 237 *)
| CKillThread                 (* 250 *)
| CAsync | CInAsync           (* 254-257 *)
| CKillReset (r : res)        (* 258-261 *)
| CStopRet (r : sres).

(** tid: threadId is not the invalid identifier. *)
Record sys := Sys { commands : command; tid : bool; svc : spc; client : cpc; log : list ev (* latest first *) }.
(** 59-69 *)
Definition init : sys := Sys Stop false SDead CIdle [].
Definition is_keep (c : command) : bool := match c with KeepRunning => true | _ => false end.

(** One action of the service thread; r: what the callback returns, if this is its return. *)
Definition svc_step (c : command) (p : spc) (r : res) : option (command * spc * list ev) :=
  match p with
  | SDead => None
  | STest => Some (c, match c with Start => SSet | _ => SOuter end, [])
  | SSet => Some (KeepRunning, SOuter, [])
  | SOuter => if is_keep c then Some (c, SStartup, []) else Some (c, SDead, [EExit])
  | SStartup => Some (c, SInStartup, [ECb Startup])
  | SInStartup => Some (c, SIf r, [ECbRet r])
  | SIf r => Some (c, if is_keep c then SInner r true else STerm r, [])
  | SInner r ok => Some (c, if andb (is_keep c) ok then SMain else STerm r, [])
  | SMain => Some (c, SInMain, [ECb Main])
  | SInMain => Some (c, SInner r (match r with CNone => true | _ => false end), [ECbRet r])
  | STerm r => Some (c, SInTerm, [ECb (match r with CCompleted => Termination | _ => BadTermination end)])
  | SInTerm => Some (c, SOuter, [ECbRet r])
  end.
(** What the client does with the status. *)
Definition after (k : why) (st : status) : cpc :=
  match k with
  | KStart => match st with Off => CStartSet | _ => CStartRet false end                                             (* 194-200 *)
  | KStop =>                                                                                                         (* 219-265 *)
    match st with
    | Off => CStopRet SOk
    | Running | Starting | TimeoutStarting => CStopSet
    | TimeoutStopping | Stopping => CKillSet
    | Killing | TimeoutKilling => CStopRet SIllegal
    end
  | KStopLoop => match st with Stopping => CAlive KStopLoop | _ => CAlive KStopEnd end                               (* 226 *)
  | KStopEnd => match st with Off => CStopReset | _ => CStopRet STimeout end                                         (* 230 *)
  | KKillLoop => match st with Killing => CAlive KKillLoop | _ => CAlive KKillEnd end                                (* 243 *)
  | KKillEnd => match st with Off => CAsync | _ => CKillThread end                                                   (* 249 *)
  end.
Definition dead (p : spc) : bool := match p with SDead => true | _ => false end.

Inductive action :=
| ACallStart | ACallStop
| AClient (late : bool) (r : res)  (* late: the counter has passed maxCommandCompletionHRT; r: what the callback returns *)
| AService (r : res).
(** [finite]: timeoutHRT is not -1. *)
Definition step (finite : bool) (s : sys) (a : action) : option sys :=
  match a with
  | ACallStart => match client s with CIdle => Some (Sys (commands s) (tid s) (svc s) (CAlive KStart) (ECallStart :: log s)) | _ => None end
  | ACallStop => match client s with CIdle => Some (Sys (commands s) (tid s) (svc s) (CAlive KStop) (ECallStop :: log s)) | _ => None end
  | AService r =>
    match svc_step (commands s) (svc s) r with
    | None => None
    | Some (c, p, es) => Some (Sys c (tid s) p (client s) (es ++ log s))
    end
  | AClient late r =>
    let go q := Some (Sys (commands s) (tid s) (svc s) q (log s)) in
    let t (x y : status) := if andb late finite then x else y in
    match client s with
    | CIdle => None
    | CAlive k =>
      if tid s then if dead (svc s) then Some (Sys (commands s) false (svc s) (after k Off) (log s)) else go (CRead1 k) else go (after k Off)
    | CRead1 k => go (match commands s with KeepRunning => after k Running | _ => CRead2 k end)
    | CRead2 k => go (match commands s with Start => after k (t TimeoutStarting Starting) | _ => CRead3 k end)
    | CRead3 k => go (match commands s with Stop => after k (t TimeoutStopping Stopping) | _ => after k (t TimeoutKilling Killing) end)
    | CStartSet => Some (Sys Start (tid s) (svc s) CBegin (log s))
    | CBegin => Some (Sys (commands s) true STest (CStartRet true) (ECreate :: log s))
    | CStartRet ok => Some (Sys (commands s) (tid s) (svc s) CIdle (ERetStart ok :: log s))
    | CStopSet => Some (Sys Stop (tid s) (svc s) (CAlive KStopLoop) (log s))
    | CStopReset => Some (Sys (commands s) (if dead (svc s) then false else tid s) (svc s) (CStopRet SOk) (log s))
    | CKillSet => Some (Sys Kill (tid s) (svc s) (CAlive KKillLoop) (log s))
    | CKillThread => Some (Sys (commands s) (tid s) SDead CAsync ((if dead (svc s) then [] else [EKill]) ++ log s))
    | CAsync => Some (Sys (commands s) (tid s) (svc s) CInAsync (ECb AsyncTermination :: log s))
    | CInAsync => Some (Sys (commands s) (tid s) (svc s) (CKillReset r) (ECbRet r :: log s))
    | CKillReset x => Some (Sys (commands s) (if dead (svc s) then false else tid s) (svc s) (CStopRet (match x with CNone => SOk | _ => SError end)) (log s))
    | CStopRet x => Some (Sys (commands s) (tid s) (svc s) CIdle (ERetStop x :: log s))
    end
  end.
