(** Source/Core/BareMetal/L2Objects/Reference.cpp, Object.cpp (344-361) and ReferenceT.h: references to objects that themselves hold
    references.  An object is a number, a reference (a variable of class Reference or ReferenceT) is a slot, which is either a
    variable of the program (owner None) or a member of an object.  None as a result: freed memory is used.

    Simplifications: the reference counter (int32) does not overflow; CreateByName and the allocation of an object do not fail;
    the count is updated by one thread (see [cstep] below for several). *)
From Verif Require Import Base Conc.
Open Scope nat_scope.

(** [cnt]: referenceCounter; [live]: not yet deleted; [fields]: the member references, in the order in which the destructor destroys
    them; [slot]: None: there is no such variable (any more), Some p: objectPointer is p; [dead]: the objects deleted, latest first. *)
Record st := St { nobj : nat; nslot : nat; cnt : nat -> nat; live : nat -> bool; fields : nat -> list nat; owner : nat -> option nat;
                  slot : nat -> option (option nat); dead : list nat }.
Definition init : st := St 0 0 (fun _ => 0) (fun _ => false) (fun _ => []) (fun _ => None) (fun _ => None) [].
Definition set_slot (s : st) (x : nat) (v : option (option nat)) :=
  St (nobj s) (nslot s) (cnt s) (live s) (fields s) (owner s) (upd (slot s) x v) (dead s).
Definition set_cnt (s : st) (o n : nat) := St (nobj s) (nslot s) (upd (cnt s) o n) (live s) (fields s) (owner s) (slot s) (dead s).
Definition kill (s : st) (o : nat) := St (nobj s) (nslot s) (cnt s) (upd (live s) o false) (fields s) (owner s) (slot s) (o :: dead s).

(** Object::IncrementReferences (Object.cpp 350-353). *)
Definition inc (s : st) (o : nat) : option st := if live s o then Some (set_cnt s o (cnt s o + 1)) else None.

(** The destructors of the slots [todo] (Reference::~Reference 94-96, RemoveReference 158-167, Object::DecrementReferences 344-348);
    when an object is deleted (163) its member references are destroyed first. *)
Fixpoint release (fuel : nat) (todo : list nat) (s : st) : option st :=
  match todo with
  | [] => Some s
  | x :: r =>
    match fuel, slot s x with
    | S k, Some p =>
      let s1 := set_slot s x None in
      match p with
      | None => release k r s1
      | Some o =>
        if live s o then
          let s2 := set_cnt s1 o (cnt s o - 1) in
          if cnt s o - 1 =? 0 then release k (fields s o ++ r) (kill s2 o) else release k r s2
        else None
      end
    | _, _ => None
    end
  end.
(** Reference::RemoveReference 158-167 on a slot that stays (166 writes to it after the object has been deleted). *)
Definition drop (s : st) (d : nat) : option st :=
  match slot s d with
  | None => None
  | Some None => Some s
  | Some (Some o) =>
    if live s o then
      let s2 := set_cnt (set_slot s d (Some None)) o (cnt s o - 1) in
      match (if cnt s o - 1 =? 0 then release (nslot s) (fields s o) (kill s2 o) else Some s2) with
      | Some s' => match slot s' d with Some _ => Some s' | None => None end
      | None => None
      end
    else None
  end.

Inductive op :=
| ONew (k : nat)                          (* ReferenceT(heap) 203-218: a new object with k member references, and a variable for it *)
| OVar                                    (* Reference() 52-54 *)
| OCopy (x : nat)                         (* Reference(const Reference&) 56-59, to a new variable *)
| OAssign (d x : nat)                     (* Reference::operator=(const Reference&) 173-184 *)
| OAssignT (d x : nat) (cast : bool)      (* ReferenceT::operator=(const Reference&), ReferenceT.h 239-252; cast: the dynamic_cast succeeds *)
| OPtr (d o : nat)                        (* Reference::operator= from a pointer, 81-88 *)
| ORemove (d : nat)                       (* RemoveReference *)
| ODestroy (x : nat).                     (* ~Reference of a variable *)

Definition point (s : st) (d : nat) (p : option nat) : option st :=
  match p with None => Some s | Some o => match inc s o with Some s => Some (set_slot s d (Some (Some o))) | None => None end end.
Definition add_var (s : st) : st :=
  St (nobj s) (nslot s + 1) (cnt s) (live s) (fields s) (upd (owner s) (nslot s) None) (upd (slot s) (nslot s) (Some None)) (dead s).

Definition step (s : st) (a : op) : option st :=
  match a with
  | ONew k =>
    let o := nobj s in let v := nslot s in
    Some (St (o + 1) (v + 1 + k) (upd (cnt s) o 1) (upd (live s) o true) (upd (fields s) o (seq (v + 1) k))
             (fun x => if x =? v then None else if (v <? x) && (x <? v + 1 + k) then Some o else owner s x)
             (fun x => if x =? v then Some (Some o) else if (v <? x) && (x <? v + 1 + k) then Some None else slot s x) (dead s))
  | OVar => Some (add_var s)
  | OCopy x => match slot s x with None => None | Some p => point (add_var s) (nslot s) p end
  | OAssign d x =>
    match slot s d, slot s x with
    | Some _, Some _ => if d =? x then Some s else
        match drop s d with None => None | Some s1 => match slot s1 x with None => None | Some p => point s1 d p end end
    | _, _ => None
    end
  | OAssignT d x cast =>
    match slot s d, slot s x with
    | Some _, Some _ =>
        match drop s d with
        | None => None
        | Some s1 => match slot s1 x with
                     | None => None
                     | Some None => Some s1
                     | Some p => match point s1 d p with None => None | Some s2 => if cast then Some s2 else drop s2 d end
                     end
        end
    | _, _ => None
    end
  | OPtr d o => if live s o then match drop s d with None => None | Some s1 => point s1 d (Some o) end else None
  | ORemove d => drop s d
  | ODestroy x => match slot s x, owner s x with Some _, None => release (nslot s) [x] s | _, _ => None end
  end.

(** Reference::NumberOfReferences 186-193. *)
Definition number_of_references (s : st) (x : nat) : nat := match slot s x with Some (Some o) => cnt s o | _ => 0 end.

(** ** Several threads and one object *)
(** Thread t holds [held t] references to the object; [RRead]: it has executed Atomic::Decrement (Object.cpp 345) and will read the
    counter (346); [RDel]: it has read 0 and will delete the object. *)
Inductive rpc := RIdle | RRead | RDel.
Record cst := CSt { counter : nat; held : nat -> nat; pcs : nat -> rpc; deletes : nat }.
Definition cinit (start : nat -> nat) (total : nat) : cst := CSt total start (fun _ => RIdle) 0.
(** Thread t copies one of its references, and gives it to thread u (whatever variable or queue it goes through); thread t removes a
    reference; the next action of RemoveReference. *)
Inductive cact := CCopy (t u : nat) | CRemove (t : nat) | CNext (t : nat).
Definition cstep (s : cst) (a : cact) : option cst :=
  match a with
  | CCopy t u => match pcs s t, held s t with RIdle, S _ => Some (CSt (counter s + 1) (upd (held s) u (held s u + 1)) (pcs s) (deletes s)) | _, _ => None end
  | CRemove t => match pcs s t, held s t with RIdle, S h => Some (CSt (counter s - 1) (upd (held s) t h) (upd (pcs s) t RRead) (deletes s)) | _, _ => None end
  | CNext t =>
    match pcs s t with
    | RRead => Some (CSt (counter s) (held s) (upd (pcs s) t (if counter s =? 0 then RDel else RIdle)) (deletes s))
    | RDel => Some (CSt (counter s) (held s) (upd (pcs s) t RIdle) (deletes s + 1))
    | RIdle => None
    end
  end.
