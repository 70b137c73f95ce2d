(** Model of the circular list: Source/Core/BareMetal/L1Portability/CircularStaticList.h (C), on the model of the static list (StaticList_Model.v). *)
From Verif Require Import Base StaticList_Model.

(** C 50-100: the base class and the index *)
Record clist := CList { cl_list : slist; cl_index : Z }.

(** C 109-113: each element is added as the bytes found in an uninitialised variable; the answers of the heap are inputs; the result of Add is ignored *)
Fixpoint fill (s : slist) (temps : list (list Z * alloc)) : option slist :=
  match temps with
  | [] => Some s
  | (v, a) :: temps => match sl_add s (Some v) a with Some (_, s) => fill s temps | None => None end
  end.
(** C 106-114: the constructor; the granularity of the base class is the default, 10 (StaticList.h 60) *)
Definition cl_new (e : Z) (temps : list (list Z * alloc)) : option clist :=
  match sl_new e 10 with
  | Some s => match fill s temps with Some s => Some (CList s 0) | None => None end
  | None => None
  end.
(** C 120-133: PushData *)
Definition cl_push (c : clist) (v : list Z) : option (bool * clist) :=
  match sl_set (cl_list c) (cl_index c) v with
  | None => None
  | Some (ok, s) =>
      let i := if ok then uwrap 32 (cl_index c + 1) else cl_index c in
      let i := if i =? sl_size s then 0 else i in
      Some (ok, CList s i)
  end.
(** C 135-143: PushData that gives the element it replaces *)
Definition cl_push_out (c : clist) (v : list Z) : option (bool * list Z * clist) :=
  match sl_peek (cl_list c) (cl_index c) with
  | None => None
  | Some (true, out) => match cl_push c v with Some (ok, c) => Some (ok, out, c) | None => None end
  | Some (false, out) => Some (false, out, c)
  end.
(** C 145-155: GetLast *)
Definition cl_last (c : clist) : option (bool * list Z) :=
  if 0 <? cl_index c then sl_peek (cl_list c) (uwrap 32 (cl_index c - 1))
  else sl_peek (cl_list c) (uwrap 32 (sl_size (cl_list c) - 1)).
