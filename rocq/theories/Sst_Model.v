(** Model of the stack: Source/Core/BareMetal/L1Portability/StaticStack.h (S), on the model of the static list (StaticList_Model.v). *)
From Verif Require Import Base StaticList_Model.

(** S 155-158: Push, with what the heap answers *)
Definition push (s : slist) (v : list Z) (a : alloc) : option (bool * slist) := sl_add s (Some v) a.
(** S 160-163: Pop *)
Definition pop (s : slist) : option (bool * slist * list Z) := sl_extract s (uwrap 32 (sl_size s - 1)).
(** S 150-153: Peek; position 0 is the top *)
Definition peek (s : slist) (position : Z) : option (bool * list Z) := sl_peek s (uwrap 32 (uwrap 32 (sl_size s - position) - 1)).
(** S 145-148: GetSize *)
Definition get_size (s : slist) : Z := sl_size s.
(** S 135-138: Clean *)
Definition clean (s : slist) : slist := sl_clean s.
(** S 129-133: GetAllocatedMemoryConst: the offset, in elements, of the pointer to the top from the start of the block (None: NULL). The pointer arithmetic is not wrapped *)
Definition top_pointer (s : slist) : option Z := match sl_mem s with [] => None | _ => Some (sl_size s - 1) end.
