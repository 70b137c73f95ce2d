(** The values that the memory holds, and what the objects must hold. *)
From Verif Require Import Any_Model.
From Coq Require Import List Arith ZArith Lia Bool.
Import ListNotations.
Open Scope nat_scope.

(** A value: rows of bytes, rows of strings, or an address *)
Inductive content := Bytes (rows : list (list cell)) | Texts (rows : list (list (list Z))) | Address (c : cell).
(** All the results, or none *)
Fixpoint all {A B} (f : A -> option B) (l : list A) : option (list B) :=
  match l with [] => Some [] | a :: t => match f a, all f t with Some b, Some r => Some (b :: r) | _, _ => None end end.
(** The string behind a pointer *)
Definition text_at (h : heap) (c : cell) : option (list Z) :=
  match c with Addr i => match get h i with Some b => c_text b | None => None end | _ => None end.
Definition texts_at (h : heap) (n : nat) (c : cell) : option (list (list Z)) :=
  match load h c n with Some cs => all (text_at h) cs | None => None end.
Definition one {A} (f : list (list A) -> content) (o : option (list A)) : option content :=
  match o with Some r => Some (f [r]) | None => None end.
Definition many {A} (f : list (list A) -> content) (o : option (list (list A))) : option content :=
  match o with Some r => Some (f r) | None => None end.
(** n elements in one block *)
Definition flat (h : heap) (k : kind) (c : cell) (n : nat) : option content :=
  match k with
  | Plain s => one Bytes (load h c (s * n))
  | Str | CStr => one Texts (texts_at h n c)
  | Pointer => None
  end.
(** Rows of n elements, each in its block *)
Definition by_rows (h : heap) (k : kind) (c : cell) (n m : nat) : option content :=
  match load h c m with
  | Some cs => match k with
               | Plain s => many Bytes (all (fun c => load h c (s * n)) cs)
               | Str | CStr => many Texts (all (texts_at h n) cs)
               | Pointer => None
               end
  | None => None
  end.
(** The value that a descriptor designates, if it is of a form that can be stored: at most three dimensions, strings in at most two *)
Definition value (h : heap) (d : desc) : option content :=
  match nd d with
  | 0 => match kd d with
         | Plain s => one Bytes (load h (ptr d) s)
         | Str | CStr => match text_at h (ptr d) with Some t => Some (Texts [[t]]) | None => None end
         | Pointer => Some (Address (ptr d))
         end
  | 1 => flat h (kd d) (ptr d) (n0 d)
  | 2 => if static d then flat h (kd d) (ptr d) (n0 d * n1 d) else by_rows h (kd d) (ptr d) (n0 d) (n1 d)
  | 3 => if static d then match kd d with Plain s => one Bytes (load h (ptr d) (s * (n0 d * n1 d * n2 d))) | _ => None end else None
  | _ => None
  end.
(** No empty dimension, no empty type *)
Definition sized (d : desc) : Prop := 0 < n0 d /\ 0 < n1 d /\ 0 < n2 d /\ 0 < size (kd d).
(** A value with its type and dimensions; a StreamString is stored as a C string *)
Record stored := Stored { s_kind : kind; s_dims : nat * nat * nat * nat; s_static : bool; s_value : content }.
Definition as_stored (d : desc) (v : content) : stored :=
  Stored (match kd d with Str => CStr | k => k end) (nd d, n0 d, n1 d, n2 d) (static d) v.
(** Forms that are refused: strings and values that are not static in three dimensions, more than three dimensions *)
Definition refused (d : desc) : Prop := 3 < nd d \/ (nd d = 3 /\ (static d = false \/ is_text (kd d) = true)).

(** A source that can be read when the object has dropped what it held: it does not lie in the memory of that object *)
Definition good_source (w : world) (k : nat) (src : desc) (v : content) : Prop :=
  sized src /\ exists h d, clean_up (mem w) (objs w k) = Some (h, d) /\ value h src = Some v.

(** The history of what each object must hold. *)
Inductive history : list op -> world -> (nat -> option stored) -> Prop :=
| H_start : history [] start (fun _ => None)
| H_store l w a k src v w' : history l w a -> good_source w k src v -> step w (Serialise k src) = Some (true, w') ->
    history (l ++ [Serialise k src]) w' (upd a k (Some (as_stored src v)))
| H_refuse l w a k src w' : history l w a -> sized src -> refused src -> step w (Serialise k src) = Some (false, w') ->
    history (l ++ [Serialise k src]) w' (upd a k None)
| H_clean l w a k w' : history l w a -> step w (CleanUp k) = Some (true, w') -> history (l ++ [CleanUp k]) w' (upd a k None)
| H_client l w a o b w' : history l w a -> match o with Serialise _ _ | CleanUp _ => False | _ => True end ->
    step w o = Some (b, w') -> history (l ++ [o]) w' a.

Definition holds (w : world) (k : nat) (s : stored) : Prop :=
  exists v, value (mem w) (objs w k) = Some v /\ s = as_stored (objs w k) v.
