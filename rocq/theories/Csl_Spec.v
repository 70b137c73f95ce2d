(** What a circular list of n elements is for: it remembers the last n values that were pushed. *)
From Verif Require Import Base StaticList_Model Csl_Model.

Inductive cop := Push (v : list Z) | PushOut (v : list Z) | Last | Index | Size.
Inductive cres := Pushed (ok : bool) | Replaced (ok : bool) (v : list Z) | Value (ok : bool) (v : list Z) | Number (n : Z).

Definition code_step (c : clist) (o : cop) : option (cres * clist) :=
  match o with
  | Push v => match cl_push c v with Some (ok, c) => Some (Pushed ok, c) | None => None end
  | PushOut v => match cl_push_out c v with Some (ok, out, c) => Some (Replaced ok out, c) | None => None end
  | Last => match cl_last c with Some (ok, v) => Some (Value ok v, c) | None => None end
  | Index => Some (Number (cl_index c), c)
  | Size => Some (Number (sl_size (cl_list c)), c)
  end.
Fixpoint code_run (c : clist) (ops : list cop) : option (list cres) :=
  match ops with
  | [] => Some []
  | o :: ops => match code_step c o with
                | None => None
                | Some (r, c) => match code_run c ops with Some rs => Some (r :: rs) | None => None end
                end
  end.

(** All the values ever: the n initial ones, then those pushed. A push gives back the value of n pushes ago; the last is the last pushed; the index
    counts the pushes modulo n. Nothing is ever forgotten here: there is no buffer *)
Fixpoint ideal_run (n : nat) (ever : list (list Z)) (ops : list cop) : list cres :=
  match ops with
  | [] => []
  | Push v :: ops => Pushed true :: ideal_run n (ever ++ [v]) ops
  | PushOut v :: ops => Replaced true (nth (length ever - n) ever []) :: ideal_run n (ever ++ [v]) ops
  | Last :: ops => Value true (last ever []) :: ideal_run n ever ops
  | Index :: ops => Number (Z.of_nat ((length ever - n) mod n)) :: ideal_run n ever ops
  | Size :: ops => Number (Z.of_nat n) :: ideal_run n ever ops
  end.

(** The values pushed have the size of an element *)
Definition good (e : Z) (o : cop) : Prop := match o with Push v | PushOut v => Z.of_nat (length v) = e | _ => True end.
