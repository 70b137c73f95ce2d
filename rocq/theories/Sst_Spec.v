(** What a stack should be: the last value pushed is the first popped. *)
From Verif Require Import Base StaticList_Model Sst_Model.

Inductive sop := Push (v : list Z) (a : alloc) | Pop | Peek (position : Z) | Size | Clean.
Inductive sres := Done (ok : bool) | Value (ok : bool) (v : list Z) | Number (n : Z) | Unit.

Definition code_step (s : slist) (o : sop) : option (sres * slist) :=
  match o with
  | Push v a => match push s v a with Some (ok, s) => Some (Done ok, s) | None => None end
  | Pop => match pop s with Some (ok, s, v) => Some (Value ok v, s) | None => None end
  | Peek p => match peek s p with Some (ok, v) => Some (Value ok v, s) | None => None end
  | Size => Some (Number (get_size s), s)
  | Clean => Some (Unit, clean s)
  end.
Fixpoint code_run (s : slist) (ops : list sop) : option (list sres) :=
  match ops with
  | [] => Some []
  | o :: ops => match code_step s o with
                | None => None
                | Some (r, s) => match code_run s ops with Some rs => Some (r :: rs) | None => None end
                end
  end.

(** The top is the head of the list. There is room for [cap] values before memory is asked for; it is asked for g values at a time, of e bytes, in at most 2^32 - 1 bytes *)
Fixpoint ideal_run (e g : Z) (stack : list (list Z)) (cap : Z) (ops : list sop) : list sres :=
  match ops with
  | [] => []
  | Push v a :: ops =>
      if Z.of_nat (length stack) <? cap then Done true :: ideal_run e g (v :: stack) cap ops
      else match a with
           | Some _ => if cap + g <=? g * ((2 ^ 32 - 1) / (g * e)) then Done true :: ideal_run e g (v :: stack) (cap + g) ops
                       else Done false :: ideal_run e g stack cap ops
           | None => Done false :: ideal_run e g stack cap ops
           end
  | Pop :: ops => match stack with v :: rest => Value true v :: ideal_run e g rest cap ops | [] => Value false [] :: ideal_run e g [] cap ops end
  | Peek p :: ops => match nth_error stack (Z.to_nat p) with Some v => Value true v | None => Value false [] end :: ideal_run e g stack cap ops
  | Size :: ops => Number (Z.of_nat (length stack)) :: ideal_run e g stack cap ops
  | Clean :: ops => Unit :: ideal_run e g [] cap ops
  end.
(** The values have the size of an element, the positions are uint32 *)
Definition good (e : Z) (o : sop) : Prop :=
  match o with Push v _ => Z.of_nat (length v) = e | Peek p => 0 <= p < 2 ^ 32 | _ => True end.
