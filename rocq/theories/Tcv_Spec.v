(** What TypeConvert should do, without reference to its code: where the elements of a value are in memory
    and what the conversion of one element is. *)
From Verif Require Import Base Bsb_Spec Tcv_Model.
From Verif Require IntText_Spec.
Local Open Scope nat_scope.

(** ** Where the elements are *)

(** Scalars, vectors and matrices: a string of characters counts as one element. *)
Definition order (a : any) : nat :=
  match a_ty a, a_dims a with
  | TChar, S k => k
  | _, n => n
  end.

(** The bytes of one element. The length of the strings is the first dimension, but in matrices of
    strings, where it is the third. *)
Definition width (a : any) : nat :=
  match a_ty a with
  | TChar => match a_dims a with 0 => 1 | 1 => a_n0 a | 2 => a_n0 a | _ => a_n2 a end
  | t => byte_size t
  end.

Definition rows (a : any) : nat := match order a with 2 => a_n1 a | _ => 1 end.
Definition cols (a : any) : nat :=
  match order a with
  | 0 => 1
  | 1 => if is_char (a_ty a) then a_n1 a else a_n0 a
  | _ => a_n0 a
  end.

(** The pointer that is stored at an address. *)
Definition pointer (m : list Z) (p : nat) : nat := Z.to_nat (unsigned_field m (8 * Z.of_nat p) 64).

(** The address of the element of row [r] and column [c]. *)
Definition place (m : list Z) (a : any) (r c : nat) : nat :=
  match order a with
  | 0 => a_ptr a
  | 1 => if is_char (a_ty a) && negb (a_static a) then pointer m (a_ptr a + 8 * c) else a_ptr a + c * width a
  | _ => if a_static a then a_ptr a + (r * cols a + c) * width a
         else let p := pointer m (a_ptr a + 8 * r) in
              if is_char (a_ty a) then pointer m (p + 8 * c) else p + c * width a
  end.

(** The addresses of the pointers that lead to the elements. *)
Definition tables (m : list Z) (a : any) : list nat :=
  match order a with
  | 0 => []
  | 1 => if is_char (a_ty a) && negb (a_static a) then map (fun c => a_ptr a + 8 * c) (seq 0 (cols a)) else []
  | _ => if a_static a then []
         else map (fun r => a_ptr a + 8 * r) (seq 0 (rows a)) ++
              (if is_char (a_ty a) then
                 flat_map (fun r => map (fun c => pointer m (a_ptr a + 8 * r) + 8 * c) (seq 0 (cols a))) (seq 0 (rows a))
               else [])
  end.

Definition standard (t : ty) : Prop :=
  match t with
  | TInt b _ => (b = 8 \/ b = 16 \/ b = 32 \/ b = 64)%Z
  | TFlt b => (b = 32 \/ b = 64)%Z
  | _ => True
  end.

(** The value is in memory. *)
Record laid_out (m : list Z) (a : any) : Prop := {
  lo_type : standard (a_ty a);
  lo_order : order a <= 2;
  lo_tables : forall p, In p (tables m a) -> p + 8 <= length m;
  lo_places : forall r c, r < rows a -> c < cols a -> place m a r c + width a <= length m;
  lo_small : (Z.of_nat (rows a * cols a * width a) < 2 ^ 32)%Z;
  lo_rows : (Z.of_nat (rows a * cols a) < 2 ^ 32)%Z;
  lo_width : (Z.of_nat (width a) < 2 ^ 32)%Z;
  lo_scalar : a_dims a = 0 -> a_n0 a = 1 }.

(** Two regions of memory have no common byte. *)
Definition apart (p n q k : nat) : Prop := p + n <= q \/ q + k <= p.

(** The elements of the destination are distinct, distinct from those of the source and from the pointers. *)
Record separate (m : list Z) (d s : any) : Prop := {
  se_elements : forall r c r' c', r < rows d -> c < cols d -> r' < rows d -> c' < cols d ->
    (r, c) <> (r', c') -> apart (place m d r c) (width d) (place m d r' c') (width d);
  se_source : forall r c r' c', r < rows d -> c < cols d -> r' < rows s -> c' < cols s ->
    apart (place m d r c) (width d) (place m s r' c') (width s);
  se_tables : forall r c p, r < rows d -> c < cols d -> In p (tables m d) \/ In p (tables m s) ->
    apart (place m d r c) (width d) p 8 }.

(** ** The conversion of one element *)

(** The text in an array of characters: what precedes the first NUL. *)
Fixpoint text_in (l : list Z) : list Z :=
  match l with
  | [] => []
  | c :: r => if (c =? 0)%Z then [] else c :: text_in r
  end.

(** [new] is the array [old] after the text [t] is stored in it, truncated when it is too long. *)
Definition holds_text (t old new : list Z) : Prop :=
  if length t <? length old then new = t ++ 0%Z :: skipn (S (length t)) old
  else if 1 <? length old then new = firstn (length old - 1) t ++ [0%Z]
  else new = firstn (length old) t.

Definition small_letter (c : Z) : Z := if ((65 <=? c) && (c <=? 90))%Z then (c + 32)%Z else c.

(** true, 1 and yes *)
Definition means_true (t : list Z) : Prop :=
  In (map small_letter t) [[116; 114; 117; 101]; [49]; [121; 101; 115]]%Z.

Definition text_of_bool (b : bool) : list Z := if b then [116; 114; 117; 101]%Z else [102; 97; 108; 115; 101]%Z.

Section Element.

Variable number : ty -> ty -> list Z -> bool * list Z.
Variable text : ty -> list Z -> option (list Z).

(** The element [old] of the destination becomes [new] from the element [src] of the source; [ok] tells whether
    the conversion succeeds. *)
Definition good_element (dt st : ty) (src old : list Z) (ok : bool) (new : list Z) : Prop :=
  match st, dt with
  | TInt sb sg, TInt db dg => ok = true /\ field new 0 db dg = nearest db dg (field src 0 sb sg)
  | TInt sb sg, TBool => ok = true /\ new = [if (field src 0 sb sg =? 1)%Z then 1%Z else 0%Z]
  | TInt sb sg, TChar => ok = true /\ exists t, IntText_Spec.decimal_text t (field src 0 sb sg) /\ holds_text t old new
  | TBool, TInt db dg => ok = true /\ field new 0 db dg = (if (field src 0 8 false =? 0)%Z then 0 else 1)%Z
  | TBool, TBool => ok = true /\ new = src
  | TBool, TChar => ok = true /\ holds_text (text_of_bool (negb (field src 0 8 false =? 0)%Z)) old new
  | TBool, TFlt _ => ok = false /\ new = old
  | TFlt b, TBool => ok = false /\ new = [0%Z]
  | TFlt b, TFlt b' =>
      if (b =? b')%Z then ok = true /\ new = src
      else ok = fst (number dt st src) /\ new = snd (number dt st src) ++ skipn (length (snd (number dt st src))) old
  | TFlt b, TChar =>
      match text st src with
      | Some t => ok = true /\ holds_text t old new
      | None => ok = false /\ new = old
      end
  | TFlt _, TInt _ _ | TInt _ _, TFlt _ =>
      ok = fst (number dt st src) /\ new = snd (number dt st src) ++ skipn (length (snd (number dt st src))) old
  | TChar, TFlt _ =>
      ok = fst (number dt st (text_in src)) /\
      new = snd (number dt st (text_in src)) ++ skipn (length (snd (number dt st (text_in src)))) old
  | TChar, TChar => ok = true /\ new = src ++ skipn (length src) old
  | TChar, TInt db dg =>
      length (text_in src) <= 1000 ->
      forall v, IntText_Spec.int_literal (ITy db dg) (text_in src) v <-> ok = true /\ field new 0 db dg = v
  | TChar, TBool => ok = true /\ (means_true (text_in src) /\ new = [1%Z] \/ ~ means_true (text_in src) /\ new = [0%Z])
  end.

(** The conversions to floating point numbers write no more than a number of the type. *)
Definition fair : Prop :=
  (forall d s b, bytes (snd (number d s b)) /\ length (snd (number d s b)) <= byte_size d) /\
  (forall s b t, text s b = Some t -> bytes t).

End Element.

(** A source of strings that can be converted: a string does not exceed the room of the destination, or has a
    terminator when it is converted to something else. *)
Definition readable (m : list Z) (d s : any) : Prop :=
  match a_ty s, a_ty d with
  | TChar, TChar => width s <= width d
  | TChar, _ => forall r c, r < rows s -> c < cols s -> In 0%Z (slice m (place m s r c) (width s))
  | _, _ => True
  end.

(** The memory [m'] is [m] but for the elements of [a]. *)
Definition kept_but (m : list Z) (a : any) (m' : list Z) : Prop :=
  length m' = length m /\ bytes m' /\
  forall i, (forall r c, r < rows a -> c < cols a -> i < place m a r c \/ place m a r c + width a <= i) ->
    nth i m' 0%Z = nth i m 0%Z.

(** The value of the element of row [r] and column [c], in memory [m'], of a value that is laid out in [m]. *)
Definition element_of (m m' : list Z) (a : any) (r c : nat) : list Z := slice m' (place m a r c) (width a).

(** The same number of rows and columns. *)
Definition same_shape (d s : any) : Prop := order d = order s /\ rows d = rows s /\ cols d = cols s.
