(** An abstract file: a byte sequence with a cursor. *)
From Verif Require Import Base StrStream_Model.

Record file := File { bytes : list Z; cur : Z }.
Definition flen (f : file) : Z := Z.of_nat (length (bytes f)).

(** Overwrite from the cursor, extending the file at its end. *)
Definition f_write (f : file) (d : list Z) : file :=
  File (firstn (Z.to_nat (cur f)) (bytes f) ++ d ++ skipn (Z.to_nat (cur f) + length d) (bytes f)) (cur f + Z.of_nat (length d)).
Definition f_rest (f : file) : list Z := skipn (Z.to_nat (cur f)) (bytes f).
Fixpoint index_of (d : list Z) (c : Z) : option Z :=
  match d with [] => None | x :: r => if x =? c then Some 0 else option_map (Z.add 1) (index_of r c) end.

Definition fstep (f : file) (o : sop) : sans * file :=
  let done := SAns true 0 [] in
  match o with
  | SRead n => let d := firstn (Z.to_nat n) (f_rest f) in (SAns true (Z.of_nat (length d)) d, File (bytes f) (cur f + Z.of_nat (length d)))
  | SWrite d => (SAns true (Z.of_nat (length d)) [], f_write f d)
  | SSeek p => if p <=? flen f then (done, File (bytes f) p) else (SAns false 0 [], File (bytes f) (flen f))
  | SRel d => let p := cur f + d in
              if (d <? - 2 ^ 31) || (2 ^ 31 <=? d) then (SAns false 0 [], f)
              else if p <? 0 then (SAns false 0 [], File (bytes f) 0)
              else if flen f <? p then (SAns false 0 [], File (bytes f) (flen f))
              else (done, File (bytes f) p)
  | SSetSize n => (done, File (firstn (Z.to_nat n) (bytes f)) (Z.min (cur f) n))
  | SAppend d => (done, File (bytes f ++ d) (flen f + Z.of_nat (length d)))
  | SAppendC c => (done, File (bytes f ++ [c]) (flen f + 1))
  | SSet d => (done, File d (Z.of_nat (length d)))
  | SSetC c => (done, File [c] 1)
  | SGetC => match f_rest f with [] => (SAns false 0 [], f) | c :: _ => (SAns true 0 [c], File (bytes f) (cur f + 1)) end
  | SPutC c => (done, f_write f [c])
  | SSize => (SAns true (flen f) [], f)
  | SPos => (SAns true (cur f) [], f)
  | SBuffer => (SAns true 0 (bytes f ++ [0]), f)
  | SLocate c => (SAns true (match index_of (bytes f) c with Some i => i | None => -1 end) [], f)
  end.
Fixpoint frun (f : file) (ops : list sop) : list sans * file :=
  match ops with
  | [] => ([], f)
  | o :: r => let (a, f) := fstep f o in let (l, f) := frun f r in (a :: l, f)
  end.

(** Bytes a history can write; arguments in range. *)
Definition written (o : sop) : Z :=
  match o with SWrite d | SAppend d | SSet d => Z.of_nat (length d) | SAppendC _ | SSetC _ | SPutC _ => 1 | _ => 0 end.
Definition total_written (ops : list sop) : Z := fold_right (fun o s => written o + s) 0 ops.
Definition arg_ok (o : sop) : Prop :=
  match o with
  | SRead n => 0 <= n < 2 ^ 32
  | SSeek p => 0 <= p < 2 ^ 64
  | SRel d => - 2 ^ 63 <= d < 2 ^ 63
  | SSetSize n => 0 <= n < 2 ^ 32 - 128
  | _ => True
  end.

(** No backward relative seek *)
Definition forward (o : sop) : Prop := match o with SRel d => 0 <= d \/ d < - 2 ^ 31 | _ => True end.
(** Weaker: after a backward relative seek the bytes are not accessed at the cursor until the cursor is set by Seek,
    SetSize, Append or Set. [stale] tells that such a seek has happened. *)
Fixpoint usable (stale : bool) (ops : list sop) : Prop :=
  match ops with
  | [] => True
  | o :: r =>
    match o with
    | SRead _ | SWrite _ | SGetC | SPutC _ => stale = false /\ usable false r
    | SRel d => usable (stale || ((- 2 ^ 31 <=? d) && (d <? 0))) r
    | SSeek _ | SSetSize _ | SAppend _ | SAppendC _ | SSet _ | SSetC _ => usable false r
    | SSize | SPos | SBuffer | SLocate _ => usable stale r
    end
  end.
