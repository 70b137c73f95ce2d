(** The same operations performed directly on the device. *)
From Verif Require Import Base BufStream_Model.

Definition dnext (d : dev) (o : bop) : dev :=
  match o with
  | BRead n => snd (os_read d n)
  | BWrite b => os_write d b
  | BSeek p => os_seek d p
  | BRel k => os_seek d (off d + k)
  | _ => d
  end.
(** Answers: those of the device, except that a Read that reaches the end of the data may report failure and a
    smaller size; the array then still receives all the bytes. *)
Definition dans (d : dev) (o : bop) (a : bans) : Prop :=
  match o with
  | BRead n => let r := fst (os_read d n) in
               b_bytes a = r /\
               ((b_ok a = true /\ b_num a = Z.of_nat (length r)) \/
                (os_size d < off d + n /\ b_ok a = false /\ 0 <= b_num a <= Z.of_nat (length r)))
  | BWrite b => a = BAns true (Z.of_nat (length b)) []
  | BSize => a = BAns true (os_size d) []
  | BPos => a = BAns true (off d) []
  | _ => a = BAns true 0 []
  end.
Fixpoint dhist (d : dev) (ops : list bop) (answers : list bans) : Prop :=
  match ops, answers with
  | [], [] => True
  | o :: ops, a :: answers => dans d o a /\ dhist (dnext d o) ops answers
  | _, _ => False
  end.
Fixpoint dfinal (d : dev) (ops : list bop) : dev := match ops with [] => d | o :: r => dfinal (dnext d o) r end.

(** The histories considered: positions stay inside the data; a relative seek comes in write mode (after a write or a
    flush, possibly with seeks in between); after a large Read, a Seek does not go back by less than a buffer.
    [size] buffer size, [w] write mode, [big] a large read has happened since the buffer was last filled or emptied. *)
Fixpoint usable (d : dev) (size : Z) (w big : bool) (ops : list bop) : Prop :=
  match ops with
  | [] => True
  | o :: r =>
    let d' := dnext d o in
    match o with
    | BRead n => 0 <= n < 2 ^ 32 /\ usable d' size false ((negb w && big) || (size <=? 4 * n)) r
    | BWrite b => Z.of_nat (length b) < 2 ^ 32 /\ usable d' size true false r
    | BSeek p => 0 <= p <= os_size d /\ (big = true -> p < off d - size \/ off d <= p) /\ usable d' size w false r
    | BRel k => w = true /\ 0 <= off d + k <= os_size d /\ usable d' size w big r
    | BFlush => usable d' size true false r
    | BSize => usable d' size w false r
    | BPos => usable d' size w big r
    | BSetBuf n => 0 <= n < 2 ^ 32 /\ usable d' (Z.max 8 n) w false r
    end
  end.
Definition written (o : bop) : Z := match o with BWrite d => Z.of_nat (length d) | _ => 0 end.
Definition total_written (ops : list bop) : Z := fold_right (fun o s => written o + s) 0 ops.
