From Verif Require Import Base Timeout_Model.

(** Elapsed time in microseconds, and in total *)
Definition us_of (e : elapsed) : Z := match e with Ems m => m * 1000 | Eus u => u end.
Definition total (es : list elapsed) : Z := fold_right (fun e s => us_of e + s) 0 es.
Definition elapsed_ok (e : elapsed) : Prop := match e with Ems m => 0 <= m < 2 ^ 32 | Eus u => 0 <= u < 2 ^ 64 end.
(** What a timeout of [u] microseconds has left after [e] microseconds *)
Definition remaining (u e : Z) : Z := Z.max 0 (u - e).

(** Every way of building a timeout, with the time it stands for in microseconds. *)
Inductive built : timeout -> Z -> Prop :=
| BInt32 m : - 2 ^ 31 <= m < 2 ^ 31 -> built (tt_of_int32 m) (Z.max 0 m * 1000)
| BUint32 m : 0 <= m < 2 ^ 32 -> built (tt_of_uint32 m) (m * 1000)
| BUint64 u : 0 <= u < 2 ^ 64 -> built (tt_of_uint64 u) u.
