(** Source/Core/BareMetal/L1Portability/TimeoutType.h.  The conversions from and to seconds and timer ticks
    (229-251) use floating point and are not modelled. *)
From Verif Require Import Base.

Record timeout := TT { msec : Z; usec : Z }.

(** 204-213 *)
Definition tt_of_int32 (msecs : Z) : timeout :=
  if msecs <? 0 then TT 0 0 else TT (uwrap 32 msecs) (uwrap 64 (uwrap 32 msecs * 1000)).
(** 214-217 *)
Definition tt_of_uint32 (msecs : Z) : timeout := TT msecs (uwrap 64 (msecs * 1000)).
(** 219-227 *)
Definition tt_of_uint64 (usecs : Z) : timeout :=
  TT (if usecs / 1000 >? 4294967295 then 4294967295 else uwrap 32 (usecs / 1000)) usecs.
(** 253-264 *)
Definition tt_sub_ms (t : timeout) (mSecs : Z) : timeout :=
  let aux := uwrap 64 (mSecs * 1000) in
  if usec t >? aux then let u := uwrap 64 (usec t - aux) in TT (uwrap 32 (u / 1000)) u
  else TT 0 0.
(** 266-281 *)
Definition tt_sub_us (t : timeout) (uSecs : Z) : timeout :=
  if usec t >? uSecs then
    let u := uwrap 64 (usec t - uSecs) in
    TT (if u / 1000 >? 4294967295 then 4294967295 else uwrap 32 (u / 1000)) u
  else TT 0 0.
(** 283-291 *)
Definition tt_eq (a b : timeout) : bool := usec a =? usec b.
(** 301-303 *)
Definition tt_finite (t : timeout) : bool := msec t <? 4294967294.

(** 173-194 *)
Definition TTNoWait := tt_of_uint32 0.
Definition TTInfiniteWait := tt_of_uint32 4294967295.
Definition TTInfiniteWait64 := tt_of_uint64 18446744073709551615.

(** One subtraction of elapsed time *)
Inductive elapsed := Ems (ms : Z) | Eus (us : Z).
Definition tt_sub (t : timeout) (e : elapsed) : timeout := match e with Ems m => tt_sub_ms t m | Eus u => tt_sub_us t u end.
Definition tt_run (t : timeout) (es : list elapsed) : timeout := fold_left tt_sub es t.
