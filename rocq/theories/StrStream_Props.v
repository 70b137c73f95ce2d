(** C16: a StreamString is a growing seekable byte file. *)
From Verif Require Import Base StrStream_Model StrStream_Spec StrStream_Proofs.

(** Every history without a backward RelativeSeek gives the answers of the abstract file, and is free of undefined
    behaviour: no access outside the block and no read of uninitialised memory.  SBuffer answers the C string:
    all written bytes followed by the terminator. *)
Theorem C16_file_history_partial ops : Forall arg_ok ops -> Forall forward ops -> total_written ops < 2 ^ 31 ->
  exists b0 b, s_new = Some b0 /\ srun b0 ops = Some (fst (frun (File [] 0) ops), b).
Proof.
  intros A F B. destruct new_ok as (b0 & E0 & R0). exists b0.
  assert (N : usable false ops).
  { clear - F. induction F as [|o ops Ho F IH]; cbn [usable]; [auto|]. destruct o; auto. cbn [forward] in Ho.
    replace ((- 2 ^ 31 <=? d) && (d <? 0)) with false by lia. exact IH. }
  destruct (run_ok ops b0 _ false R0 A N ltac:(unfold flen; cbn; lia)) as (b & s & E & _). eauto.
Qed.

(** Stronger: backward relative seeks are allowed as long as the next access at the cursor comes after a call that
    sets the cursor. *)
Theorem C16_file_history_backward_partial ops : Forall arg_ok ops -> usable false ops -> total_written ops < 2 ^ 31 ->
  exists b0 b, s_new = Some b0 /\ srun b0 ops = Some (fst (frun (File [] 0) ops), b).
Proof.
  intros A N B. destruct new_ok as (b0 & E0 & R0). exists b0.
  destruct (run_ok ops b0 _ false R0 A N ltac:(unfold flen; cbn; lia)) as (b & s & E & _). eauto.
Qed.

(** What is missing, and false: RelativeSeek backwards moves the read pointer twice the distance.  Reading back one
    byte returns the byte before it; a longer move leaves the block. *)
Theorem C16_relative_seek_back_refuted :
  ~ (forall ops, Forall arg_ok ops -> total_written ops < 2 ^ 31 ->
     exists b0 b, s_new = Some b0 /\ srun b0 ops = Some (fst (frun (File [] 0) ops), b)).
Proof.
  intros H. destruct (H [SWrite [104; 101; 108; 108; 111]; SRel (-1); SRead 1]) as (b0 & b & E0 & E).
  - repeat constructor; cbn; lia.
  - cbn. lia.
  - vm_compute in E0. injection E0 as <-. vm_compute in E. discriminate.
Qed.
Theorem C16_relative_seek_back_out_of_bounds_refuted :
  ~ (forall ops, Forall arg_ok ops -> total_written ops < 2 ^ 31 -> exists b0, s_new = Some b0 /\ srun b0 ops <> None).
Proof.
  intros H. destruct (H [SWrite [104; 101; 108; 108; 111]; SRel (-3); SRead 1]) as (b0 & E0 & E).
  - repeat constructor; cbn; lia.
  - cbn. lia.
  - vm_compute in E0. injection E0 as <-. apply E. vm_compute. reflexivity.
Qed.
(** Appending a string to itself reads freed memory once the block has to grow. *)
Theorem C16_self_append_refuted :
  ~ (forall d b0 a b, Z.of_nat (length d) < 2 ^ 30 -> s_new = Some b0 -> srun b0 [SWrite d] = Some (a, b) -> s_append_self b <> None).
Proof.
  intros H. assert (E : exists b0 a b, s_new = Some b0 /\ srun b0 [SWrite (repeat 65 40)] = Some (a, b) /\ s_append_self b = None).
  { do 3 eexists. split; [vm_compute; reflexivity|]. split; [vm_compute; reflexivity|]. vm_compute. reflexivity. }
  destruct E as (b0 & a & b & E1 & E2 & E3). apply (H (repeat 65 40) b0 a b); auto. rewrite repeat_length. lia.
Qed.

(** A history that grows the block across granularity boundaries, overwrites in the middle, truncates and reads. *)
Definition demo16 : list sop :=
  [SWrite (repeat 65 63); SPutC 66; SSeek 60; SWrite [1; 2; 3; 4; 5; 6; 7]; SSize; SPos; SSetSize 62; SPos; SSeek 59; SRead 100; SRead 1;
   SRel (-10); SPos; SSeek 0; SGetC; SAppend [9]; SBuffer; SLocate 2; SLocate 77; SRel (-1); SSet [8; 7]; SBuffer].
Example C16_nonvacuous : Forall arg_ok demo16 /\ usable false demo16 /\ total_written demo16 < 2 ^ 31 /\
  skipn 4 (firstn 12 (fst (frun (File [] 0) demo16))) =
    [SAns true 67 []; SAns true 67 []; SAns true 0 []; SAns true 62 []; SAns true 0 []; SAns true 3 [65; 1; 2]; SAns true 0 []; SAns true 0 []].
Proof.
  split; [repeat constructor; cbn; lia|]. split; [cbn; auto 20|]. split; [vm_compute; auto|vm_compute; reflexivity].
Qed.

Print Assumptions C16_file_history_partial.
Print Assumptions C16_file_history_backward_partial.
Print Assumptions C16_relative_seek_back_refuted.
Print Assumptions C16_relative_seek_back_out_of_bounds_refuted.
Print Assumptions C16_self_append_refuted.
