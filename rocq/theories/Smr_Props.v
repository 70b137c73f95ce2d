(** C76: a stream over a block of memory behaves as a cursor over that block and never leaves it. *)
From Verif Require Import Base Smr_Model Smr_Spec Smr_Proofs.

(** For every block, writable or not, and every sequence of calls: each call returns what the view of the block says,
    no access leaves the block, and the caller's block ends as the view says.  What is missing: a size below the
    cursor, a size of 2^32 or more, a read or write after a relative move backwards; see the refutations. *)
Theorem C76_partial (w : bool) (m : list Z) (ops : list op) :
  Z.of_nat (length m) < 2 ^ 32 -> all_proper false (opened w m) ops ->
  exists b, run (open w m) ops = Some (fst (expects (opened w m) ops), b) /\
            cells b = block (snd (expects (opened w m) ops)) /\ length (cells b) = length m.
Proof.
  intros H P. destruct (run_ok _ _ _ _ (open_ok w m H) P) as (b & E & Q). exists b. split; [exact E|]. split; [exact Q|].
  rewrite Q. apply (block_len _ _ _ _ (open_ok w m H) P).
Qed.
Print Assumptions C76_partial.
Definition demo : list op :=
  [Write [1; 2; 3; 4; 5; 6]; Seek 1; Read 2; SetSize 3; RelSeek 5; Position; Seek 9; Position; Write [7]; Size; RelSeek (-2); Position; Seek 0; Read 9].
Example C76_partial_example : all_proper false (opened true [0; 0; 0; 0; 9]) demo /\
  match run (open true [0; 0; 0; 0; 9]) demo with
  | Some (rs, b) => rs = [RWritten true 5; RBool true; RBytes [2; 3]; RBool true; RBool false; RNum 3; RBool false; RNum 3;
                          RWritten true 1; RNum 4; RBool true; RNum 2; RBool true; RBytes [1; 2; 3; 7]] /\ cells b = [1; 2; 3; 7; 5]
  | None => False
  end.
Proof. split; [cbn; repeat split; try lia; discriminate|vm_compute; auto]. Qed.

(** A read-only block keeps its bytes. *)
Theorem C76_read_only_partial (m : list Z) (ops : list op) :
  Z.of_nat (length m) < 2 ^ 32 -> all_proper false (opened false m) ops ->
  exists rs b, run (open false m) ops = Some (rs, b) /\ cells b = m.
Proof.
  intros H P. destruct (run_ok _ _ _ _ (open_ok false m H) P) as (b & E & Q). exists (fst (expects (opened false m) ops)), b.
  split; [exact E|]. rewrite Q. destruct (block_len _ _ _ _ (open_ok false m H) P) as [_ K]. exact (K eq_refl).
Qed.
Print Assumptions C76_read_only_partial.
Example C76_read_only_example : all_proper false (opened false [5; 6]) [Size; Write [1]; Read 2; Write [1; 2]] /\
  match run (open false [5; 6]) [Size; Write [1]; Read 2; Write [1; 2]] with
  | Some (rs, b) => rs = [RNum 2; RWritten false 1; RBytes [5; 6]; RWritten false 2] /\ cells b = [5; 6]
  | None => False
  end.
Proof. split; [cbn; repeat split; lia|vm_compute; auto]. Qed.

(** What is written is read back after moving the cursor to where it was written. *)
Theorem C76_read_back (m pre d : list Z) :
  Z.of_nat (length m) < 2 ^ 32 -> (length pre + length d <= length m)%nat ->
  exists b, run (open true m) [Write pre; Write d; Seek (Z.of_nat (length pre)); Read (Z.of_nat (length d))] =
            Some ([RWritten true (Z.of_nat (length pre)); RWritten true (Z.of_nat (length d)); RBool true; RBytes d], b) /\
            cells b = pre ++ d ++ skipn (length pre + length d) m.
Proof.
  intros H L.
  destruct (run_ok [Write pre; Write d; Seek (Z.of_nat (length pre)); Read (Z.of_nat (length d))] _ _ _ (open_ok true m H)) as (b & E & Q).
  { cbn -[Z.pow]. change (2 ^ 64) with (2 ^ 32 * 2 ^ 32). repeat split; lia. }
  exists b. rewrite E, Q. clear E Q.
  assert (A1 : overwrite m 0 pre = pre ++ skipn (length pre) m) by reflexivity.
  assert (A2 : overwrite (pre ++ skipn (length pre) m) (Z.of_nat (length pre)) d = pre ++ d ++ skipn (length pre + length d) m).
  { unfold overwrite. rewrite Nat2Z.id, firstn_app, Nat.sub_diag, firstn_all2, app_nil_r by lia. do 2 f_equal.
    rewrite skipn_app. rewrite skipn_all2 by lia. cbn [app]. replace (length pre + length d - length pre)%nat with (length d) by lia.
    clear. revert m. induction (length pre); intros m; cbn; [reflexivity|]. destruct m; [now rewrite !skipn_nil|]. apply IHn. }
  unfold opened. cbn [expects expect writable block cur used room].
  unfold room. cbn [block]. rewrite Z.sub_0_r, Z.min_l by lia. rewrite Nat2Z.id, firstn_all, A1. cbn [writable].
  assert (A3 : length (pre ++ skipn (length pre) m) = length m) by (rewrite app_length, skipn_length; lia).
  rewrite A3, Z.add_0_l, (Z.min_l (Z.of_nat (length d))) by lia. rewrite Nat2Z.id, firstn_all, A2.
  cbn [fst snd block cur used writable].
  replace (Z.max (Z.max 0 (Z.of_nat (length pre))) (Z.of_nat (length pre) + Z.of_nat (length d))) with (Z.of_nat (length pre) + Z.of_nat (length d)) by lia.
  rewrite Z.min_l by lia. rewrite Z.min_l by lia. destruct (Z.leb_spec (Z.of_nat (length pre)) (Z.of_nat (length pre) + Z.of_nat (length d))); [|lia].
  split; [|reflexivity]. repeat f_equal. unfold part. rewrite !Nat2Z.id.
  rewrite skipn_app, Nat.sub_diag, skipn_all2 by lia. cbn [app skipn]. now rewrite firstn_app, Nat.sub_diag, firstn_all2, app_nil_r by lia.
Qed.
Print Assumptions C76_read_back.
Example C76_read_back_example : Z.of_nat (length [0; 0; 0; 0]) < 2 ^ 32 /\ (length [1] + length [2; 3] <= length [0; 0; 0; 0])%nat.
Proof. cbn; lia. Qed.

(** A relative move backwards leaves Position() right and the next byte read wrong: after four bytes are written and
    the cursor moved back by one, Position() is 3 and the byte read is the one at 2. *)
Theorem C76_relative_back_refuted :
  exists b, run (open true [0; 0; 0; 0; 0]) [Write [10; 11; 12; 13]; RelSeek (-1); Position; Read 1] =
            Some ([RWritten true 4; RBool true; RNum 3; RBytes [12]], b).
Proof. exists (SMR [10; 11; 12; 13; 0] true 1 1 3). vm_compute. reflexivity. Qed.
Print Assumptions C76_relative_back_refuted.
(** Moved back by three of four bytes, the next write is outside the block. *)
Theorem C76_relative_back_outside_refuted :
  exists b, run (open true [0; 0; 0; 0; 0]) [Write [10; 11; 12; 13]; RelSeek (-3)] = Some ([RWritten true 4; RBool true], b) /\
            step b Position = Some (RNum 1, b) /\ step b (Write [1]) = None /\ step b (Read 1) = None.
Proof. exists (SMR [10; 11; 12; 13; 0] true 4 1 4294967294). vm_compute. auto. Qed.
Print Assumptions C76_relative_back_outside_refuted.
(** A size below the cursor is accepted, and the next read runs past the size and out of the block. *)
Theorem C76_shrink_refuted :
  exists b, run (open true [0; 0; 0; 0]) [Write [10; 11; 12]; SetSize 1] = Some ([RWritten true 3; RBool true], b) /\
            match step b (Read 1) with Some (r, _) => r = RBytes [0] | None => False end /\ step b (Read 2) = None.
Proof. exists (SMR [10; 11; 12; 0] true 1 3 3). vm_compute. auto. Qed.
Print Assumptions C76_shrink_refuted.
(** A size of 2^32 + 1 is accepted on a block of four bytes. *)
Theorem C76_size_refuted :
  exists b, run (open true [0; 0; 0; 0]) [SetSize 4294967297; Size] = Some ([RBool true; RNum 1], b).
Proof. exists (SMR [0; 0; 0; 0] true 4 3 0). vm_compute. reflexivity. Qed.
Print Assumptions C76_size_refuted.
