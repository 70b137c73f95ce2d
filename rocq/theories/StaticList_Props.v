(** Property theorems about static lists. *)
From Verif Require Import Base StaticList_Model StaticList_Spec StaticList_Proofs.

(** C11.  For every element size e and granularity g (g*e below 2^32, as the constructor needs), every
    history of operations on a new list, with any answers of the heap: no access outside the allocated
    block, and every result is that of the same operations on a sequence of values.  An Add or Insert is
    refused exactly when the list is full and it cannot grow (heap refusal, or 2^32 - 1 bytes reached),
    and then nothing changes.  For one-byte elements the history must be shorter than 2^32 - 2g
    operations, because the capacity arithmetic is 32 bit. *)
Theorem C11_static_list_history : forall e g ops, 1 <= e -> 1 <= g -> g * e < 2 ^ 32 ->
  (2 <= e \/ Z.of_nat (length ops) + 2 * g < 2 ^ 32) -> Forall (good_op e) ops ->
  exists s, sl_new e g = Some s /\ code_run s ops = Some (seq_run e g [] 0 ops).
Proof.
  intros e g ops He Hg H HW G. assert (OK : sizes_ok e g) by (split; auto).
  destruct (new_ok e g OK) as (s & E). exists s. split; [exact E|].
  apply (run_ok e g OK ops s [] 0 0); auto; [exact (Rep_new e g s OK E)|cbn; lia|lia].
Qed.
Print Assumptions C11_static_list_history.

(** When memory is never refused and the limit is not reached, no operation is refused for lack of room:
    the list of values after n Add operations is exactly the n values. *)
Theorem C11_add_all : forall e g vs, 2 <= e -> 1 <= g -> g * e < 2 ^ 32 -> Z.of_nat (length vs) <= max_elements e g ->
  Forall (fun v => Z.of_nat (length v) = e) vs ->
  exists s, sl_new e g = Some s /\
    code_run s (map (fun v => OAdd v (Some (fun _ => 0))) vs ++ map (fun i => OPeek (Z.of_nat i)) (seq 0 (length vs)) ++ [OSize]) =
    Some (map (fun _ => RBool true) vs ++ map (RVal true) vs ++ [RNum (Z.of_nat (length vs))]).
Proof.
  intros e g vs He Hg H HL V.
  destruct (C11_static_list_history e g (map (fun v => OAdd v (Some (fun _ => 0))) vs ++ map (fun i => OPeek (Z.of_nat i)) (seq 0 (length vs)) ++ [OSize])) as (s & E & R); auto; try lia.
  { apply Forall_app. split; [|apply Forall_app; split].
    - apply Forall_map. eapply Forall_impl; [|exact V]. auto.
    - apply Forall_map, Forall_forall. intros i Hi. apply in_seq in Hi. cbn.
      pose proof (max_bound e g ltac:(split; auto; lia)). nia.
    - repeat constructor. }
  exists s. split; [exact E|]. rewrite R. f_equal. clear R E s.
  assert (ADD : forall l cap rest vs', vs = l ++ vs' -> Z.of_nat (length l) <= cap -> (exists k, cap = g * k) ->
     cap <= max_elements e g ->
     exists c, seq_run e g l cap (map (fun v => OAdd v (Some (fun _ => 0))) vs' ++ rest) = map (fun _ => RBool true) vs' ++ seq_run e g vs c rest).
  { intros l cap rest vs'. revert l cap. induction vs' as [|v vs' IH]; intros l cap EV Hc (k & Hk) HM.
    - rewrite app_nil_r in EV. subst l. exists cap. reflexivity.
    - cbn [map app seq_run seq_step]. unfold grow.
      assert (LV : Z.of_nat (length vs) = Z.of_nat (length l) + 1 + Z.of_nat (length vs')) by (rewrite EV, app_length; cbn [length]; lia).
      destruct (Z.of_nat (length l) <? cap) eqn:E1.
      + destruct (IH (l ++ [v]) cap) as (c & EC); [rewrite <- app_assoc; exact EV|rewrite app_length; cbn; lia|eauto|auto|].
        exists c. rewrite EC. reflexivity.
      + assert (HG : cap + g <= max_elements e g).
        { assert (cap < max_elements e g) by lia. clear -H0 Hk Hg. unfold max_elements in *. subst cap.
          set (m := (2 ^ 32 - 1) / (g * e)) in *. clearbody m. assert (k < m) by nia. nia. }
        replace (cap + g <=? max_elements e g) with true by lia. cbn [andb].
        destruct (IH (l ++ [v]) (cap + g)) as (c & EC); [rewrite <- app_assoc; exact EV|rewrite app_length; cbn; lia|exists (k + 1); lia|auto|].
        exists c. rewrite EC. reflexivity. }
  pose proof (max_bound e g ltac:(split; auto; lia)) as [M0 _].
  destruct (ADD [] 0 (map (fun i => OPeek (Z.of_nat i)) (seq 0 (length vs)) ++ [OSize]) vs eq_refl ltac:(cbn; lia) ltac:(exists 0; lia) M0) as (c & ->).
  f_equal. clear ADD.
  assert (PK : forall ns, (forall n, In n ns -> (n < length vs)%nat) ->
     seq_run e g vs c (map (fun i => OPeek (Z.of_nat i)) ns ++ [OSize]) = map (fun n => RVal true (nth n vs [])) ns ++ [RNum (Z.of_nat (length vs))]).
  { induction ns as [|n ns IH]; intros B; [reflexivity|]. cbn [map app seq_run seq_step].
    replace (Z.of_nat n <? Z.of_nat (length vs)) with true by (specialize (B n (or_introl eq_refl)); lia).
    rewrite IH by (intros; apply B; right; auto). rewrite Nat2Z.id. reflexivity. }
  rewrite PK by (intros n Hn; apply in_seq in Hn; lia). f_equal.
  clear. induction vs as [|v vs IH]; [reflexivity|]. cbn [length seq map]. f_equal. rewrite <- seq_shift, map_map. exact IH.
Qed.
Print Assumptions C11_add_all.

Example C11_nonvacuous :
  match sl_new 2 3 with
  | Some s => code_run s [OAdd [1;2] (Some (fun x => 100 + x)); OAdd [3;4] None; OInsert 1 [5;6] None; OInsert 0 [7;8] None;
                          OAdd [7;8] (Some (fun x => x)); OPeek 3; ORemove 0; OExtract 1; OSet 1 [9;9]; OPeek 1; OInsert 7 [1;1] None; OCapacity; OSize]
      = Some [RBool true; RBool true; RBool true; RBool false; RBool true; RVal true [7;8]; RBool true; RVal true [3;4]; RBool true; RVal true [9;9]; RBool false; RNum 6; RNum 2]
  | None => False
  end.
Proof. vm_compute. reflexivity. Qed.
