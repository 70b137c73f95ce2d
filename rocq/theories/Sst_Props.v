(** C74: the static stack is a stack. *)
From Verif Require Import Base StaticList_Model StaticList_Spec StaticList_Proofs Sst_Model Sst_Spec Sst_Proofs.

(** For elements of every size e, every granularity g and every history of calls, with every answer of the heap, the results are those of a stack; a refused push
    changes nothing; no memory outside of the block is touched *)
Theorem C74_history : forall e g ops, 1 <= e -> 1 <= g -> g * e < 2 ^ 32 -> (2 <= e \/ Z.of_nat (length ops) + 2 * g < 2 ^ 32) ->
  Forall (Sst_Spec.good e) ops ->
  exists s, sl_new e g = Some s /\ Sst_Spec.code_run s ops = Some (ideal_run e g [] 0 ops).
Proof.
  intros e g ops He Hg H HW G. assert (OK : sizes_ok e g) by (split; auto).
  destruct (new_ok e g OK) as (s & E). exists s. split; [exact E|].
  apply (run_ok' e g OK ops s [] 0 0); auto; [exact (Rep_new e g s OK E)|cbn; lia|lia].
Qed.
Print Assumptions C74_history.

Lemma pushes f e g vs : 1 <= g -> forall stack cap k rest, cap = g * k -> Z.of_nat (length stack) <= cap ->
  Z.of_nat (length stack + length vs) <= g * ((2 ^ 32 - 1) / (g * e)) ->
  exists c, ideal_run e g stack cap (map (fun v => Push v (Some f)) vs ++ rest) = map (fun _ => Done true) vs ++ ideal_run e g (rev vs ++ stack) c rest.
Proof.
  intros Hg. induction vs as [|v vs IH]; intros stack cap k rest Hk Hs HM; [exists cap; reflexivity|].
  cbn [map app ideal_run length rev] in *. rewrite <- app_assoc. cbn [app].
  destruct (Z.ltb_spec (Z.of_nat (length stack)) cap).
  - destruct (IH (v :: stack) cap k rest Hk) as (c & E); [cbn [length]; lia|cbn [length]; lia|]. exists c. rewrite E. reflexivity.
  - assert (X : cap + g <= g * ((2 ^ 32 - 1) / (g * e))).
    { set (m := (2 ^ 32 - 1) / (g * e)) in *. clearbody m. subst cap. assert (k < m) by nia. nia. }
    destruct (Z.leb_spec (cap + g) (g * ((2 ^ 32 - 1) / (g * e)))); [|lia].
    destruct (IH (v :: stack) (cap + g) (k + 1) rest) as (c & E); [lia|cbn [length]; lia|cbn [length]; lia|]. exists c. rewrite E. reflexivity.
Qed.
Lemma pops e g l stack cap : ideal_run e g (l ++ stack) cap (map (fun _ => Pop) l) = map (Value true) l.
Proof. induction l as [|v l IH]; [reflexivity|]. cbn. rewrite IH. reflexivity. Qed.
(** All the values that fit, pushed and then popped, come back in the opposite order *)
Theorem C74_reverse : forall e g vs f, 2 <= e -> 1 <= g -> g * e < 2 ^ 32 -> Z.of_nat (length vs) <= max_elements e g ->
  Forall (fun v => Z.of_nat (length v) = e) vs ->
  exists s, sl_new e g = Some s /\
    Sst_Spec.code_run s (map (fun v => Push v (Some f)) vs ++ map (fun _ => Pop) (rev vs)) = Some (map (fun _ => Done true) vs ++ map (Value true) (rev vs)).
Proof.
  intros e g vs f He Hg H HM V.
  destruct (C74_history e g (map (fun v => Push v (Some f)) vs ++ map (fun _ => Pop) (rev vs))) as (s & E & R); auto; try lia.
  { apply Forall_app. split; apply Forall_map; [exact V|]. apply Forall_forall. intros; exact I. }
  exists s. split; [exact E|]. rewrite R. destruct (pushes f e g vs Hg [] 0 0 (map (fun _ => Pop) (rev vs))) as (c & ->); [lia|cbn; lia|exact HM|].
  rewrite pops. reflexivity.
Qed.
Print Assumptions C74_reverse.

Definition given : alloc := Some (fun x => x).
Definition calls : list sop := [Pop; Push [1; 1] None; Push [1; 1] given; Push [2; 2] None; Push [3; 3] None; Peek 0; Peek 1; Peek 2; Pop; Peek 0; Push [4; 4] None; Pop; Pop; Pop; Size; Clean; Size].
Example calls_good : Forall (Sst_Spec.good 2) calls /\ 2 * 2 < 2 ^ 32.
Proof. split; [|lia]. unfold calls. repeat first [apply Forall_nil | apply Forall_cons; [cbn; first [exact I|lia]|]]. Qed.
Example calls_result : ideal_run 2 2 [] 0 calls =
  [Value false []; Done false; Done true; Done true; Done false; Value true [2; 2]; Value true [1; 1]; Value false []; Value true [2; 2]; Value true [1; 1]; Done true;
   Value true [4; 4]; Value true [1; 1]; Value false []; Number 0; Unit; Number 0].
Proof. vm_compute. reflexivity. Qed.
Example reverse_case : Z.of_nat (length [[1; 1]; [2; 2]; [3; 3]]) <= max_elements 2 2 /\ Forall (fun v => Z.of_nat (length v) = 2) [[1; 1]; [2; 2]; [3; 3]].
Proof. split; [vm_compute; discriminate|repeat constructor]. Qed.

(** Finding: the pointer to the top of an emptied stack is one element before the block *)
Theorem C74_top_pointer_refuted : ~ (forall e g s v a s1 s2 w, sl_new e g = Some s -> Z.of_nat (length v) = e -> push s v a = Some (true, s1) -> pop s1 = Some (true, s2, w) ->
  match top_pointer s2 with None => True | Some p => 0 <= p end).
Proof.
  intros H. assert (X := H 1 2 _ [7] given _ _ _ eq_refl eq_refl eq_refl eq_refl). vm_compute in X. apply X. reflexivity.
Qed.
Print Assumptions C74_top_pointer_refuted.
