(** C72: a circular list remembers the last n values. *)
From Verif Require Import Base StaticList_Model StaticList_Spec StaticList_Proofs Csl_Model Csl_Spec Csl_Proofs.

(** For elements of every size, every number n of them and every history of calls: a push always succeeds, gives back the value of n pushes ago, the last value is
    the last pushed, and the index counts the pushes modulo n. The initial values are those that the constructor found in an uninitialised variable. The heap grants the memory *)
Theorem C72_history_partial : forall e temps ops,
  1 <= e -> 10 * e < 2 ^ 32 -> temps <> [] ->
  Forall (fun t => Z.of_nat (length (fst t)) = e /\ snd t <> None) temps ->
  Z.of_nat (length temps) <= max_elements e 10 -> (2 <= e \/ Z.of_nat (length temps) + 20 < 2 ^ 32) ->
  Forall (good e) ops ->
  exists c, cl_new e temps = Some c /\ code_run c ops = Some (ideal_run (length temps) (map fst temps) ops).
Proof.
  intros e temps ops He H10 Hne HF HM HW HG. assert (OK : sizes_ok e 10) by (split; [exact He|split; [lia|exact H10]]).
  assert (Hn : (0 < length temps)%nat) by (destruct temps; [congruence|cbn; lia]).
  destruct (new_ok e 10 OK) as (s & E). unfold cl_new. rewrite E.
  destruct (fill_ok e (length temps) OK Hn temps s [] 0 0 (Rep_new e 10 s OK E)) as (s' & cap & E' & R); auto; try (cbn; lia).
  rewrite E'. eexists; split; [reflexivity|]. apply (run_inv e (length temps) OK Hn); [|exact HG].
  exists (map fst temps), cap. cbn [cl_list cl_index]. rewrite map_length. split; [exact R|]. split; [reflexivity|]. split; [lia|].
  rewrite Nat.mod_same by lia. split; [reflexivity|]. intros j Hj. rewrite Nat.mod_small by lia. reflexivity.
Qed.
Print Assumptions C72_history_partial.

Definition given : alloc := Some (fun x => x).
Definition three : list (list Z * alloc) := [([90; 91], given); ([92; 93], given); ([94; 95], given)].
Definition calls : list cop := [PushOut [1; 0]; Last; Push [2; 0]; Push [3; 0]; Index; Last; PushOut [4; 0]; Last; Index; PushOut [5; 0]; Size].
Example history_case : three <> [] /\ Forall (fun t => Z.of_nat (length (fst t)) = 2 /\ snd t <> None) three /\
  Z.of_nat (length three) <= max_elements 2 10 /\ Forall (good 2) calls.
Proof. split; [discriminate|]. split; [repeat constructor; discriminate|]. split; [vm_compute; discriminate|repeat constructor]. Qed.
Example history_result : ideal_run 3 (map fst three) calls =
  [Replaced true [90; 91]; Value true [1; 0]; Pushed true; Pushed true; Number 0; Value true [3; 0]; Replaced true [1; 0]; Value true [4; 0]; Number 1; Replaced true [2; 0]; Number 3].
Proof. reflexivity. Qed.

Lemma skipn_one {A} d (l : list A) : skipn 1 (skipn d l) = skipn (1 + d) l.
Proof. revert l. induction d as [|d IH]; intros [|x l]; try reflexivity. apply IH. Qed.

(** The same said of a sequence of pushes: after pushing the values vs the list gives, push by push, the initial values and then the values pushed n pushes before *)
Theorem C72_delay_partial : forall e temps vs,
  1 <= e -> 10 * e < 2 ^ 32 -> temps <> [] ->
  Forall (fun t => Z.of_nat (length (fst t)) = e /\ snd t <> None) temps ->
  Z.of_nat (length temps) <= max_elements e 10 -> (2 <= e \/ Z.of_nat (length temps) + 20 < 2 ^ 32) ->
  Forall (fun v => Z.of_nat (length v) = e) vs ->
  exists c, cl_new e temps = Some c /\
    code_run c (map PushOut vs) = Some (map (Replaced true) (firstn (length vs) (map fst temps ++ vs))).
Proof.
  intros e temps vs He H10 Hne HF HM HW HV.
  destruct (C72_history_partial e temps (map PushOut vs)) as (c & E & R); auto.
  { apply Forall_map. exact HV. }
  exists c. split; [exact E|]. rewrite R. f_equal. clear - Hne. rename Hne into Hq.
  assert (G : forall vs done, ideal_run (length temps) ((map fst temps) ++ done) (map PushOut vs) =
            map (Replaced true) (firstn (length vs) (skipn (length done) (map fst temps ++ done ++ vs)))).
  { induction vs0 as [|v vs0 IH]; intros done; [reflexivity|]. cbn [map ideal_run length].
    rewrite <- app_assoc, IH. rewrite !app_length, map_length. cbn [length].
    replace (length temps + length done - length temps)%nat with (length done) by lia.
    assert (Hlt : (length done < length (map fst temps ++ done ++ v :: vs0))%nat) by (rewrite !app_length; cbn [length]; lia).
    assert (Hlt2 : (length done < length (map fst temps ++ done))%nat) by (rewrite !app_length, map_length; destruct temps; [congruence|cbn [length]; lia]).
    rewrite <- (firstn_skipn 1 (skipn (length done) (map fst temps ++ done ++ v :: vs0))).
    replace (length done + 1)%nat with (1 + length done)%nat by lia.
    assert (E1 : firstn 1 (skipn (length done) (map fst temps ++ done ++ v :: vs0)) = [nth (length done) (map fst temps ++ done) []]).
    { rewrite (app_assoc (map fst temps) done). rewrite skipn_app.
      destruct (skipn (length done) (map fst temps ++ done)) as [|x r] eqn:Es.
      - apply (f_equal (@length _)) in Es. rewrite skipn_length in Es. cbn in Es. lia.
      - cbn. f_equal. rewrite <- (firstn_skipn (length done) (map fst temps ++ done)), Es. rewrite app_nth2; rewrite firstn_length; [|lia].
        replace (length done - _)%nat with 0%nat by lia. reflexivity. }
    rewrite E1. rewrite skipn_one. cbn [app firstn map]. f_equal.
    rewrite <- (app_assoc done [v] vs0). reflexivity. }
  specialize (G vs []). rewrite app_nil_r in G. cbn [length app skipn] in G. exact G.
Qed.
Print Assumptions C72_delay_partial.

(** Finding: the constructor ignores that memory is refused: the list is then shorter than asked, and nothing says so; with no element every call fails *)
Theorem C72_refused_refuted : exists c, cl_new 2 [([90; 91], None); ([92; 93], None)] = Some c /\
  code_run c [Size; Push [1; 0]; PushOut [2; 0]; Last] = Some [Number 0; Pushed false; Replaced false []; Value false []].
Proof. exists (CList (SList 2 10 [] 0 0) 0). split; vm_compute; reflexivity. Qed.
Print Assumptions C72_refused_refuted.

(** Finding: before any push the last value is the content of an uninitialised variable, and the call succeeds *)
Theorem C72_before_push_refuted : forall v, Z.of_nat (length v) = 2 -> exists c, cl_new 2 [([90; 91], given); (v, given)] = Some c /\
  code_run c [Last] = Some [Value true v].
Proof.
  intros v Hv. assert (HF : Forall (fun t : list Z * alloc => Z.of_nat (length (fst t)) = 2 /\ snd t <> None) [([90; 91], given); (v, given)]).
  { constructor; [split; [reflexivity|discriminate]|]. constructor; [split; [exact Hv|discriminate]|constructor]. }
  assert (HM : Z.of_nat 2 <= max_elements 2 10) by (vm_compute; discriminate).
  assert (HG : Forall (good 2) [Last]) by (constructor; [exact I|constructor]).
  assert (HN : [([90; 91], given); (v, given)] <> []) by discriminate.
  destruct (C72_history_partial 2 [([90; 91], given); (v, given)] [Last] ltac:(lia) ltac:(lia) HN HF HM (or_introl (Z.le_refl 2)) HG) as (c & E & R).
  exists c. split; [exact E|]. rewrite R. reflexivity.
Qed.
Print Assumptions C72_before_push_refuted.
Example before_push_case : Z.of_nat (length [7; 7]) = 2. Proof. reflexivity. Qed.
