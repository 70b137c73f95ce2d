(** C66: the binary tree, over every history of calls. *)
From Verif Require Import Base Btr_Model Btr_Spec Btr_Proofs.
From Coq Require Import Sorted.

(** Every answer is the one of a map whose positions follow the keys, if the hash function gives different keys to the identifiers that are used and the heap has memory (an insertion that it refuses for the keys changes nothing). *)
Theorem C66_history_partial : forall V (H : ident -> Z) (l : list (op V)), no_collision H l -> Forall fed l -> all_allowed [] l -> len l < 2 ^ 32 ->
  exists rs t, run H (Tree [] []) l = Some (rs, t) /\ all_answers H [] l rs.
Proof.
  intros V H l N F A L. apply (run_ok H (flat_map ids_of l) N l (Tree [] []) []); auto.
  - exists []. split; [split; [reflexivity|]; split; [reflexivity|constructor]|]. split; [constructor|]. split; [constructor|intros p []].
Qed.
Print Assumptions C66_history_partial.

(** The search by halves, on every list of increasing keys: it ends, stays inside of the list, and finds the place. *)
Theorem C66_search : forall V (t : tree V) key, StronglySorted Z.lt (keys t) -> length (vals t) = length (keys t) -> len (keys t) < 2 ^ 32 ->
  exists b u v, keys t = u ++ v /\ binary_search t key = Some (b, len u) /\ (b = true <-> In key (keys t)) /\ Forall (fun k => k < key) u /\ Forall (fun k => key <= k) v.
Proof.
  intros V t key S E L. destruct (search_loop_ok key (Datatypes.S (length (keys t))) [] (keys t) []) as (b & u & v & EQ & R & FU & FV); auto; try (cbn; rewrite app_nil_r; assumption).
  cbn [app length] in *. rewrite app_nil_r in *. rewrite Z.add_0_l in R. exists b, u, v. split; [exact EQ|]. unfold binary_search. rewrite E. split; [exact R|]. rewrite EQ in *.
  destruct b.
  - destruct FV as (v' & ->). apply ss_app in S. destruct S as (_ & S & _). apply StronglySorted_inv in S. destruct S as [_ F]. split; [split; [intros _; apply in_or_app; right; left; reflexivity|reflexivity]|].
    split; [exact FU|]. constructor; [lia|]. eapply Forall_impl; [|exact F]. cbn. intros. lia.
  - split; [|split; [exact FU|eapply Forall_impl; [|exact FV]; cbn; intros; lia]]. split; [discriminate|]. intros I. rewrite Forall_forall in FU, FV. apply in_app_or in I. destruct I as [I|I]; [apply FU in I|apply FV in I]; lia.
Qed.
Print Assumptions C66_search.

(** Two identifiers with the same hash are one entry: "b!" is found although only "aB" was inserted, and its value is read. *)
Theorem C66_collision_refuted : exists a b : ident, a <> b /\ djb32 a = djb32 b /\
  forall V (v w : V), run djb32 (Tree [] []) [Insert a v true true; Search b; Insert b w true true; Get b w true true] =
    Some ([Done true 0; Done true 0; Done false 0; Value v], Tree [djb32 a] [v]).
Proof. exists [97; 66], [98; 33]. split; [discriminate|]. split; [reflexivity|]. intros V v w. reflexivity. Qed.
Print Assumptions C66_collision_refuted.
(** If the heap refuses memory for the second list only, an entry that is in the tree is no longer found. *)
Theorem C66_memory_refuted : exists a b c : ident, forall V (u v w : V), exists t,
  run djb32 (Tree [] []) [Insert a u true true; Insert c w true true; Search c; Insert b v true false; Size; Search c] =
    Some ([Done true 0; Done true 1; Done true 1; Done false 1; Done true 2; Done false 2], t).
Proof. exists [97], [98], [99]. intros V u v w. eexists. reflexivity. Qed.
Print Assumptions C66_memory_refuted.
(** A position of an empty tree reads memory that is not there. *)
Theorem C66_empty_refuted : forall V H pos, 0 <= pos < 2 ^ 32 -> step H (Tree (@nil Z) (@nil V)) (At pos) = None.
Proof. intros V H pos P. cbn. unfold item. destruct (Z.to_nat _); reflexivity. Qed.
Print Assumptions C66_empty_refuted.

(** A history that meets the hypotheses. *)
Definition story : list (op Z) :=
  [Insert [99] 3 true true; Insert [97] 1 true true; Insert [98] 2 true true; Insert [97] 7 true true; Insert [96] 7 false true; Search [99]; At 1; At 9; Get [98] 0 true true; Get [100] 5 true true; Remove [98]; Search [98]; Size; Search [100]; Reset; Size].
Example C66_case_hypotheses : no_collision djb32 story /\ Forall fed story /\ all_allowed [] story.
Proof.
  split; [|split; [repeat constructor|vm_compute; repeat split; discriminate]].
  intros a b A B E. cbn in A, B. repeat (destruct A as [<-|A]; [repeat (destruct B as [<-|B]; [first [reflexivity|vm_compute in E; discriminate E]|]); destruct B|]); destruct A.
Qed.
Example C66_case_answers : run djb32 (Tree [] []) story =
  Some ([Done true 0; Done true 0; Done true 1; Done false 0; Done false 0; Done true 2; Value 2; Value 3; Value 2; Value 5; Done true 0; Done false 1; Done true 3; Done true 2; Nothing; Done true 0], Tree [] []).
Proof. reflexivity. Qed.
Example C66_case_search : StronglySorted Z.lt [2; 5; 9] /\ binary_search (Tree [2; 5; 9] [tt; tt; tt]) 7 = Some (false, 2).
Proof. split; [repeat constructor|reflexivity]. Qed.
