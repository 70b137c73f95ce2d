(** C73: classes are found by name, and their identifiers stay valid. *)
From Verif Require Import Base Crd_Model Crd_Spec Crd_Proofs.

(** Over every history the identifier of a class is its position: identifiers are all different, and Peek of an identifier gives the class that has it *)
Theorem C73_identifiers : forall libs r, history libs r ->
  (forall k p, nth_error (items r) k = Some p -> i_id p = Z.of_nat k /\ peek r (i_id p) = Some p) /\
  NoDup (map i_id (items r)).
Proof.
  intros libs r H. apply history_inv in H as ((I & _) & _). split.
  - intros k p E. pose proof (I _ _ E) as X. split; [exact X|]. unfold peek. rewrite X. destruct (Z.ltb_spec (Z.of_nat k) 0); [lia|]. rewrite Nat2Z.id. exact E.
  - apply NoDup_nth_error. intros a b L E. rewrite map_length in L. rewrite !nth_error_map in E.
    destruct (nth_error (items r) a) as [p|] eqn:A; [|apply nth_error_None in A; lia]. destruct (nth_error (items r) b) as [q|] eqn:B; [|discriminate].
    injection E as E. rewrite (I _ _ A), (I _ _ B) in E. lia.
Qed.
Print Assumptions C73_identifiers.

(** Nothing that happens later moves a class: it keeps its position, hence its identifier *)
Theorem C73_stable : forall libs r, history libs r ->
  (forall name, Z.of_nat (length (items r)) + 1 < 2 ^ 32 -> names (add r name) = names r ++ [name]) /\
  (forall s k r', find_class libs r s = (k, r') -> Z.of_nat (length (items r')) < 2 ^ 32 -> exists l, names r' = names r ++ l).
Proof.
  intros libs r H. pose proof (history_inv _ _ H) as (I & B). split.
  - intros name _. destruct (add_inv r name I B) as (_ & E). unfold names. rewrite E, map_app. reflexivity.
  - intros s k r' E L. destruct (find_len _ _ _ _ _ E) as (r1 & G). apply (G I L).
Qed.
Print Assumptions C73_stable.

(** A class that is registered is found, the first of its name, without opening anything *)
Theorem C73_registered : forall libs r s lib cls, means s lib cls -> In cls (names r) ->
  exists k, find_class libs r s = (Some k, r) /\ first_at (names r) cls k.
Proof.
  intros libs r s lib cls M J. destruct (parts _ _ _ M) as (C & _). unfold find_class. rewrite C.
  pose proof (position_spec (items r) cls) as P. destruct (position (items r) cls) as [k|]; [eauto|contradiction].
Qed.
Print Assumptions C73_registered.

(** A class that is not registered is looked for in its library: the file opened is the first of .so, .gam and .drv that there is; its classes are registered
    if it was not open yet; the class found is the first of its name, and it knows the file; without a file nothing changes *)
Theorem C73_loaded_partial : forall libs r s lib cls, history libs r -> means s lib cls -> (length lib <= 128)%nat -> ~ In cls (names r) ->
  (libs (lib ++ so) = None -> libs (lib ++ gam) = None -> libs (lib ++ drv) = None -> find_class libs r s = (None, r)) /\
  (forall file classes, file_of libs lib file classes ->
     exists k r', find_class libs r s = (k, r') /\
       (Z.of_nat (length (items r')) < 2 ^ 32 ->
        In file (opened r') /\
        (In file (opened r) -> names r' = names r) /\ (~ In file (opened r) -> names r' = names r ++ classes) /\
        match k with
        | Some k => first_at (names r') cls k /\ exists p, nth_error (items r') k = Some p /\ i_library p = Some file
        | None => ~ In cls (names r')
        end)).
Proof.
  intros libs r s lib cls H M L N. pose proof (history_inv _ _ H) as (I & B). destruct (parts _ _ _ M) as (C & D). rewrite firstn_all2 in D by exact L.
  unfold find_class. rewrite C, D. pose proof (position_spec (items r) cls) as P. destruct (position (items r) cls) as [j|]; [apply first_in in P; contradiction|]. clear P.
  destruct (open_any_ok libs r lib) as [(f & cs & r1 & F & O & A)|(E1 & E2 & E3 & O)]; rewrite O.
  - split.
    { intros E1 E2 E3. destruct F as (F & [->|[(-> & _)|(-> & _)]]); congruence. }
    intros file classes F'. assert (X : file = f /\ classes = cs).
    { destruct F as (F & G), F' as (F' & G'). destruct G as [->|[(-> & ?)|(-> & ? & ?)]], G' as [->|[(-> & ?)|(-> & ? & ?)]]; try congruence; split; congruence. }
    destruct X as [-> ->]. pose proof (position_spec (items r1) cls) as P. destruct (position (items r1) cls) as [j|].
    + do 2 eexists. split; [reflexivity|]. cbn [items]. rewrite set_library_len. intros HL. destruct (after_open_inv _ _ _ _ I A HL) as (_ & (l & Q & Y) & Z).
      unfold names. cbn [items opened]. rewrite set_library_names. split; [exact Z|]. rewrite Q, map_app, Y. split; [|split].
      * intros J. apply existsb_in in J. rewrite J, app_nil_r. reflexivity.
      * intros J. destruct (existsb (text_eqb f) (opened r)) eqn:K; [apply existsb_in in K; contradiction|reflexivity].
      * rewrite Q, map_app, Y in P. split; [exact P|]. destruct P as (P & _). rewrite <- Y, <- map_app, <- Q, nth_error_map in P.
        destruct (nth_error (items r1) j) as [p|] eqn:K; [|discriminate]. eexists. rewrite <- Q. split; [apply (set_library_at _ _ _ _ K)|reflexivity].
    + do 2 eexists. split; [reflexivity|]. intros HL. destruct (after_open_inv _ _ _ _ I A HL) as (_ & (l & Q & Y) & Z).
      unfold names. split; [exact Z|]. rewrite Q, map_app, Y. split; [|split].
      * intros J. apply existsb_in in J. rewrite J, app_nil_r. reflexivity.
      * intros J. destruct (existsb (text_eqb f) (opened r)) eqn:K; [apply existsb_in in K; contradiction|reflexivity].
      * rewrite Q, map_app, Y in P. exact P.
  - split; [reflexivity|]. intros file classes (F & [->|[(-> & _)|(-> & _)]]); congruence.
Qed.
Print Assumptions C73_loaded_partial.

(** Every name means something, and one thing *)
Theorem C73_names : forall s, exists lib cls, means s lib cls /\ forall lib' cls', means s lib' cls' -> cls' = cls /\ firstn 128 lib' = firstn 128 lib.
Proof.
  intros s. destruct (means_exists s) as (lib & cls & M). exists lib, cls. split; [exact M|]. intros lib' cls' M'.
  destruct (parts _ _ _ M) as (A & B), (parts _ _ _ M') as (C & D). split; congruence.
Qed.
Print Assumptions C73_names.

(** Cases: the classes A and B are registered; the library L (L.gam) has the classes B and C *)
Definition cA : text := [65]. Definition cB : text := [66]. Definition cC : text := [67]. Definition lL : text := [76].
Definition shelf (f : text) : option (list text) := if text_eqb f (lL ++ gam) then Some [cB; cC] else None.
Definition two : registry := add (add no_classes cA) cB.
Definition L_C : text := lL ++ [58; 58] ++ cC.
Definition L_B : text := lL ++ [58; 58] ++ cB.
Example two_history : history shelf two.
Proof. apply H_add; [apply H_add; [constructor|reflexivity]|reflexivity]. Qed.
Example L_C_means : means L_C lL cC /\ (length lL <= 128)%nat /\ ~ In cC (names two) /\ file_of shelf lL (lL ++ gam) [cB; cC].
Proof.
  split; [|split; [cbn; lia|split; [vm_compute; intros [X|[X|[]]]; discriminate X|split; [reflexivity|right; left; split; reflexivity]]]].
  left. split; [reflexivity|]. intros [|a x] y E; [discriminate|cbn; lia].
Qed.
Definition four : registry :=
  Registry [Item cA 0 None; Item cB 1 None; Item cB 2 None; Item cC 3 (Some (lL ++ gam))] 4 [lL ++ gam].
Example loaded : find_class shelf two L_C = (Some 3%nat, four). Proof. vm_compute. reflexivity. Qed.
Example four_history : history shelf four. Proof. eapply H_find; [exact two_history|exact loaded|reflexivity]. Qed.
Example registered_case : means cB cB cB /\ In cB (names two).
Proof. split; [right; repeat split; intros [|a [|b x]] y E; discriminate|right; left; reflexivity]. Qed.

(** Finding: the library in the name does not choose among classes of the same name: L::B gives the B that was registered before, and L, which has its own B, is not even opened *)
Theorem C73_library_ignored_refuted : ~ (forall libs r s lib cls k r' file classes, history libs r -> means s lib cls -> file_of libs lib file classes -> In cls classes ->
  find_class libs r s = (Some k, r') -> In file (opened r')).
Proof.
  intros H. refine (H shelf two L_B lL cB 1%nat two (lL ++ gam) [cB; cC] two_history _ _ _ _).
  - left. split; [reflexivity|]. intros [|a x] y E; [discriminate|cbn; lia].
  - split; [reflexivity|right; left; split; reflexivity].
  - left. reflexivity.
  - vm_compute. reflexivity.
Qed.
Print Assumptions C73_library_ignored_refuted.

(** Finding: a search that finds nothing has opened the library all the same, and its classes stay registered *)
Theorem C73_failed_search_refuted : ~ (forall libs r s r', history libs r -> find_class libs r s = (None, r') -> names r' = names r).
Proof. intros H. assert (X := H shelf two (lL ++ [58; 58; 88]) _ two_history eq_refl). vm_compute in X. discriminate. Qed.
Print Assumptions C73_failed_search_refuted.

(** Finding: the name of a library is cut at 128 characters, so that another library is opened: the class is found in it *)
Definition long : text := repeat 97 129.
Definition long_shelf (f : text) : option (list text) := if text_eqb f (repeat 97 128 ++ so) then Some [cC] else None.
Theorem C73_long_name_refuted : ~ (forall libs r s lib cls k r', history libs r -> means s lib cls -> ~ In cls (names r) ->
  libs (lib ++ so) = None -> libs (lib ++ gam) = None -> libs (lib ++ drv) = None -> find_class libs r s = (k, r') -> k = None).
Proof.
  intros H. assert (M : means (long ++ [58; 58] ++ cC) long cC).
  { left. split; [reflexivity|]. intros x y E. destruct (search_app x y) as (k & S & L). rewrite <- E in S. vm_compute in S. injection S as <-. exact L. }
  assert (X : Some 0%nat = None); [|discriminate X].
  eapply (H long_shelf no_classes (long ++ [58; 58] ++ cC) long cC (Some 0%nat) _ (H_none _) M); [exact (fun x => x)|vm_compute; reflexivity ..].
Qed.
Print Assumptions C73_long_name_refuted.
