(** C67: the types described by the configuration. *)
From Verif Require Import Base IntText_Model IntText_Spec IntText_Proofs Isr_Model Isr_Spec Isr_Proofs.

(** Whatever const marks, pointers and up to three dimensions a member has, the description made from their text reports exactly them. *)
Theorem C67_modifiers : forall d t name type s o,
  writes d t -> (length (arrays d) <= 3)%nat -> Forall (fun n => 0 <= n < 2 ^ 32) (arrays d) ->
  exists e, make_entry name type t s o = Some e /\
    memberName e = name /\ typeName e = type /\ size e = s /\ byteOffset e = o /\
    get_number_of_dimensions e = Z.of_nat (length (arrays d)) /\ reported e = arrays d /\
    get_pointer_level e = Z.of_nat (length (pointers d)) /\ is_constant e 0 = base_const d /\
    forall k, (k < length (pointers d))%nat -> is_constant e (Z.of_nat k + 1) = nth k (pointers d) false.
Proof. intros; apply make_entry_written; assumption. Qed.
Print Assumptions C67_modifiers.

(** "C**C[12][3]" *)
Example C67_modifiers_case :
  writes (Declarator true [false; true] [12; 3]) [67; 42; 42; 67; 91; 49; 50; 93; 91; 51; 93] /\
  exists e, make_entry [] [] [67; 42; 42; 67; 91; 49; 50; 93; 91; 51; 93] 4 0 = Some e /\ reported e = [12; 3] /\
            is_constant e 1 = false /\ is_constant e 2 = true.
Proof.
  split.
  - exists [91; 49; 50; 93; 91; 51; 93]. split; [|reflexivity].
    apply (Wd_cons 12 [3] [49; 50] [91; 51; 93]); [|apply (Wd_cons 3 [] [51] []); [|constructor]];
      repeat split; cbn; try discriminate; repeat constructor; unfold is_digit; cbn; lia.
  - eexists. split; [reflexivity|]. repeat split.
Qed.

(** A configuration whose types are known, with at most three dimensions of at least one element and a size that fits, is accepted unless
    the application defines the name; the type then has exactly the members declared, one after the other with no gap and no overlap
    from byte 0 to its size, and no other type changes. *)
Theorem C67_layout_partial : forall g name cs ms,
  declares g cs ms -> 0 < declared_size ms < 2 ^ 32 -> (forall l, find g name <> Some (Native l)) ->
  exists g', initialise g name cs = Some (true, g') /\ registered_as g' name ms /\
             forall other, other <> name -> find g' other = find g other.
Proof. exact initialise_declared. Qed.
Print Assumptions C67_layout_partial.

(** The texts of the examples *)
Definition t_uint8 : text := [117;105;110;116;56].
Definition t_uint32 : text := [117;105;110;116;51;50].
Definition t_float64 : text := [102;108;111;97;116;54;52].
Definition n_A : text := [65]. Definition n_B : text := [66]. Definition n_C : text := [67].
Definition m_x : text := [120]. Definition m_y : text := [121].
(** A = { Class; x : uint32[3][2]; y : uint8 } *)
Definition config_A : list child := [Leaf; Node m_x (Some t_uint32) (Values [3; 2]); Node m_y (Some t_uint8) (Values [1])].
Definition declared_A := [(m_x, t_uint32, [3; 2], 4); (m_y, t_uint8, [], 1)].
Lemma declares_A g : declares g config_A declared_A.
Proof.
  apply De_leaf. apply De_array; try discriminate; [cbn; lia|repeat constructor; lia|split; [lia|left; reflexivity]|].
  apply De_scalar; [right; reflexivity|split; [lia|left; reflexivity]|]. apply De_nil.
Qed.
Example C67_layout_case : declares [] config_A declared_A /\ declared_size declared_A = 25 /\
  (forall l, find [] n_A <> Some (Native l)).
Proof. split; [apply declares_A|split; [reflexivity|discriminate]]. Qed.

(** A history that configures every name once, each with types known at that moment, is accepted as a whole. In the registry at its end
    every configured type is still as declared: in particular the size of every member is the size its type has there. *)
Theorem C67_history_partial : forall g0 h,
  NoDup (map fst h) -> (forall s, In s h -> find g0 (fst s) = None) ->
  (forall h1 name cs h2 bs g1, h = h1 ++ (name, cs) :: h2 -> run g0 h1 = Some (bs, g1) ->
     exists ms, declares g1 cs ms /\ 0 < declared_size ms < 2 ^ 32) ->
  exists bs g, run g0 h = Some (bs, g) /\ Forall (fun b => b = true) bs /\ length bs = length h /\
    forall name cs, In (name, cs) h -> exists ms, declares g cs ms /\ registered_as g name ms.
Proof.
  intros g0 h ND Fresh Good. revert g0 ND Fresh Good.
  assert (H : forall h g0, NoDup (map fst h) -> (forall s, In s h -> find g0 (fst s) = None) ->
    (forall h1 name cs h2 bs g1, h = h1 ++ (name, cs) :: h2 -> run g0 h1 = Some (bs, g1) ->
       exists ms, declares g1 cs ms /\ 0 < declared_size ms < 2 ^ 32) ->
    exists bs g, run g0 h = Some (bs, g) /\ Forall (fun b => b = true) bs /\ length bs = length h /\ grows g0 g /\
      forall name cs, In (name, cs) h -> exists ms, declares g cs ms /\ registered_as g name ms).
  { clear h. induction h as [|[name cs] h IH]; intros g0 ND Fresh Good.
    - exists [], g0. repeat split; [constructor|intros t i X; exact X|intros ? ? []].
    - cbn [map fst] in ND. apply NoDup_cons_iff in ND. destruct ND as [NI ND].
      destruct (Good [] name cs h [] g0 eq_refl eq_refl) as (ms & D & B).
      pose proof (Fresh (name, cs) ltac:(left; reflexivity)) as Fr. cbn [fst] in Fr.
      destruct (initialise_declared g0 name cs ms D B ltac:(intros; congruence)) as (g1 & I1 & R1 & O1).
      assert (G1 : grows g0 g1).
      { intros t i X. rewrite O1; [exact X|]. intros ->. congruence. }
      destruct (IH g1 ND) as (bs & g & R & A & L & G & K).
      { intros s X. rewrite O1; [apply Fresh; right; exact X|]. intros E. apply NI. rewrite <- E. apply in_map, X. }
      { intros h1 name' cs' h2 bs g2 E R2.
        apply (Good ((name, cs) :: h1) name' cs' h2 (true :: bs) g2); [rewrite E; reflexivity|].
        cbn [run]. rewrite I1, R2. reflexivity. }
      exists (true :: bs), g. cbn [run]. rewrite I1, R. split; [reflexivity|]. split; [constructor; [reflexivity|exact A]|].
      split; [cbn [length]; lia|]. split; [intros t i X; apply G, G1, X|].
      intros name' cs' [X|X]; [|apply K, X]. injection X as <- <-. exists ms.
      split; [apply (declares_grows g0); [intros t i Y; apply G, G1, Y|exact D]|].
      destruct R1 as (l & X & Y). exists l. split; [apply G, X|exact Y]. }
  intros g0 ND Fresh Good. destruct (H h g0 ND Fresh Good) as (bs & g & A & B & C & _ & D). exists bs, g. auto.
Qed.
Print Assumptions C67_history_partial.

(** B = { x : A[2]; y : float64 } after A *)
Definition config_B : list child := [Node m_x (Some n_A) (Values [2]); Node m_y (Some t_float64) Absent].
Definition declared_B := [(m_x, n_A, [2], 25); (m_y, t_float64, [], 8)].
Example C67_history_case :
  let h := [(n_A, config_A); (n_B, config_B)] in
  NoDup (map fst h) /\
  (forall h1 name cs h2 bs g1, h = h1 ++ (name, cs) :: h2 -> run [] h1 = Some (bs, g1) ->
     exists ms, declares g1 cs ms /\ 0 < declared_size ms < 2 ^ 32) /\
  exists g l, run [] h = Some ([true; true], g) /\ find g n_B = Some (Configured l) /\ map byteOffset (members l) = [0; 50] /\ class_size l = 58.
Proof.
  cbv zeta. split; [|split].
  - repeat constructor; cbn; intuition discriminate.
  - intros h1 name cs h2 bs g1 E R.
    destruct h1 as [|s1 [|s2 h1]].
    + injection E as <- <- _. exists declared_A. split; [apply declares_A|split; reflexivity].
    + injection E as E1 <- <- _. subst s1. vm_compute in R. injection R as _ <-. exists declared_B. split; [|split; reflexivity].
      apply De_array; try discriminate; [cbn; lia|repeat constructor; lia| |apply De_scalar; [left; reflexivity|split; [lia|left; reflexivity]|apply De_nil]].
      split; [lia|]. right. split; [reflexivity|]. eexists. eexists. split; [reflexivity|]. split; reflexivity.
    + destruct h1; discriminate.
  - do 2 eexists. vm_compute. repeat split.
Qed.

(** Whatever numbers of elements a configuration gives, nothing undefined happens, in any history. *)
Theorem C67_defined : forall g h, Forall (fun s => readable (snd s)) h ->
  exists bs g', run g h = Some (bs, g') /\ length bs = length h.
Proof. exact run_total. Qed.
Print Assumptions C67_defined.
Example C67_defined_case : readable config_A. Proof. repeat constructor; lia. Qed.

(** A refused configuration changes nothing. An accepted one has a type for every member and only readable numbers of elements, replaces no
    type of the application, describes its name with a size that is not zero, and changes no other type. *)
Theorem C67_verdict : forall g name cs b g', initialise g name cs = Some (b, g') ->
  if b then complete cs /\ (forall l, find g name <> Some (Native l)) /\
            (exists l, find g' name = Some (Configured l) /\ 0 < class_size l) /\ forall other, other <> name -> find g' other = find g other
  else g' = g.
Proof.
  intros g name cs [|] g' H; [|exact (initialise_refused _ _ _ _ H)].
  destruct (initialise_true _ _ _ _ H) as (es & total & B & T & N & Fi & O).
  split; [exact (build_complete _ _ _ _ B)|]. split; [exact N|]. split; [exists (Layout es total); auto|exact O].
Qed.
Print Assumptions C67_verdict.
Example C67_verdict_case :
  (exists g', initialise [] n_A config_A = Some (true, g')) /\
  initialise [] n_A (config_A ++ [Node m_x None Absent]) = Some (false, []) /\
  initialise [] n_A [Leaf] = Some (false, []).
Proof. split; [eexists; vm_compute; reflexivity|]. split; vm_compute; reflexivity. Qed.

(** No history of configurations changes a type of the application. *)
Theorem C67_native : forall g h bs g' name l,
  run g h = Some (bs, g') -> find g name = Some (Native l) -> find g' name = Some (Native l).
Proof. exact run_native. Qed.
Print Assumptions C67_native.
Example C67_native_case : let g := [(n_A, Native None)] in
  exists g', run g [(n_A, config_A); (n_B, config_A)] = Some ([false; true], g') /\ find g' n_A = Some (Native None).
Proof. eexists. vm_compute. split; reflexivity. Qed.

(** ** What does not hold *)

(** IntrospectionStructure.h documents that a type which does not exist is refused. It is accepted with the size 0: the next member
    begins at the same byte. *)
Theorem C67_unknown_type_refuted :
  ~ (forall g name cs g' m t n, initialise g name cs = Some (true, g') -> In (Node m (Some t) n) cs -> exists s, size_of g t s).
Proof.
  intros H. destruct (H [] n_A [Node m_x (Some n_C) Absent; Node m_y (Some t_uint8) Absent]
    [(n_A, Configured (Layout [Entry m_x n_C [] 0 0 []; Entry m_y t_uint8 [] 1 0 []] 1))] m_x n_C Absent) as (s & _ & [E|(_ & i & l & E & _)]).
  - vm_compute. reflexivity.
  - left; reflexivity.
  - discriminate.
  - discriminate.
Qed.
Print Assumptions C67_unknown_type_refuted.

(** A type may contain itself. *)
Theorem C67_recursive_refuted :
  ~ (forall g name cs g' m n, find g name = None -> initialise g name cs = Some (true, g') -> ~ In (Node m (Some name) n) cs).
Proof.
  intros H. apply (H [] n_A [Node m_x (Some n_A) Absent; Node m_y (Some t_uint8) Absent]
    [(n_A, Configured (Layout [Entry m_x n_A [] 0 0 []; Entry m_y t_uint8 [] 1 0 []] 1))] m_x Absent); [reflexivity|vm_compute; reflexivity|].
  left; reflexivity.
Qed.
Print Assumptions C67_recursive_refuted.

(** Configuring a type again does not update the types that contain it: here the member x of B says that an A has 25 bytes when it has 8. *)
Theorem C67_update_refuted :
  ~ (forall h bs g name l e, run [] h = Some (bs, g) -> Forall (fun b => b = true) bs -> find g name = Some (Configured l) ->
       In e (members l) -> size_of g (typeName e) (size e)).
Proof.
  intros H.
  set (h := [(n_A, config_A); (n_B, config_B); (n_A, [Node m_x (Some t_float64) Absent])]).
  assert (R : exists g, run [] h = Some ([true; true; true], g) /\
    find g n_B = Some (Configured (Layout [Entry m_x n_A [91; 50; 93] 25 0 [2]; Entry m_y t_float64 [] 8 50 []] 58)) /\
    find g n_A = Some (Configured (Layout [Entry m_x t_float64 [] 8 0 []] 8))).
  { eexists. vm_compute. repeat split. }
  destruct R as (g & R & FB & FA).
  destruct (H h _ g n_B _ (Entry m_x n_A [91; 50; 93] 25 0 [2]) R ltac:(repeat constructor) FB ltac:(left; reflexivity)) as (_ & [E|(_ & i & l & E & I & S)]).
  - discriminate.
  - cbn [typeName] in E. rewrite FA in E. injection E as <-. injection I as <-. discriminate.
Qed.
Print Assumptions C67_update_refuted.

(** More than three dimensions, a dimension of zero elements, or a size above 2^32 bytes are accepted, and the members do not follow each other *)
Definition consistent (cs : list child) : Prop :=
  forall g', initialise [] n_A cs = Some (true, g') -> exists l, find g' n_A = Some (Configured l) /\ tiles 0 (members l) (class_size l).
Theorem C67_four_dimensions_refuted : ~ (forall cs, readable cs -> consistent cs).
Proof.
  intros H. destruct (H [Node m_x (Some t_uint8) (Values [2; 2; 2; 2]); Node m_y (Some t_uint8) Absent] ltac:(repeat constructor; lia) _ ltac:(vm_compute; reflexivity))
    as (l & E & T).
  vm_compute in E. injection E as <-. vm_compute in T. destruct T as (_ & T & _). discriminate.
Qed.
Print Assumptions C67_four_dimensions_refuted.

Definition at_most_three (cs : list child) : Prop :=
  Forall (fun c => match c with Node _ _ (Values l) => (length l <= 3)%nat | _ => True end) cs.
Theorem C67_no_elements_refuted : ~ (forall cs, readable cs -> at_most_three cs -> consistent cs).
Proof.
  intros H. destruct (H [Node m_x (Some t_uint8) (Values [0]); Node m_y (Some t_uint8) Absent] ltac:(repeat constructor; lia) ltac:(repeat constructor; cbn; lia) _ ltac:(vm_compute; reflexivity))
    as (l & E & T).
  vm_compute in E. injection E as <-. vm_compute in T. destruct T as (_ & T & _). discriminate.
Qed.
Print Assumptions C67_no_elements_refuted.

Definition some_elements (cs : list child) : Prop :=
  Forall (fun c => match c with Node _ _ (Values l) => Forall (fun n => 1 <= n) l | _ => True end) cs.
Theorem C67_large_refuted : ~ (forall cs, readable cs -> at_most_three cs -> some_elements cs -> consistent cs).
Proof.
  intros H. destruct (H [Node m_x (Some t_uint8) (Values [65536; 65536]); Node m_y (Some t_uint8) Absent] ltac:(repeat constructor; lia) ltac:(repeat constructor; cbn; lia)
    ltac:(repeat constructor; lia) _ ltac:(vm_compute; reflexivity)) as (l & E & T).
  vm_compute in E. injection E as <-. vm_compute in T. destruct T as (_ & T & _). discriminate.
Qed.
Print Assumptions C67_large_refuted.

(** A bracket that is never closed in the modifiers makes the constructor read after their end. *)
Theorem C67_unclosed_refuted : ~ (forall name type t s o, exists e, make_entry name type t s o = Some e).
Proof. intros H. destruct (H [] [] [91; 50] 0 0) as (e & E). discriminate. Qed.
Print Assumptions C67_unclosed_refuted.
