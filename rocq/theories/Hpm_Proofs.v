(** The slots and the range of the standard heap over a history. *)
From Verif Require Import Base Hpm_Model Hpm_Spec.
From Coq Require Import Permutation.

Fixpoint used (l : list (option nat)) : list nat := match l with [] => [] | None :: l => used l | Some k :: l => k :: used l end.
Lemma used_in k l : In k (used l) <-> In (Some k) l.
Proof.
  induction l as [|[x|] l IH]; cbn; [tauto| |].
  - rewrite IH. split; intros [E|E]; auto; left; congruence.
  - rewrite IH. split; [auto|intros [E|E]; [discriminate|exact E]].
Qed.
Lemma present k l : existsb (same_slot (Some k)) l = true <-> In k (used l).
Proof.
  rewrite used_in, existsb_exists. split.
  - intros (x & I & E). destruct x as [x|]; [|discriminate E]. apply Nat.eqb_eq in E. subst. exact I.
  - intros I. exists (Some k). split; [exact I|]. apply Nat.eqb_refl.
Qed.
Lemma set_spec k l : let (r, l') := set_loop k l in length l' = length l /\
  ((r = true /\ (length (used l) < length l)%nat /\ Permutation (used l') (k :: used l)) \/ (r = false /\ length (used l) = length l /\ l' = l)).
Proof.
  induction l as [|[x|] l IH]; cbn.
  - auto.
  - destruct (set_loop k l) as [r l']. destruct IH as (L & C). cbn. split; [lia|]. destruct C as [(-> & U & P)|(-> & U & ->)].
    + left. split; [reflexivity|]. split; [lia|]. transitivity (x :: k :: used l); [constructor; exact P|constructor].
    + right. repeat split; auto.
  - split; [reflexivity|]. left. split; [reflexivity|]. split; [|reflexivity].
    clear. induction l as [|[y|] l IH]; cbn; lia.
Qed.
Lemma unset_spec k l : NoDup (used l) -> let (r, l') := unset_loop (Some k) l in length l' = length l /\ (r = true <-> In k (used l)) /\ used l' = remove Nat.eq_dec k (used l).
Proof.
  induction l as [|[x|] l IH]; intros N; cbn.
  - split; [reflexivity|]. split; [|reflexivity]. split; [discriminate|intros []].
  - cbn in N. apply NoDup_cons_iff in N. destruct N as [N0 N]. destruct (Nat.eqb x k) eqn:E.
    + apply Nat.eqb_eq in E. subst x. cbn. destruct (Nat.eq_dec k k); [|congruence]. rewrite notin_remove by exact N0. repeat split; auto.
    + apply Nat.eqb_neq in E. specialize (IH N). destruct (unset_loop (Some k) l) as [r l']. destruct IH as (L & R & U). cbn. destruct (Nat.eq_dec k x); [congruence|].
      split; [lia|]. split; [|congruence]. rewrite R. split; [auto|intros [C|C]; [congruence|exact C]].
  - cbn in N. specialize (IH N). destruct (unset_loop (Some k) l) as [r l']. cbn. destruct IH as (L & R & U). repeat split; try tauto; try congruence; lia.
Qed.
Lemma unset_null l : snd (unset_loop None l) = l /\ (fst (unset_loop None l) = true <-> (length (used l) < length l)%nat).
Proof.
  assert (B : forall l, (length (used l) <= length l)%nat) by (clear; induction l as [|[y|] l IH]; cbn; lia).
  induction l as [|[x|] l IH]; cbn.
  - split; [reflexivity|]. split; [discriminate|lia].
  - destruct (unset_loop None l) as [r l']. cbn in *. destruct IH as [-> R]. split; [reflexivity|]. rewrite R. lia.
  - split; [reflexivity|]. pose proof (B l). split; [lia|reflexivity].
Qed.

(** The slots hold what is registered. *)
Definition kept (st : state) (regs : list nat) : Prop := length (slots st) = 16%nat /\ Permutation (used (slots st)) regs /\ NoDup regs.
Lemma kept_in st regs k : kept st regs -> In k regs <-> In (Some k) (slots st).
Proof. intros (_ & P & _). rewrite <- used_in. split; apply Permutation_in; [symmetry|]; exact P. Qed.
Lemma kept_length st regs : kept st regs -> length (used (slots st)) = length regs.
Proof. intros (_ & P & _). apply Permutation_length. exact P. Qed.
Lemma kept_start : kept start [].
Proof. repeat split; [constructor|constructor]. Qed.
Lemma kept_slots st st' regs : slots st' = slots st -> kept st regs -> kept st' regs.
Proof. unfold kept. intros ->. auto. Qed.

Lemma remove_perm k (l l' : list nat) : Permutation l l' -> Permutation (remove Nat.eq_dec k l) (remove Nat.eq_dec k l').
Proof.
  induction 1 as [|x l l' P IH|x y l|]; cbn; [constructor| | |etransitivity; eassumption].
  - destruct (Nat.eq_dec k x); [exact IH|constructor; exact IH].
  - destruct (Nat.eq_dec k y), (Nat.eq_dec k x); try reflexivity. constructor.
Qed.
Lemma remove_nodup k (l : list nat) : NoDup l -> NoDup (remove Nat.eq_dec k l).
Proof.
  induction 1 as [|x l N0 N IH]; cbn; [constructor|]. destruct (Nat.eq_dec k x); [exact IH|]. constructor; [|exact IH]. intros I. apply in_remove in I. tauto.
Qed.
Lemma add_ok st regs k : kept st regs -> let (r, st') := add_heap st (Some k) in
  (r = true <-> ~ In k regs /\ (length regs < 16)%nat) /\ kept st' (enter regs (Add (Some k))) /\ low st' = low st /\ high st' = high st.
Proof.
  intros K. destruct K as (L & P & N). unfold add_heap. cbn [enter].
  assert (I : In k (used (slots st)) <-> In k regs) by (split; apply Permutation_in; [|symmetry]; exact P).
  destruct (existsb (same_slot (Some k)) (slots st)) eqn:E.
  - apply present, I in E. destruct (in_dec Nat.eq_dec k regs); [|tauto]. split; [split; [discriminate|tauto]|]. repeat split; auto.
  - assert (NI : ~ In k regs) by (rewrite <- I, <- present; congruence). destruct (in_dec Nat.eq_dec k regs); [tauto|].
    pose proof (set_spec k (slots st)) as S. destruct (set_loop k (slots st)) as [r l']. destruct S as (L' & S). pose proof (Permutation_length P) as PL. cbn [low high].
    destruct S as [(-> & U & PP)|(-> & U & ->)].
    + replace (length regs <? 16)%nat with true by (symmetry; apply Nat.ltb_lt; lia). split; [split; [intros _; split; [exact NI|lia]|reflexivity]|]. split; [|auto].
      split; [cbn; congruence|]. split; [cbn; rewrite PP; constructor; exact P|constructor; assumption].
    + replace (length regs <? 16)%nat with false by (symmetry; apply Nat.ltb_ge; lia). split; [split; [discriminate|lia]|]. split; [|auto]. repeat split; auto.
Qed.
Lemma remove_ok st regs k : kept st regs -> let (r, st') := remove_heap st (Some k) in
  (r = true <-> In k regs) /\ kept st' (enter regs (Remove (Some k))) /\ low st' = low st /\ high st' = high st.
Proof.
  intros K. destruct K as (L & P & N). unfold remove_heap. cbn [enter].
  assert (I : In k (used (slots st)) <-> In k regs) by (split; apply Permutation_in; [|symmetry]; exact P).
  pose proof (unset_spec k (slots st) (Permutation_NoDup (Permutation_sym P) N)) as S. destruct (unset_loop (Some k) (slots st)) as [r l']. destruct S as (L' & R & U).
  split; [tauto|]. split; [|auto]. split; [cbn; congruence|]. split; [cbn [slots]; rewrite U; apply remove_perm; exact P|apply remove_nodup; exact N].
Qed.

(** The range of the standard heap is the one of the blocks it gave. *)
Definition covers (st : state) (G : list (Z * Z)) : Prop :=
  (G = [] /\ low st = 0 /\ high st = 0) \/
  ((exists p n, In (p, n) G /\ low st = p) /\ (exists p n, In (p, n) G /\ high st = p + n) /\
   forall p n, In (p, n) G -> 0 < p /\ 0 <= n /\ low st <= p /\ p + n <= high st).
Lemma note_slots st p n : slots (note st p n) = slots st.
Proof. reflexivity. Qed.
Lemma note_covers st G p n : covers st G -> 0 < p -> 0 <= n -> p + n < 2 ^ 64 -> covers (note st p n) ((p, n) :: G).
Proof.
  intros C P N W. right. unfold note. cbn [low high]. rewrite uwrap_id by lia. clear W. destruct C as [(-> & -> & ->)|((p1 & n1 & I1 & L) & (p2 & n2 & I2 & Hi) & A)].
  - rewrite Z.eqb_refl, !orb_true_r. cbn [In]. split; [exists p, n; auto|]. split; [exists p, n; auto|]. intros p' n' [[= <- <-]|[]]. lia.
  - pose proof (A _ _ I1) as (P1 & N1 & L1 & H1). pose proof (A _ _ I2) as (P2 & N2 & L2 & H2).
    replace (low st =? 0) with false by lia. replace (high st =? 0) with false by lia. rewrite !orb_false_r. cbn [In].
    split; [destruct (low st >? p) eqn:E; [exists p, n; auto|exists p1, n1; auto]|].
    split; [destruct (high st <? p + n) eqn:E; [exists p, n; auto|exists p2, n2; auto]|].
    intros p' n' [[= <- <-]|I].
    + destruct (low st >? p) eqn:E1, (high st <? p + n) eqn:E2; lia.
    + destruct (A _ _ I) as (B1 & B2 & B3 & B4). destruct (low st >? p) eqn:E1, (high st <? p + n) eqn:E2; lia.
Qed.
Lemma note_twice st p n : note (note st p n) p n = note st p n.
Proof.
  unfold note. cbn [low high slots]. set (e := uwrap 64 (p + n)). clearbody e. f_equal.
  - destruct ((low st >? p) || (low st =? 0)) eqn:E; [|rewrite E; reflexivity]. destruct ((p >? p) || (p =? 0)); reflexivity.
  - destruct ((high st <? e) || (high st =? 0)) eqn:E; [|rewrite E; reflexivity]. destruct ((e <? e) || (e =? 0)); reflexivity.
Qed.
(** What a call adds to the blocks of the standard heap. *)
Definition more (r : out) (G : list (Z * Z)) : list (Z * Z) := match did r with Some Std => if ptr r =? 0 then G else (ptr r, size_of r) :: G | _ => G end.
Lemma malloc_covers st G size p : covers st G -> 0 <= size -> block_ok p size -> let (d, st') := std_malloc st size p in
  slots st' = slots st /\ covers st' (if d =? 0 then G else (d, size) :: G).
Proof.
  intros C S B. unfold std_malloc. destruct (size =? 0) eqn:E; [cbn; auto|]. destruct (p =? 0) eqn:E0; [cbn; auto|]. rewrite E0. split; [reflexivity|].
  apply note_covers; auto; destruct B; lia.
Qed.
Lemma realloc_covers st G a size p : covers st G -> 0 <= size -> block_ok p size -> let (d, st') := std_realloc st a size p in
  slots st' = slots st /\ covers st' (if d =? 0 then G else (d, size) :: G).
Proof.
  intros C S B. unfold std_realloc. destruct (a =? 0); [apply malloc_covers; assumption|]. destruct (size =? 0) eqn:E; [cbn; auto|]. destruct (p =? 0) eqn:E0; [cbn; auto|]. rewrite E0.
  split; [reflexivity|]. apply note_covers; auto; destruct B; lia.
Qed.
Lemma duplicate_covers st G a size l p : covers st G -> 0 <= size -> 0 <= l -> l + 1 < 2 ^ 32 -> block_ok p (if size =? 0 then l + 1 else size) ->
  let (d, st') := std_duplicate st a size l p in slots st' = slots st /\ covers st' (if d =? 0 then G else (d, if size =? 0 then l + 1 else size) :: G).
Proof.
  intros C S L W B. unfold std_duplicate. destruct (a =? 0); [cbn; auto|]. destruct (size =? 0) eqn:E.
  - destruct (p =? 0) eqn:E0; [cbn; auto|]. rewrite E0. rewrite uwrap_id by lia. split; [reflexivity|]. apply note_covers; auto; destruct B; lia.
  - pose proof (malloc_covers st G size p C S B) as M. unfold std_malloc in *. rewrite E in *. destruct (p =? 0) eqn:E0; [cbn; auto|]. rewrite E0 in *. rewrite note_twice, E0. exact M.
Qed.

Lemma step_ok H st regs G o : kept st regs -> covers st G -> proper o ->
  let (r, st') := step H st o in kept st' (enter regs o) /\ covers st' (more r G).
Proof.
  intros K C P. assert (KS : forall st', slots st' = slots st -> kept st' regs) by (intros st' E; eapply kept_slots; eassumption).
  destruct o as [[k|]|[k|]|size n p|a|a size p|a size l n p]; cbn [step proper] in *.
  - pose proof (add_ok st regs k K) as A. destruct (add_heap st (Some k)) as [r st']. destruct A as (_ & A & L1 & L2). split; [exact A|]. cbn. unfold covers. rewrite L1, L2. exact C.
  - cbn. auto.
  - pose proof (remove_ok st regs k K) as A. destruct (remove_heap st (Some k)) as [r st']. destruct A as (_ & A & L1 & L2). split; [exact A|]. cbn. unfold covers. rewrite L1, L2. exact C.
  - unfold remove_heap. pose proof (unset_null (slots st)) as [U _]. destruct (unset_loop None (slots st)) as [r l']. cbn in U. subst l'. cbn. split; [apply KS; reflexivity|exact C].
  - destruct P as (S & B). unfold malloc. cbn [enter]. destruct n as [n|].
    + destruct (find_name H n (slots st)); cbn; auto.
    + pose proof (malloc_covers st G size p C ltac:(lia) B) as M. destruct (std_malloc st size p) as [d st']. destruct M as [M1 M2]. split; [apply KS; exact M1|exact M2].
  - split; [exact K|]. unfold free. destruct (find_heap H st a) as [[|k]|]; exact C.
  - destruct P as (S & B). unfold realloc. cbn [enter].
    pose proof (realloc_covers st G a size p C ltac:(lia) B) as M.
    destruct (find_heap H st a) as [[|k]|]; [|cbn; auto|]; (destruct (std_realloc st a size p) as [d st']; destruct M as [M1 M2]; split; [apply KS; exact M1|exact M2]).
  - destruct P as (S & L & W & B). unfold duplicate. cbn [enter].
    pose proof (duplicate_covers st G a size l p C ltac:(lia) L W B) as M.
    destruct (match match n with None => None | Some n => find_name H n (slots st) end with Some k => Some (Reg k) | None => find_heap H st a end) as [[|k]|]; [|cbn; auto|];
      (destruct (std_duplicate st a size l p) as [d st']; destruct M as [M1 M2]; split; [apply KS; exact M1|exact M2]).
Qed.
Lemma run_ok H : forall l st regs G, kept st regs -> covers st G -> Forall proper l ->
  let (rs, st') := run H st l in kept st' (fold_left enter l regs) /\ exists G', covers st' G' /\ forall p n, In (p, n) G' <-> In (p, n) G \/ given rs p n.
Proof.
  induction l as [|o l IH]; intros st regs G K C P; cbn [run fold_left].
  - split; [exact K|]. exists G. split; [exact C|]. intros p n. split; [auto|]. intros [I|(r & [] & _)]. exact I.
  - pose proof (step_ok H st regs G o K C (Forall_inv P)) as S. destruct (step H st o) as [r st1]. destruct S as [K1 C1].
    specialize (IH st1 _ _ K1 C1 (Forall_inv_tail P)). destruct (run H st1 l) as [rs st2]. destruct IH as (K2 & G' & C2 & E). split; [exact K2|]. exists G'. split; [exact C2|].
    intros p n. rewrite E. unfold given. split.
    + intros [I|(q & I & Q)]; [|right; exists q; split; [right; exact I|exact Q]]. unfold more in I. destruct (did r) as [[|k]|] eqn:D; auto.
      destruct (ptr r =? 0) eqn:Z0; auto. destruct I as [[= <- <-]|I]; auto. right. exists r. split; [left; reflexivity|]. repeat split; auto. lia.
    + intros [I|(q & [<-|I] & Q)].
      * left. unfold more. destruct (did r) as [[|k]|]; auto. destruct (ptr r =? 0); auto. right. exact I.
      * destruct Q as (D & <- & <- & NZ). left. unfold more. rewrite D. replace (ptr r =? 0) with false by lia. left. reflexivity.
      * right. exists q. auto.
Qed.
Lemma start_covers : covers start [].
Proof. left. auto. Qed.

(** The search of an address. *)
Lemma inside_owns H x k : inside H x k <-> owns (first (H k)) (last (H k)) x = true.
Proof. unfold inside, owns. rewrite andb_true_iff, Z.leb_le, Z.leb_le. tauto. Qed.
Lemma find_loop_ok H x : addresses H -> forall l found,
  match found with None => True | Some (k, s) => s = span H k end ->
  match find_loop H x l found with
  | None => found = None /\ forall j, In (Some j) l -> ~ inside H x j
  | Some (k, s) => s = span H k /\ ((exists s0, found = Some (k, s0)) \/ (In (Some k) l /\ inside H x k)) /\
      (forall j, In (Some j) l -> inside H x j -> span H k <= span H j) /\ match found with None => True | Some (j, _) => span H k <= span H j end
  end.
Proof.
  intros A. induction l as [|[k|] l IH]; intros found F; cbn [find_loop].
  - destruct found as [[k s]|]; [|cbn; tauto]. split; [exact F|]. split; [left; eauto|]. split; [intros j []|lia].
  - destruct (owns (first (H k)) (last (H k)) x) eqn:O.
    + assert (W : uwrap 64 (last (H k) - first (H k)) = span H k) by (unfold span; apply uwrap_id; destruct (A k); lia). rewrite W. cbv zeta. apply inside_owns in O.
      assert (G : forall fd, fd = None \/ (exists j s, fd = Some (j, s) /\ s = span H j /\ span H k < span H j) -> 
        match find_loop H x l (Some (k, span H k)) with
        | None => fd = None /\ forall j, In (Some j) (Some k :: l) -> ~ inside H x j
        | Some (i, s) => s = span H i /\ ((exists s0, fd = Some (i, s0)) \/ (In (Some i) (Some k :: l) /\ inside H x i)) /\
            (forall j, In (Some j) (Some k :: l) -> inside H x j -> span H i <= span H j) /\ match fd with None => True | Some (j, _) => span H i <= span H j end
        end).
      { intros fd D. specialize (IH (Some (k, span H k)) eq_refl). destruct (find_loop H x l (Some (k, span H k))) as [[i s]|]; [|destruct IH; discriminate].
        destruct IH as (E & I & M & B). split; [exact E|]. split; [right; destruct I as [(s0 & [= <- _])|[I1 I2]]; cbn; auto|].
        split; [intros j [[= <-]|J] X; auto|]. destruct D as [->|(j & s' & -> & _ & D)]; [exact Logic.I|lia]. }
      destruct found as [[j s]|]; [|apply G; auto]. subst s. destruct (span H k <? span H j) eqn:E; [apply G; right; exists j, (span H j); repeat split; lia|].
      specialize (IH (Some (j, span H j)) eq_refl). destruct (find_loop H x l (Some (j, span H j))) as [[i s]|]; [|destruct IH; discriminate].
      destruct IH as (E' & I & M & B). split; [exact E'|]. split; [destruct I as [I|[I1 I2]]; [left; exact I|right; cbn; auto]|]. split; [|exact B].
      intros j' [[= <-]|J] X; [lia|auto].
    + assert (NO : ~ inside H x k) by (rewrite inside_owns; congruence). specialize (IH found F). destruct (find_loop H x l found) as [[i s]|].
      * destruct IH as (E' & I & M & B). split; [exact E'|]. split; [destruct I as [I|[I1 I2]]; [left; exact I|right; cbn; auto]|]. split; [|exact B].
        intros j' [[= <-]|J] X; [tauto|auto].
      * destruct IH as [E' M]. split; [exact E'|]. intros j' [[= <-]|J]; auto.
  - specialize (IH found F). destruct (find_loop H x l found) as [[i s]|].
    + destruct IH as (E' & I & M & B). split; [exact E'|]. split; [destruct I as [I|[I1 I2]]; [left; exact I|right; cbn; auto]|]. split; [|exact B].
      intros j' [D|J] X; [discriminate|auto].
    + destruct IH as [E' M]. split; [exact E'|]. intros j' [D|J]; [discriminate|auto].
Qed.
Lemma find_ok H st regs x : addresses H -> kept st regs ->
  (exists k, innermost H regs x k /\ find_heap H st x = Some (Reg k)) \/
  (nobody H regs x /\ find_heap H st x = if owns (low st) (high st) x then Some Std else None).
Proof.
  intros A K. unfold find_heap. pose proof (find_loop_ok H x A (slots st) None Logic.I) as F. destruct (find_loop H x (slots st) None) as [[k s]|].
  - left. exists k. split; [|reflexivity]. destruct F as (_ & [(s0 & D)|[I X]] & M & _); [discriminate|]. split; [apply (kept_in _ _ _ K); exact I|]. split; [exact X|].
    intros j J. apply M. apply (kept_in _ _ _ K). exact J.
  - right. split; [|reflexivity]. destruct F as [_ F]. intros j J. apply F. apply (kept_in _ _ _ K). exact J.
Qed.

(** The search of a name. *)
Lemma same_text_eq a : forall b, same_text a b = true <-> a = b.
Proof.
  induction a as [|x a IH]; intros [|y b]; cbn; split; intros E; try discriminate E; try reflexivity.
  - apply andb_true_iff in E. destruct E as [E1 E2]. apply IH in E2. subst. f_equal. lia.
  - injection E as -> ->. rewrite Z.eqb_refl. apply IH. reflexivity.
Qed.
Lemma find_name_ok H n l : match find_name H n l with Some k => In (Some k) l /\ name (H k) = n | None => forall k, In (Some k) l -> name (H k) <> n end.
Proof.
  induction l as [|[x|] l IH]; cbn [find_name].
  - intros k [].
  - destruct (same_text (name (H x)) n) eqn:E; [apply same_text_eq in E; cbn; auto|]. destruct (find_name H n l) as [k|]; [cbn; tauto|].
    intros k [[= <-]|I]; [|auto]. intros D. apply same_text_eq in D. congruence.
  - destruct (find_name H n l) as [k|]; [cbn; tauto|]. intros k [D|I]; [discriminate|auto].
Qed.
