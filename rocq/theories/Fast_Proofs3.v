(** Proofs about the fast scheduler: the actions of the client keep the invariant. *)
From Coq Require Import Lia.
From Verif Require Import Base Conc Fast_Model Fast_Spec Fast_Proofs.
Open Scope nat_scope.

Section Inv.
Variable n : nat.
Variable plan : nat -> list (nat * list exec).
Hypothesis n_pos : 0 < n.
Hypothesis plan_ok : planned n plan.
Notation work := (work plan).
Notation tok := (tok n plan).
Notation inv := (inv n plan).
Notation good := (good n plan).
Notation ptab := (ptab n plan).
Notation filled := (filled n plan).

Definition calm (c : cpc) : Prop :=
  match c with CIdle | CRp _ _ | CRn _ _ | CSp _ _ | CSn _ _ | CStop | CRet _ => True | _ => False end.

Lemma born_calm : forall s p, born s p -> calm (ctl s) -> booted s = true.
Proof. intros s p [[H|(i & Z & _)] _] C; [exact H|]. rewrite Z in C. contradiction. Qed.
Lemma calm_not_starting : forall c, calm c -> ~ starting c.
Proof. intros []; cbn; auto. Qed.
Lemma tok_calm : forall s s' p, calm (ctl s) -> calm (ctl s') ->
  index s' = index s -> booted s' = booted s -> cnt s' = cnt s -> cntf s' = cntf s -> thr s' = thr s ->
  (evf s' = evf s \/ evf s' = false) -> in_force (log s') = in_force (log s) -> current p (log s') = current p (log s) ->
  forall t, tok s p t -> tok s' p t.
Proof.
  intros s s' p C1 C2 Ei Eb En Ec Et Ee Ef Ecu t T. pose proof (calm_not_starting _ C2) as NS.
  assert (born s p -> born s' p) as BB.
  { intros B. pose proof (born_calm s p B C1) as Z. split; [left; congruence|]. rewrite Ef. apply B. }
  destruct t; cbn [Fast_Proofs.tok] in *; rewrite ?Ei, ?Eb, ?En, ?Ec, ?Et, ?Ef, ?Ecu; auto.
  - destruct T as (A & B & C). split; [exact A|]. split; [|exact C]. intros i Z. rewrite Z in C2. contradiction.
  - destruct T as (A & B). auto.
  - destruct T as (A & B & C). split; [auto|]. split; [exact B|]. left. destruct C as [C|C]; [|rewrite C in C1; contradiction]. destruct Ee as [-> | ->]; auto.
  - destruct T as (A & B & C). auto.
  - destruct T as (A & B & C & D & E). auto.
  - destruct T as (A & B & C & D). auto.
  - destruct T as (A & B & C). auto.
  - destruct T as (A & B & C). auto.
  - destruct T as (A & B & C & D). auto.
  - destruct T as (A & B & C & D & E). auto.
  - destruct T as (A & B & C & D & E). auto.
  - destruct T as (A & B). auto.
  - destruct T as (A & B). auto.
  - destruct T as (A & B & C & D). auto 6.
  - destruct T as (A & B & C & D). split; [auto|]. split; [exact B|]. split.
    + intros Z. specialize (C Z). destruct (ctl s); cbn in *; contradiction.
    + intros Z. specialize (D Z). destruct (ctl s), (ctl s'); cbn in *; auto; contradiction.
Qed.

Lemma inv_calm : forall s s', inv s -> calm (ctl s) -> calm (ctl s') -> ctl s' <> CRet OStart ->
  index s' = index s -> booted s' = booted s -> cnt s' = cnt s -> cntf s' = cntf s -> thr s' = thr s ->
  (evf s' = evf s \/ evf s' = false) -> tab s' (index s) = tab s (index s) -> in_force (log s') = in_force (log s) ->
  (forall q, current q (log s') = current q (log s)) -> (forall q, overdue q (log s') = overdue q (log s)) -> good (log s') ->
  ptab s' -> (stopped (log s') = true -> evf s' = false) ->
  (running (log s') = true -> evf s' = true /\ booted s' = true /\ match ctl s' with CStop | CRet OStop => False | _ => True end) ->
  match ctl s' with CStop | CRet OStop => running (log s') = false | _ => True end ->
  (ctl s' = CRet OStop -> evf s' = false) -> inv s'.
Proof.
  intros s s' I C1 C2 NR Ei Eb En Ec Et Ee Eg Ef Ecu Eo G P S1 S2 S3 S4. pose proof (calm_not_starting _ C2) as NS.
  constructor; auto.
  - intros p Hp. rewrite Et. apply (tok_calm s s'); auto. apply (i_thr _ _ _ I p Hp).
  - rewrite Et. apply (i_out _ _ _ I).
  - rewrite Ef, Ei. intros st F. unfold Fast_Proofs.filled. rewrite Eg. exact (i_force _ _ _ I st F).
  - intros Z. contradiction.
  - intros [Z|Z]; [rewrite Z in C2; contradiction|congruence].
  - destruct (ctl s'); cbn in *; auto; contradiction.
  - destruct (ctl s') as [| | | | | | | | | | | | | |[]]; cbn in *; auto; try contradiction; congruence.
  - destruct (ctl s') as [| | | | | | | | | | | | | |[]]; cbn in *; auto; try contradiction; congruence.
  - rewrite Ec, En. intros Z. destruct (i_go _ _ _ I Z) as [A B]. split; [exact A|]. destruct (ctl s), (ctl s'); cbn in *; try contradiction; intros q Hq; rewrite Eo; auto.
  - rewrite Ec, En, Et. apply (i_wait _ _ _ I).
  - rewrite Eb, Ef. apply (i_booted _ _ _ I).
Qed.

(** What the preparation has written. *)
Lemma expected_filled : forall s b st, (forall p, p < n -> tab s b p = expected st (plan st) p) -> filled s b st.
Proof.
  intros s b st H p Hp. rewrite (H p Hp). unfold expected, Fast_Model.work.
  assert (existsb (fun x => fst x =? p) (plan st) = false -> lookup p (plan st) = []) as N.
  { clear. induction (plan st) as [|[q w] l IH]; [reflexivity|]. cbn. destruct (q =? p); [discriminate|exact IH]. }
  destruct (existsb (fun x => fst x =? p) (plan st)); cbn [r_num r_ptr]; [auto|]. rewrite N by reflexivity. split; [reflexivity|congruence].
Qed.
Lemma expected_snoc_other : forall st done p w q, q <> p -> expected st (done ++ [(p, w)]) q = expected st done q.
Proof.
  intros st done p w q N. unfold expected. rewrite existsb_app. cbn. destruct (Nat.eqb_spec p q); [congruence|]. cbn. rewrite Bool.orb_false_r.
  replace (lookup q (done ++ [(p, w)])) with (lookup q done); [reflexivity|].
  induction done as [|[r v] done IH]; cbn; [destruct (Nat.eqb_spec p q); [congruence|reflexivity]|]. destruct (r =? q); [reflexivity|exact IH].
Qed.
Lemma expected_snoc_same : forall st done p w, ~ In p (map fst done) -> expected st (done ++ [(p, w)]) p = Rec (Some (Some st)) (Some (length w)).
Proof.
  intros st done p w N. unfold expected. rewrite existsb_app. cbn. rewrite Nat.eqb_refl. cbn. rewrite Bool.orb_true_r.
  replace (lookup p (done ++ [(p, w)])) with w; [reflexivity|].
  induction done as [|[r v] done IH]; cbn; [rewrite Nat.eqb_refl; reflexivity|]. cbn in N. destruct (Nat.eqb_spec r p); [exfalso; auto|]. apply IH. auto.
Qed.
Lemma updb_other : forall A (f : bool -> A) b x, updb f b x (negb b) = f (negb b).
Proof. intros A f [] x; reflexivity. Qed.
Lemma updb_same : forall A (f : bool -> A) b x, updb f b x b = x.
Proof. intros A f [] x; reflexivity. Qed.
Lemma updb_index : forall A (f : bool -> A) b x, updb f (negb b) x b = f b.
Proof. intros A f [] x; reflexivity. Qed.

Lemma rec_eta : forall r a b, r_ptr r = a -> r_num r = b -> r = Rec a b.
Proof. intros [] a b; cbn; congruence. Qed.

(** PrepareNextState, StopCurrentStateExecution and the returns. *)
Lemma inv_calm_step : forall s s', inv s -> calm (ctl s) -> cstep n false plan s = Some s' -> inv s'.
Proof.
  intros s s' I C H. pose proof (i_tab _ _ _ I) as P. unfold Fast_Proofs.ptab in P. unfold cstep in H.
  destruct (ctl s) as [|st j|st j|st l|st l| | | | | | | | | |o] eqn:E; try contradiction; try discriminate H.
  - (* CRp *) destruct (Nat.ltb_spec j n) as [L|L]; injection H as <-.
    + apply (inv_calm s); auto; try (rewrite E; exact Logic.I); try exact Logic.I; try discriminate; try apply I.
      * cbn [set_ctl set_rec tab]. apply updb_index.
      * unfold Fast_Proofs.ptab. cbn [set_ctl set_rec tab ctl index]. rewrite updb_same. split; [exact L|]. split.
        -- intros p Hp Hn. rewrite upd_other by lia. auto.
        -- rewrite upd_same. reflexivity.
      * cbn [set_ctl set_rec log evf booted ctl]. intros Z. destruct (i_run _ _ _ I Z) as (A & B & _). auto.
    + apply (inv_calm s); auto; try (rewrite E; exact Logic.I); try exact Logic.I; try discriminate; try apply I.
      * unfold Fast_Proofs.ptab. cbn [set_ctl tab ctl index]. exists []. split; [reflexivity|]. intros p Hp. apply P; lia.
      * cbn [set_ctl set_rec log evf booted ctl]. intros Z. destruct (i_run _ _ _ I Z) as (A & B & _). auto.
  - (* CRn *) injection H as <-. destruct P as (L & P1 & P2).
    apply (inv_calm s); auto; try (rewrite E; exact Logic.I); try exact Logic.I; try discriminate; try apply I.
    + cbn [set_ctl set_rec tab]. apply updb_index.
    + unfold Fast_Proofs.ptab. cbn [set_ctl set_rec tab ctl index]. rewrite updb_same. intros p Hp Hn.
      destruct (Nat.eq_dec p j) as [->|N]; [rewrite upd_same, P2; reflexivity|]. rewrite upd_other by exact N. apply P1; lia.
    + cbn [set_ctl set_rec log evf booted ctl]. intros Z. destruct (i_run _ _ _ I Z) as (A & B & _). auto.
  - (* CSp *) destruct l as [|[p w] l]; injection H as <-; destruct P as (done & P1 & P2).
    + apply (inv_calm s); auto; try (rewrite E; exact Logic.I); try exact Logic.I; try discriminate; try apply I.
      * unfold Fast_Proofs.ptab. cbn [set_ctl tab ctl index]. apply expected_filled. cbn [tab]. rewrite app_nil_r in P1. rewrite P1. exact P2.
      * cbn [set_ctl set_rec log evf booted ctl]. intros Z. destruct (i_run _ _ _ I Z) as (A & B & _). auto.
    + apply (inv_calm s); auto; try (rewrite E; exact Logic.I); try exact Logic.I; try discriminate; try apply I.
      * cbn [set_ctl set_rec tab]. apply updb_index.
      * unfold Fast_Proofs.ptab. cbn [set_ctl set_rec tab ctl index]. rewrite updb_same. exists done. split; [exact P1|]. split.
        -- intros q Hq N. rewrite upd_other by exact N. auto.
        -- rewrite upd_same. reflexivity.
      * cbn [set_ctl set_rec log evf booted ctl]. intros Z. destruct (i_run _ _ _ I Z) as (A & B & _). auto.
  - (* CSn *) destruct l as [|[p w] l]; [contradiction|]. injection H as <-. destruct P as (done & P1 & P2 & P3).
    destruct (plan_ok st) as [ND LT].
    apply (inv_calm s); auto; try (rewrite E; exact Logic.I); try exact Logic.I; try discriminate; try apply I.
    + cbn [set_ctl set_rec tab]. apply updb_index.
    + unfold Fast_Proofs.ptab. cbn [set_ctl set_rec tab ctl index]. rewrite updb_same. exists (done ++ [(p, w)]). rewrite <- app_assoc. split; [exact P1|].
      intros q Hq. destruct (Nat.eq_dec q p) as [->|N].
      * rewrite upd_same, P3. rewrite expected_snoc_same; [reflexivity|]. rewrite P1, map_app in ND. cbn in ND. apply NoDup_remove_2 in ND. intros Z. apply ND. apply in_or_app. left; exact Z.
      * rewrite upd_other by exact N. rewrite expected_snoc_other by exact N. auto.
    + cbn [set_ctl set_rec log evf booted ctl]. intros Z. destruct (i_run _ _ _ I Z) as (A & B & _). auto.
  - (* CStop *) injection H as <-. pose proof (i_halt _ _ _ I) as HH. rewrite E in HH.
    apply (inv_calm s); auto; try (rewrite E; exact Logic.I); try exact Logic.I; try discriminate; try apply I.
    + cbn [set_ctl set_ev log]. congruence.
  - (* CRet *) injection H as <-. pose proof (i_good _ _ _ I) as G.
    apply (inv_calm s); auto; try (rewrite E; exact Logic.I); try exact Logic.I; try discriminate; try (split; [exact G|exact Logic.I]).
    + unfold Fast_Proofs.ptab. cbn [set_ctl add tab ctl index log]. destruct o as [st| |]; cbn [prepared_since]; intros Z.
      * exists st. cbn [prepared set_ctl add log index]. split; [reflexivity|exact P].
      * destruct (P Z) as (st & A & B). exists st. cbn [prepared set_ctl add log index]. auto.
      * destruct (P Z) as (st & A & B). exists st. cbn [prepared set_ctl add log index]. auto.
    + cbn [set_ctl add log evf stopped]. destruct o; intros Z; try exact (i_stop _ _ _ I Z). apply (i_ret _ _ _ I E).
    + cbn [set_ctl add log evf booted ctl running]. destruct o; intros Z.
      * destruct (i_run _ _ _ I Z) as (A & B & _). auto.
      * destruct (i_late _ _ _ I (or_intror E)) as (_ & A & _). pose proof (i_boot _ _ _ I) as B. rewrite E in B. auto.
      * pose proof (i_halt _ _ _ I) as HH. rewrite E in HH. congruence.
Qed.

(** The calls. *)
Lemma inv_call : forall s o s', inv s -> pstep n false plan s (ACall o) = Some s' -> inv s'.
Proof.
  intros s o s' I H. unfold pstep, patient, step in H. pose proof (i_tab _ _ _ I) as P. unfold Fast_Proofs.ptab in P. pose proof (i_good _ _ _ I) as G.
  destruct (ctl s) eqn:E; try (destruct o; [discriminate H|destruct (_ && _) in H; discriminate H|discriminate H]).
  destruct o as [st| |].
  - injection H as <-. apply (inv_calm s); auto; try (rewrite E; exact Logic.I); try exact Logic.I; try discriminate; try apply I; try (split; [exact G|exact Logic.I]).
    + unfold Fast_Proofs.ptab. cbn [set_ctl add tab ctl index log entry]. intros p Hp. lia.
    + cbn [set_ctl add log evf booted ctl running entry]. intros Z. destruct (i_run _ _ _ I Z) as (A & B & _). auto.
  - destruct (prepared_since (log s)) eqn:E1; [|discriminate H]. destruct (stopped (log s)) eqn:E2; [|discriminate H]. destruct (settled n s) eqn:E3; [|discriminate H].
    injection H as <-. pose proof (i_stop _ _ _ I E2) as Ee. destruct (P eq_refl) as (st & P1 & P2).
    constructor; cbn [set_ctl add log evf booted ctl running entry index cnt cntf thr tab stopped prepared_since in_force]; auto; try apply I; try discriminate; try exact Logic.I.
    + intros p Hp. pose proof (i_thr _ _ _ I p Hp) as T. unfold settled in E3. rewrite forallb_forall in E3. specialize (E3 p ltac:(apply in_seq; lia)).
      destruct (thr s p); try discriminate E3; cbn [Fast_Proofs.tok] in *; unfold born in *; cbn [set_ctl add log evf booted ctl running entry index cnt cntf thr tab in_force current] in *; rewrite ?E in T.
      * destruct T as (A & B & D). split; [exact A|]. split; [discriminate|exact D].
      * destruct T as ((A & B) & D). split; [split; [|exact B]|exact D]. destruct A as [A|(i0 & Z & _)]; [auto|discriminate Z].
      * destruct T as ((A & B) & D & F). split; [split; [|exact B]|]. { destruct A as [A|(i0 & Z & _)]; [auto|discriminate Z]. } auto.
      * destruct T as ((A & B) & D & F). split; [split; [|exact B]|]. { destruct A as [A|(i0 & Z & _)]; [auto|discriminate Z]. } auto.
      * destruct T as ((A & B) & D). split; [split; [|exact B]|exact D]. destruct A as [A|(i0 & Z & _)]; [auto|discriminate Z].
      * destruct T as ((A & B) & D). split; [split; [|exact B]|exact D]. destruct A as [A|(i0 & Z & _)]; [auto|discriminate Z].
      * destruct T as ((A & B) & D & F & F'). split; [split; [|exact B]|]. { destruct A as [A|(i0 & Z & _)]; [auto|discriminate Z]. } auto.
    + exists st. cbn [set_ctl add log index prepared]. auto.
    + intros [Z|Z]; discriminate.
    + intros Z. destruct (i_go _ _ _ I Z) as [A B]. rewrite E in B. auto.
    + cbn [Fast_Proofs.good]. auto.
  - injection H as <-. apply (inv_calm s); auto; try (rewrite E; exact Logic.I); try exact Logic.I; try discriminate; try apply I; try (split; [exact G|exact Logic.I]).
    reflexivity.
Qed.

(** StartNextStateExecution. *)
Lemma tok_settled : forall s p t, starting (ctl s) -> tok s p t -> settled_pc t = true.
Proof. intros s p [] S T; cbn [Fast_Proofs.tok settled_pc] in *; auto; try (exfalso; tauto). Qed.
Lemma settled_not_posting : forall t, settled_pc t = true -> t <> TPost /\ t <> TBc /\ t <> TCw.
Proof. intros []; cbn; intros; try discriminate; repeat split; discriminate. Qed.

(** The threads during the start: [s'] is a later state of the client. *)
Lemma tok_later : forall s s' p t, starting (ctl s) -> settled_pc t = true -> tok s p t ->
  (born s p -> born s' p) -> (t = TOff -> booted s = false -> (forall i, ctl s = CBoot i -> i <= p) -> booted s' = false /\ forall i, ctl s' = CBoot i -> i <= p) ->
  current p (log s') = current p (log s) -> (evf s' = false \/ ctl s' = CEvB) ->
  (t = TCwS -> cntf s' = true -> exists q, q < n /\ thr s' q = TBc) ->
  (t = TUnS -> (cntf s' = false -> match ctl s' with CIndex | CBoot _ | CCount | CUnP | CUnB => True | _ => False end) /\
               (cntf s' = true -> match ctl s' with CBoot _ | CCount => True | _ => forall st, in_force (log s') = Some st -> work st p = [] end)) ->
  tok s' p t.
Proof.
  intros s s' p t S ST T B O Ec Ee Ew Eu. destruct t; try discriminate ST; cbn [Fast_Proofs.tok] in *; rewrite ?Ec.
  - destruct T as (A & A' & D). destruct (O eq_refl A A') as [O1 O2]. auto.
  - destruct T. auto.
  - destruct T as (A & D & _). auto.
  - destruct T as (A & D & _). auto.
  - destruct T as (A & D). auto.
  - destruct T as (A & D). auto.
  - destruct T as (A & D & _). destruct (Eu eq_refl). auto.
Qed.

Lemma no_post : forall s, inv s -> starting (ctl s) -> forall q, q < n -> thr s q <> TPost /\ thr s q <> TBc /\ thr s q <> TCw.
Proof. intros s I S q Hq. apply settled_not_posting. apply (tok_settled s q); [exact S|]. apply (i_thr _ _ _ I). exact Hq. Qed.
Lemma waiting_short : forall s, inv s -> starting (ctl s) -> cntf s = false -> cnt s < n.
Proof.
  intros s I S F. destruct (i_wait _ _ _ I F) as (A & B & _). pose proof (sum_bound (fun q => counted (thr s q)) n (counted_le (thr s))) as L.
  destruct (Nat.eq_dec (cnt s) n) as [Z|Z]; [|lia]. destruct (B Z) as (q & Hq & Q). destruct (no_post s I S q Hq). contradiction.
Qed.
Lemma opened_alone : forall s, inv s -> starting (ctl s) -> cntf s = true -> forall q, q < n -> thr s q <> TCwS.
Proof.
  intros s I S F q Hq Q. pose proof (i_thr _ _ _ I q Hq) as T. rewrite Q in T. destruct T as (_ & _ & T). destruct (T F) as (r & Hr & R).
  destruct (no_post s I S r Hr) as (_ & X & _). contradiction.
Qed.

Lemma inv_start : forall s s', inv s -> ~ calm (ctl s) -> cstep n false plan s = Some s' -> inv s'.
Proof.
  intros s s' I C H. pose proof (i_tab _ _ _ I) as P. unfold Fast_Proofs.ptab in P. pose proof (i_good _ _ _ I) as G. unfold cstep in H.
  pose proof (i_start _ _ _ I) as S1. pose proof (i_un _ _ _ I) as S2. pose proof (i_boot _ _ _ I) as S3. pose proof (i_switched _ _ _ I) as S4.
  pose proof (i_late _ _ _ I) as S5. pose proof (i_thr _ _ _ I) as T.
  pose proof (waiting_short s I) as SH. pose proof (opened_alone s I) as AL. pose proof (no_post s I) as NP. pose proof (fun p t => tok_settled s p t) as ST.
  pose proof (fun s' p t => tok_later s s' p t) as TL.
  destruct (ctl s) as [|st j|st j|st l|st l| | |i| | | | | | |o] eqn:E; try (exfalso; apply C; exact Logic.I); clear C; 
    try (specialize (S1 Logic.I); specialize (SH Logic.I); specialize (AL Logic.I); specialize (NP Logic.I); destruct S1 as (Ee & Es & Er & Ep)).
  - (* CIndex *) injection H as <-. destruct P as (st & P1 & P2).
    constructor; cbn [add log evf booted ctl index cnt cntf thr tab stopped prepared_since in_force running]; auto; try (apply I); try congruence.
    + intros p Hp. pose proof (ST p _ Logic.I (T p Hp)) as HQ. apply TL; cbn [add log evf booted ctl index cnt cntf thr tab in_force current]; auto.
      * intros [[B|(i & B & _)] B']; [|congruence]. split; cbn [add log booted in_force]; [auto|congruence].
      * intros _ B _. rewrite B. split; [reflexivity|]. intros i Z. injection Z as <-. lia.
      * intros Z F. exfalso. exact (AL F p Hp Z).
      * intros _. destruct (booted s); auto.
    + intros st' F. rewrite P1 in F. injection F as <-. exact P2.
    + unfold Fast_Proofs.ptab. cbn [add tab ctl index log prepared_since]. destruct (booted s); intros Z; congruence.
    + intros [Z|Z]; destruct (booted s); discriminate Z.
    + destruct (booted s); exact Logic.I.
    + destruct (booted s); auto.
    + destruct (booted s); congruence.
    + intros F. split; [apply (i_go _ _ _ I F)|]. destruct (booted s); exact Logic.I.
    + destruct (booted s); exact Logic.I.
    + cbn [Fast_Proofs.good]. auto.
  - (* CBoot *) destruct (Nat.ltb_spec i n) as [L|L]; injection H as <-.
    + assert (thr s i = TOff) as Off.
      { pose proof (T i L) as Q. pose proof (ST i (thr s i) Logic.I Q) as Q'. destruct (thr s i); try discriminate Q'; [reflexivity| | | | | |];
          destruct Q as (([B|(i1 & B & B')] & _) & _); try congruence; rewrite E in B; injection B as ->; lia. }
      constructor; cbn [set_ctl set_thr log evf booted ctl index cnt cntf thr tab]; auto; try (apply I); try congruence.
      * intros p Hp. destruct (Nat.eq_dec p i) as [->|N].
        -- rewrite upd_same. cbn [Fast_Proofs.tok]. cbn [set_ctl set_thr log evf booted ctl]. pose proof (T i L) as Q. rewrite Off in Q. destruct Q as (_ & _ & Q). split; [|exact Q].
           split; [|exact S4]. right. exists (S i). cbn [set_ctl ctl]. split; [reflexivity|lia].
        -- rewrite upd_other by exact N. pose proof (ST p _ Logic.I (T p Hp)) as HQ. apply TL; cbn [set_ctl set_thr log evf booted ctl index cnt cntf thr tab]; auto.
           ++ intros [[B|(i1 & B & B')] B'']; [congruence|]. split; [|exact B'']. right. exists (S i). cbn [set_ctl set_thr ctl]. split; [reflexivity|]. rewrite E in B. injection B as ->. lia.
           ++ intros _ B B'. split; [exact B|]. intros i1 Z. injection Z as <-. specialize (B' i eq_refl). lia.
           ++ intros Z F. exfalso. exact (AL F p Hp Z).
      * intros q Hq. rewrite upd_other by lia. apply (i_out _ _ _ I). exact Hq.
      * intros [Z|Z]; discriminate Z.
      * intros F. destruct (i_go _ _ _ I F) as [A _]. auto.
      * intros F. destruct (i_wait _ _ _ I F) as (A & _ & D). split; [|split].
        -- rewrite A. apply sum_ext. intros q Hq. destruct (Nat.eq_dec q i) as [->|N]; [rewrite upd_same, Off; reflexivity|rewrite upd_other by exact N; reflexivity].
        -- intros Z. specialize (SH F). lia.
        -- intros q Hq. destruct (Nat.eq_dec q i) as [->|N]; [rewrite upd_same; exact Logic.I|]. rewrite upd_other by exact N. destruct (NP q Hq) as (X & _). destruct (thr s q); auto. congruence.
    + constructor; cbn [log evf booted ctl index cnt cntf thr tab]; auto; try (apply I); try congruence.
      * intros p Hp. pose proof (ST p _ Logic.I (T p Hp)) as HQ. apply TL; cbn [log evf booted ctl index cnt cntf thr tab]; auto.
        -- intros [_ B]. split; [left; reflexivity|exact B].
        -- intros _ _ B. exfalso. specialize (B i eq_refl). lia.
        -- intros Z F. exfalso. exact (AL F p Hp Z).
      * intros [Z|Z]; discriminate Z.
      * intros F. destruct (i_go _ _ _ I F) as [A _]. auto.
  - (* CCount *) injection H as <-.
    assert ((if n <=? cnt s then set_cnt s 0 false else s) = set_cnt s (if n <=? cnt s then 0 else cnt s) false) as ->.
    { destruct (Nat.leb_spec n (cnt s)) as [L|L]; [reflexivity|]. assert (cntf s = false) as F. { destruct (cntf s) eqn:F; [|reflexivity]. destruct (i_go _ _ _ I F). lia. }
      unfold set_cnt. rewrite <- F. destruct s; reflexivity. }
    constructor; cbn [set_ctl set_cnt log evf booted ctl index cnt cntf thr tab]; auto; try (apply I); try congruence.
    + intros p Hp. pose proof (ST p _ Logic.I (T p Hp)) as HQ. apply TL; cbn [set_ctl set_cnt log evf booted ctl index cnt cntf thr tab]; auto; try exact Logic.I; try congruence.
      * intros [_ B]. split; [auto|exact B].
      * split; [auto|congruence].
    + intros [Z|Z]; discriminate Z.
    + split; [reflexivity|]. destruct (Nat.leb_spec n (cnt s)); lia.
    + intros _. assert (forall q, q < n -> n <= cnt s -> counted (thr s q) = 0) as CZ.
      { intros q Hq L. assert (cntf s = true) as F by (destruct (cntf s) eqn:F; [reflexivity|specialize (SH eq_refl); lia]).
        destruct (NP q Hq) as (X & _ & Y). pose proof (AL F q Hq) as W. destruct (thr s q); cbn; congruence. }
      split; [|split].
      * destruct (Nat.leb_spec n (cnt s)) as [L|L]; [rewrite sum_zero; auto|]. destruct (cntf s) eqn:F; [destruct (i_go _ _ _ I F); lia|]. apply (i_wait _ _ _ I F).
      * destruct (Nat.leb_spec n (cnt s)) as [L|L]; lia.
      * intros q Hq. destruct (NP q Hq) as (X & _). destruct (thr s q); auto. congruence.
  - (* CUnP *) injection H as <-.
    constructor; cbn [set_ctl set_un log evf booted ctl index cnt cntf thr tab]; auto; try (apply I); try congruence.
    + intros p Hp. pose proof (ST p _ Logic.I (T p Hp)) as HQ. apply TL; cbn [set_ctl set_un log evf booted ctl index cnt cntf thr tab]; auto; try exact Logic.I; try congruence.
      * intros [_ B]. split; [auto|exact B].
      * intros Z F. destruct S2. congruence.
      * intros _. destruct S2. split; [auto|congruence].
    + intros [Z|Z]; discriminate Z.
    + intros F. destruct S2. congruence.
  - (* CUnB *) injection H as <-. destruct S2 as (S2 & S2').
    assert (forall t, settled_pc t = true -> counted (wake_un t) = counted t) as WC by (intros []; cbn; auto).
    constructor; cbn [set_ctl set_thrs log evf booted ctl index cnt cntf thr tab]; auto; try (apply I); try congruence.
    + intros p Hp. pose proof (ST p _ Logic.I (T p Hp)) as Q. pose proof (T p Hp) as Q'.
      assert (tok (set_ctl (set_thrs s (fun q => wake_un (thr s q))) CUnR) p (match thr s p with TUnS => TEv | t => t end)) as R.
      { destruct (thr s p); try discriminate Q; try (apply TL; cbn [set_ctl set_thrs log evf booted ctl index cnt cntf thr tab]; auto; try exact Logic.I; try congruence; intros [_ B]; split; [auto|exact B]).
        cbn [Fast_Proofs.tok] in *. destruct Q' as ([_ B] & D & _). split; [|exact D]. split; [auto|exact B]. }
      destruct (thr s p); exact R.
    + intros p Hp. rewrite (i_out _ _ _ I p Hp). reflexivity.
    + intros [Z|Z]; discriminate Z.
    + intros F. destruct (i_wait _ _ _ I F) as (A & _ & D). split; [|split].
      * rewrite A. apply sum_ext. intros q Hq. symmetry. apply WC. exact (ST q _ Logic.I (T q Hq)).
      * lia.
      * intros q Hq. destruct (NP q Hq) as (X & _). destruct (thr s q); cbn; auto. congruence.
  - (* CUnR *) injection H as <-. destruct S2 as (S2 & S2').
    constructor; cbn [set_ctl set_un log evf booted ctl index cnt cntf thr tab]; auto; try (apply I); try congruence.
    + intros p Hp. pose proof (ST p _ Logic.I (T p Hp)) as HQ. apply TL; cbn [set_ctl set_un log evf booted ctl index cnt cntf thr tab]; auto; try exact Logic.I; try congruence.
      * intros [_ B]. split; [auto|exact B].
      * intros Z. pose proof (T p Hp) as Q. rewrite Z in Q. cbn [Fast_Proofs.tok] in Q. destruct Q as (_ & _ & Q & _). rewrite E in Q. destruct (Q S2).
    + intros [Z|Z]; discriminate Z.
  - (* CEvP *) injection H as <-. destruct S2 as (S2 & S2').
    constructor; cbn [set_ctl set_ev log evf booted ctl index cnt cntf thr tab]; auto; try (apply I); try congruence.
    + intros p Hp. pose proof (ST p _ Logic.I (T p Hp)) as HQ. apply TL; cbn [set_ctl set_ev log evf booted ctl index cnt cntf thr tab]; auto; try exact Logic.I; try congruence.
      * intros [_ B]. split; [auto|exact B].
      * intros Z. pose proof (T p Hp) as Q. rewrite Z in Q. cbn [Fast_Proofs.tok] in Q. destruct Q as (_ & _ & Q & _). rewrite E in Q. destruct (Q S2).
    + intros [].
  - (* CEvB *) injection H as <-. destruct (S5 (or_introl eq_refl)) as (L1 & L2 & L3 & L4).
    assert (forall t, counted (wake_ev false t) = counted t) as WC by (intros []; cbn; auto).
    assert (forall t, wake_ev false t = TPost <-> t = TPost) as WP by (intros []; cbn; split; congruence).
    assert (forall t, wake_ev false t = TBc <-> t = TBc) as WB by (intros []; cbn; split; congruence).
    constructor; cbn [set_ctl set_thrs log evf booted ctl index cnt cntf thr tab]; auto; try (apply I); try congruence.
    + intros p Hp. pose proof (T p Hp) as Q'.
      assert (forall q, born s q -> born (set_ctl (set_thrs s (fun q => wake_ev false (thr s q))) (CRet OStart)) q) as BB by (intros q [_ B]; split; [auto|exact B]).
      assert (~ starting (CRet OStart)) as NS by (intros []).
      destruct (thr s p); cbn [wake_ev Fast_Proofs.tok] in *; cbn [set_ctl set_thrs log evf booted ctl index cnt cntf thr tab] in *; rewrite ?E in *.
      * destruct Q' as (A & _). congruence.
      * destruct Q' as (A & B). auto.
      * destruct Q' as (A & B & _). auto.
      * destruct Q' as (A & B & _). auto.
      * destruct Q' as (A & B & _ & D). auto.
      * destruct Q' as (A & B & _ & D). auto.
      * destruct Q' as (A & B & _). auto.
      * destruct Q' as (A & B & D). split; [auto|]. split; [exact B|]. intros F. destruct (D F) as (q & Hq & R). exists q. split; [exact Hq|]. apply WB. exact R.
      * destruct Q' as (A & B & _ & D). auto.
      * destruct Q' as (A & B & _ & D). auto.
      * destruct Q' as (A & B & _ & D). auto.
      * destruct Q' as (A & B). auto.
      * destruct Q' as (A & B). auto.
      * destruct Q' as (A & B & _ & D). auto.
      * destruct Q' as (A & B & D & D'). auto.
      * exact Q'.
    + intros p Hp. rewrite (i_out _ _ _ I p Hp). reflexivity.
    + intros F. destruct (i_go _ _ _ I F) as [A B]. rewrite E in B. auto.
    + intros F. destruct (i_wait _ _ _ I F) as (A & B & D). split; [|split].
      * rewrite A. apply sum_ext. intros q Hq. symmetry. apply WC.
      * intros Z. destruct (B Z) as (q & Hq & R). exists q. split; [exact Hq|]. apply WP. exact R.
      * intros q Hq. destruct (wake_ev false (thr s q)) eqn:Q; auto. apply (proj1 (WP _)) in Q. intros r Hr R. apply (proj1 (WP _)) in R. specialize (D q Hq). rewrite Q in D. apply D; assumption.
Qed.

Lemma inv_cstep : forall s s', inv s -> cstep n false plan s = Some s' -> inv s'.
Proof.
  intros s s' I H. assert ({calm (ctl s)} + {~ calm (ctl s)}) as [C|C] by (destruct (ctl s); cbn; auto).
  - apply (inv_calm_step s); assumption.
  - apply (inv_start s); assumption.
Qed.
End Inv.
