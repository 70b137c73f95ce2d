(** Proofs about the fast scheduler: the log, sums over the threads, the invariant. *)
From Coq Require Import Lia.
From Verif Require Import Base Conc Fast_Model Fast_Spec.
Open Scope nat_scope.

(** * The log *)
Lemma overdue_busy : forall p l, overdue p l = true -> busy p l = true.
Proof.
  intros p l; induction l as [|e l IH]; intros H; [discriminate|].
  destruct e as [o|o| |q st|q e o|q|q]; cbn [overdue] in H; unfold busy in *; cbn [current]; auto.
  - destruct (q =? p); [reflexivity|auto].
  - destruct (q =? p); auto. specialize (IH H). destruct (current p l) as [[st r]|]; [reflexivity|discriminate].
  - destruct (q =? p); [discriminate|auto].
Qed.
Lemma not_overdue : forall p l, current p l = None -> overdue p l = false.
Proof.
  intros p l H. destruct (overdue p l) eqn:E; [|reflexivity]. apply overdue_busy in E. unfold busy in E. rewrite H in E. discriminate.
Qed.

(** * Sums over the threads *)
Fixpoint sum (w : nat -> nat) (m : nat) : nat := match m with 0 => 0 | S m => sum w m + w m end.
Lemma sum_ext : forall w v m, (forall p, p < m -> w p = v p) -> sum w m = sum v m.
Proof. intros w v m; induction m as [|m IH]; intros H; [reflexivity|]. cbn. rewrite IH by (intros; apply H; lia). rewrite H by lia. reflexivity. Qed.
Lemma sum_le : forall w v m, (forall p, p < m -> w p <= v p) -> sum w m <= sum v m.
Proof.
  intros w v m; induction m as [|m IH]; intros H; [reflexivity|]. cbn.
  assert (sum w m <= sum v m) by (apply IH; intros; apply H; lia). pose proof (H m ltac:(lia)). lia.
Qed.
Lemma sum_change : forall w v m p, p < m -> (forall q, q <> p -> w q = v q) -> sum w m + v p = sum v m + w p.
Proof.
  intros w v m p; induction m as [|m IH]; intros Hp H; [lia|]. cbn. destruct (Nat.eq_dec p m) as [->|N].
  - assert (sum w m = sum v m) as -> by (apply sum_ext; intros; apply H; lia). lia.
  - rewrite (H m) by lia. specialize (IH ltac:(lia) H). lia.
Qed.
Lemma sum_ones : forall w m, (forall p, w p <= 1) -> sum w m = m -> forall p, p < m -> w p = 1.
Proof.
  intros w m; induction m as [|m IH]; intros B E p Hp; [lia|]. cbn in E.
  assert (sum w m <= m) as L. { clear - B. induction m as [|m IH]; cbn; [lia|]. pose proof (B m). lia. }
  pose proof (B m). destruct (Nat.eq_dec p m) as [->|N]; [lia|]. apply IH; [exact B|lia|lia].
Qed.
Lemma sum_bound : forall w m, (forall p, w p <= 1) -> sum w m <= m.
Proof. intros w m B; induction m as [|m IH]; cbn; [lia|]. pose proof (B m). lia. Qed.
Lemma sum_some : forall w m, (forall p, w p <= 1) -> sum w m < m -> exists p, p < m /\ w p = 0.
Proof.
  intros w m; induction m as [|m IH]; intros B E; [lia|]. cbn in E. pose proof (B m). destruct (Nat.eq_dec (w m) 0) as [Z|Z].
  - exists m. split; [lia|exact Z].
  - destruct (IH B ltac:(lia)) as (p & Hp & Hz). exists p. split; [lia|exact Hz].
Qed.
Lemma sum_zero : forall w m, (forall p, p < m -> w p = 0) -> sum w m = 0.
Proof. intros w m; induction m as [|m IH]; intros H; [reflexivity|]. cbn. rewrite IH by (intros; apply H; lia). rewrite H by lia. reflexivity. Qed.

(** * The invariant *)
Section Inv.
Variable n : nat.
Variable plan : nat -> list (nat * list exec).
Hypothesis n_pos : 0 < n.
Hypothesis plan_ok : planned n plan.
Notation work := (work plan).
Notation init := init.
Notation pstep := (pstep n false plan).

Definition starting (c : cpc) : Prop := match c with CIndex | CBoot _ | CCount | CUnP | CUnB | CUnR | CEvP => True | _ => False end.
Definition born (s : sys) (p : nat) : Prop := (booted s = true \/ exists i, ctl s = CBoot i /\ p < i) /\ in_force (log s) <> None.

Definition tok (s : sys) (p : nat) (t : tpc) : Prop :=
  match t with
  | TOff => booted s = false /\ (forall i, ctl s = CBoot i -> i <= p) /\ current p (log s) = None
  | TEv => born s p /\ current p (log s) = None
  | TEvS => born s p /\ current p (log s) = None /\ (evf s = false \/ ctl s = CEvB)
  | TCnt | TCw => born s p /\ current p (log s) = None /\ ~ starting (ctl s)
  | TPost => born s p /\ current p (log s) = None /\ ~ starting (ctl s) /\ cntf s = false /\ cnt s = n
  | TBc | TIdx => born s p /\ current p (log s) = None /\ ~ starting (ctl s) /\ cntf s = true
  | TUn => born s p /\ current p (log s) = None /\ ~ starting (ctl s) /\ cntf s = true /\ (forall st, in_force (log s) = Some st -> work st p = [])
  | TCwS => born s p /\ current p (log s) = None /\ (cntf s = true -> exists q, q < n /\ thr s q = TBc)
  | TNum b => born s p /\ current p (log s) = None /\ ~ starting (ctl s) /\ cntf s = true /\ b = index s
  | TPtr b k => born s p /\ current p (log s) = None /\ ~ starting (ctl s) /\ cntf s = true /\ b = index s /\ 0 < k /\
                (forall st, in_force (log s) = Some st -> k = length (work st p))
  | TCycle st i k => born s p /\ exists r, current p (log s) = Some (st, r) /\ length r = i /\ in_order (work st p) r /\ k = length (work st p)
  | TFin => born s p /\ exists st r, current p (log s) = Some (st, r) /\ complete (work st p) r
  | TUnS => born s p /\ current p (log s) = None /\
            (cntf s = false -> match ctl s with CIndex | CBoot _ | CCount | CUnP | CUnB => True | _ => False end) /\
            (cntf s = true -> match ctl s with CBoot _ | CCount => True | _ => forall st, in_force (log s) = Some st -> work st p = [] end)
  | TBad => False
  end.

Definition counted (t : tpc) : nat := match t with TCw | TCwS | TPost => 1 | _ => 0 end.

Definition filled (s : sys) (b : bool) (st : nat) : Prop :=
  forall p, p < n -> r_num (tab s b p) = Some (length (work st p)) /\ (work st p <> [] -> r_ptr (tab s b p) = Some (Some st)).

Definition expected (st : nat) (done : list (nat * list exec)) (p : nat) : rec :=
  if existsb (fun x => fst x =? p) done then Rec (Some (Some st)) (Some (length (lookup p done))) else Rec (Some None) (Some 0).

Definition ready (s : sys) : Prop := exists st, prepared (log s) = Some st /\ filled s (negb (index s)) st.
Definition ptab (s : sys) : Prop :=
  let t := tab s (negb (index s)) in
  match ctl s with
  | CRp st j => forall p, p < j -> p < n -> t p = Rec (Some None) (Some 0)
  | CRn st j => j < n /\ (forall p, p < j -> p < n -> t p = Rec (Some None) (Some 0)) /\ r_ptr (t j) = Some None
  | CSp st l => exists done, plan st = done ++ l /\ forall p, p < n -> t p = expected st done p
  | CSn st ((p, w) :: l) => exists done, plan st = done ++ (p, w) :: l /\ (forall q, q < n -> q <> p -> t q = expected st done q) /\ r_ptr (t p) = Some (Some st)
  | CSn st [] => False
  | CRet (OPrepare st) => filled s (negb (index s)) st
  | CIndex => ready s
  | _ => prepared_since (log s) = true -> ready s
  end.

Fixpoint good (l : list ev) : Prop :=
  match l with
  | [] => True
  | e :: l => good l /\
    match e with
    | EBegin p st => in_force l = Some st /\ current p l = None /\ (forall q, q < n -> overdue q l = false)
    | ERun p e o => exists st r, current p l = Some (st, r) /\ in_order (work st p) r /\ nth_error (work st p) (length r) = Some e
    | EEnd p => exists st r, current p l = Some (st, r) /\ complete (work st p) r
    | EBad _ => False
    | _ => True
    end
  end.

Record inv (s : sys) : Prop := {
  i_thr : forall p, p < n -> tok s p (thr s p);
  i_out : forall p, n <= p -> thr s p = TOff;
  i_force : forall st, in_force (log s) = Some st -> filled s (index s) st;
  i_tab : ptab s;
  i_stop : stopped (log s) = true -> evf s = false;
  i_start : starting (ctl s) -> evf s = false /\ stopped (log s) = false /\ running (log s) = false /\ prepared_since (log s) = false;
  i_late : ctl s = CEvB \/ ctl s = CRet OStart -> stopped (log s) = false /\ evf s = true /\ running (log s) = false /\ prepared_since (log s) = false;
  i_un : match ctl s with CUnP | CUnB | CUnR | CEvP => cntf s = false /\ cnt s < n | _ => True end;
  i_boot : match ctl s with CCount | CUnP | CUnB | CUnR | CEvP | CEvB | CRet OStart => booted s = true | CBoot _ => booted s = false | _ => True end;
  i_switched : match ctl s with CBoot _ | CCount | CUnP | CUnB | CUnR | CEvP | CEvB | CRet OStart => in_force (log s) <> None | _ => True end;
  i_go : cntf s = true -> cnt s = n /\ match ctl s with CBoot _ | CCount => True | _ => forall p, p < n -> overdue p (log s) = false end;
  i_wait : cntf s = false -> cnt s = sum (fun p => counted (thr s p)) n /\ (cnt s = n -> exists p, p < n /\ thr s p = TPost) /\
           (forall p, p < n -> match thr s p with TPost => forall q, q < n -> thr s q = TPost -> q = p | _ => True end);
  i_run : running (log s) = true -> evf s = true /\ booted s = true /\ match ctl s with CStop | CRet OStop => False | _ => True end;
  i_halt : match ctl s with CStop | CRet OStop => running (log s) = false | _ => True end;
  i_ret : ctl s = CRet OStop -> evf s = false;
  i_booted : booted s = true -> in_force (log s) <> None;
  i_good : good (log s)
}.

Lemma counted_le : forall (f : nat -> tpc) p, counted (f p) <= 1.
Proof. clear. intros f p. destruct (f p); cbn; lia. Qed.

Lemma inv_init : inv init.
Proof.
  constructor; cbn; auto; try discriminate; try (intros; contradiction).
  - intros p Hp. split; [reflexivity|]. split; [discriminate|reflexivity].
  - intros [H|H]; discriminate.
  - intros _. assert (sum (fun _ : nat => 0) n = 0) as -> by (apply sum_zero; reflexivity).
    split; [reflexivity|]. split; [|auto]. lia.
Qed.
End Inv.
