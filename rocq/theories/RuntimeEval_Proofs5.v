(** Whole programs: the layout made by Compile and the execution of the compiled code. *)
From Coq Require Import String.
From Verif Require Import Base IntArith_Model RuntimeEval_Model RuntimeEval_Spec RuntimeEval_Proofs RuntimeEval_Proofs2
  RuntimeEval_Proofs3 RuntimeEval_Proofs4.
Open Scope string_scope.
Open Scope Z_scope.
Open Scope list_scope.

Fixpoint cw (p : list (list string)) : Z := match p with [] => 0 | l :: p' => cwords l + cw p' end.
Lemma cw_nonneg p : 0 <= cw p.
Proof. induction p as [|l p IH]; cbn [cw]; [lia|]. pose proof (cwords_range l). lia. Qed.
Lemma len_cons {A} (a : A) l : len (a :: l) = 1 + len l.
Proof. unfold len. cbn [List.length]. lia. Qed.
Lemma len_app {A} (a b : list A) : len (a ++ b) = len a + len b.
Proof. unfold len. rewrite app_length. lia. Qed.
Lemma len_nonneg {A} (a : list A) : 0 <= len a.
Proof. unfold len. lia. Qed.

(** ** The compilation of all the lines *)
Section Lines.
Variable L : lib.
Variable cfg : config.
Variables S N : Z.

Lemma lines_inv : forall p c c', INV cfg S N c -> Forall plain_line p -> c_size c + 2 * len p <= 65534 ->
  c_next c + cw p <= S -> compile_lines L p c = Ok c' ->
  INV cfg S N c' /\ c_max c <= c_max c' /\ grows c c' /\ c_next c' = c_next c + cw p /\
  (forall D, kept D c' -> kept D c).
Proof.
  induction p as [|l p IH]; intros c c' I P B HS H; cbn [compile_lines cw] in *.
  - injection H as <-. split; [assumption|]. split; [lia|]. split; [apply grows_refl|]. split; [lia|]. auto.
  - inversion P as [|? ? Pl Pp]; subst. rewrite len_cons in B. pose proof (len_nonneg p) as Lp. pose proof (cw_nonneg p) as Cp.
    apply bind_ok in H as (c1 & H1 & H).
    assert (St : lstep L N c l c1) by (eapply compile_line_step; try eassumption; lia).
    pose proof (lstep_INV _ _ _ _ _ _ _ I St) as I1.
    destruct (lstep_bounds _ _ _ _ _ _ _ I St) as (B1 & B2 & B3).
    destruct (IH c1 c') as (I' & M' & G' & N' & K'); try assumption; try lia.
    split; [assumption|]. split; [lia|]. split; [eapply grows_trans; [eapply lstep_grows; eassumption|assumption]|].
    split; [lia|]. intros D K. specialize (K' D K).
    destruct (lstep_frame _ _ _ _ _ _ _ I St) as [F1 F2]; [lia|]. destruct K' as [K1 K2]. split.
    + intros a Ha. pose proof (cwords_range l). rewrite K1 by lia. apply F1. assumption.
    + intros v Iv Ev Pv. destruct (lstep_var_fwd _ _ _ _ _ _ St Iv) as (w & Iw & El & Ee).
      rewrite <- El, <- Ee. apply K2; [assumption|congruence|]. apply F2; [assumption|congruence|].
      unfold pointed in *. rewrite El, Ee. exact Pv.
Qed.
Lemma lines_defined : forall p c, INV cfg S N c -> Forall plain_line p -> c_size c + 2 * len p <= 65534 ->
  c_next c + cw p <= S -> compile_lines L p c <> Undef.
Proof.
  induction p as [|l p IH]; intros c I P B HS; cbn [compile_lines cw] in *; [discriminate|].
  inversion P as [|? ? Pl Pp]; subst. rewrite len_cons in B. pose proof (len_nonneg p) as Lp. pose proof (cw_nonneg p) as Cp.
  apply bind_defined; [eapply compile_line_defined; try eassumption; lia|]. intros c1 H1.
  assert (St : lstep L N c l c1) by (eapply compile_line_step; try eassumption; lia).
  pose proof (lstep_INV _ _ _ _ _ _ _ I St) as I1. destruct (lstep_bounds _ _ _ _ _ _ _ I St) as (B1 & B2 & B3).
  apply IH; try assumption; lia.
Qed.

(** Every line adds at most two words of code. *)
Lemma lines_code : forall p c c', compile_lines L p c = Ok c' -> Forall plain_line p -> INV cfg S N c ->
  c_size c + 2 * len p <= 65534 -> c_next c + cw p <= S ->
  exists cp, c_code c' = rev cp ++ c_code c /\ len cp <= 2 * len p.
Proof.
  induction p as [|l p IH]; intros c c' H P I B HS; cbn [compile_lines cw] in *.
  - injection H as <-. exists []. split; [reflexivity|]. vm_compute. discriminate.
  - inversion P as [|? ? Pl Pp]; subst. rewrite len_cons in *. pose proof (len_nonneg p) as Lp. pose proof (cw_nonneg p) as Cp.
    apply bind_ok in H as (c1 & H1 & H).
    assert (St : lstep L N c l c1) by (eapply compile_line_step; try eassumption; lia).
    pose proof (lstep_INV _ _ _ _ _ _ _ I St) as I1. destruct (lstep_bounds _ _ _ _ _ _ _ I St) as (B1 & B2 & B3).
    destruct (IH c1 c') as (cp & C & Lc); try assumption; try lia.
    assert (Q : exists cp1, c_code c1 = rev cp1 ++ c_code c /\ len cp1 <= 2).
    { clear C IH. destruct St; cbn [after set_out put c_code].
      - exists []. split; [reflexivity|vm_compute; discriminate].
      - exists [k]. split; [reflexivity|vm_compute; discriminate].
      - destruct (vloc v =? max16); [exists [k] | exists [k; vloc v]]; (split; [reflexivity|vm_compute; discriminate]).
      - destruct (vloc v =? max16); [exists [k] | exists [k; vloc v]]; (split; [reflexivity|vm_compute; discriminate]).
      - subst c2. cbn [c_code]. destruct (c_next c =? max16); [exists [k] | exists [k; c_next c]]; (split; [reflexivity|vm_compute; discriminate]).
      - exists [k]. split; [reflexivity|vm_compute; discriminate]. }
    destruct Q as (cp1 & Q1 & Q2). exists (cp1 ++ cp). rewrite rev_app_distr, <- app_assoc, <- Q1. split; [assumption|].
    rewrite len_app. lia.
Qed.

(** The simulation of the whole code. *)
Section Exec.
Variable e : ev.
Variable D d : Z -> Z.
Hypothesis HN : dsize e = N.

Definition sims (cp : list Z) (c' : cst) (m : mach) (r : sres) : Prop :=
  match r with
  | SDone s' => exists m', R0 S D d c' s' m' /\ merr m' = false /\
      forall md K togo, len cp <= togo -> run L e md (cp ++ K) togo m = run L e md K (togo - len cp) m'
  | SError s' => exists m' c1, R0 S D d c1 s' m' /\ INV cfg S N c1 /\ grows c1 c' /\ merr m' = true /\
      forall K togo, len cp <= togo -> exists togo', run L e SafeMode (cp ++ K) togo m = Some (m', togo')
  | SUndef => fails L e cp m
  | SStuck => False
  end.

Lemma lines_sim : forall p c c' s m, INV cfg S N c -> Forall plain_line p -> c_size c + 2 * len p <= 65534 ->
  c_next c + cw p <= S -> compile_lines L p c = Ok c' -> kept D c' -> c_max c' <= ssize e ->
  R0 S D d c s m -> merr m = false ->
  exists cp, c_code c' = rev cp ++ c_code c /\ len cp <= 2 * len p /\ sims cp c' m (srun L cfg p s).
Proof.
  induction p as [|l p IH]; intros c c' s m I P B HS H K Hm R Me.
  - cbn [compile_lines] in H. injection H as <-. exists []. split; [reflexivity|]. split; [vm_compute; discriminate|].
    cbn [srun sims]. exists m. split; [assumption|]. split; [assumption|].
    intros md K0 togo T. cbn [app]. change (len (@nil Z)) with 0. rewrite Z.sub_0_r. reflexivity.
  - cbn [compile_lines] in H. inversion P as [|? ? Pl Pp]; subst. rewrite len_cons in *. cbn [cw] in HS.
    pose proof (len_nonneg p) as Lp. pose proof (cw_nonneg p) as Cp.
    apply bind_ok in H as (c1 & H1 & H).
    assert (St : lstep L N c l c1) by (eapply compile_line_step; try eassumption; lia).
    pose proof (lstep_INV _ _ _ _ _ _ _ I St) as I1.
    destruct (lstep_bounds _ _ _ _ _ _ _ I St) as (B1 & B2 & B3).
    destruct (lines_inv p c1 c') as (I' & M' & G' & N' & K'); try assumption; try lia.
    specialize (K' D K).
    destruct (line_sim L cfg S N e D d HN c l c1 s m I I1 St R Me K') as (cp1 & C1 & L1 & Sm); [lia..|].
    cbn [srun]. destruct (parse l) as [i|] eqn:Pa; [|contradiction].
    destruct (srun_instrs L cfg i s) as [s1|s1| |] eqn:Ei; cbn [sim then_] in Sm |- *.
    + destruct Sm as (m1 & R1 & Me1 & Go).
      destruct (IH c1 c' s1 m1) as (cp2 & C2 & L2 & Sm2); try assumption; try lia.
      exists (cp1 ++ cp2). rewrite rev_app_distr, <- app_assoc, <- C1. split; [assumption|].
      rewrite len_app. split; [lia|]. destruct Go as [Go _]. specialize (Go Me1).
      pose proof (len_nonneg cp2). pose proof (len_nonneg cp1).
      destruct (srun L cfg p s1) as [s2|s2| |]; cbn [sims] in *; try assumption.
      * destruct Sm2 as (m2 & R2 & Me2 & G2). exists m2. split; [assumption|]. split; [assumption|].
        intros md K0 togo T. rewrite len_app in *. rewrite <- app_assoc, Go by lia. rewrite G2 by lia. f_equal. lia.
      * destruct Sm2 as (m2 & c2 & R2 & I2 & Gr & Me2 & G2). exists m2, c2. repeat (split; [assumption|]).
        intros K0 togo T. rewrite len_app in *. rewrite <- app_assoc, Go by lia. apply G2. lia.
      * intros md K0 togo T. rewrite len_app in *. rewrite <- app_assoc, Go by lia. apply Sm2. lia.
    + destruct Sm as (m1 & R1 & Me1 & Go). destruct Go as [_ Go]. specialize (Go Me1).
      destruct (lines_code p c1 c') as (cp2 & C2 & L2); try assumption; try lia.
      exists (cp1 ++ cp2). rewrite rev_app_distr, <- app_assoc, <- C1. split; [assumption|].
      rewrite len_app. split; [lia|]. cbn [sims]. exists m1, c1. repeat (split; [assumption|]).
      intros K0 togo T. rewrite len_app in T. pose proof (len_nonneg cp2). exists (togo - len cp1).
      rewrite <- app_assoc. apply Go. lia.
    + destruct (lines_code p c1 c') as (cp2 & C2 & L2); try assumption; try lia.
      exists (cp1 ++ cp2). rewrite rev_app_distr, <- app_assoc, <- C1. split; [assumption|].
      rewrite len_app. split; [lia|]. cbn [sims]. intros md K0 togo T. rewrite len_app in T. pose proof (len_nonneg cp2).
      rewrite <- app_assoc. apply Sm. lia.
    + contradiction.
Qed.
End Exec.
End Lines.
