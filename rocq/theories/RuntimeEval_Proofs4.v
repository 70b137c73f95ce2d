(** The simulation: the code emitted for a line does what the line means. *)
From Coq Require Import String.
From Verif Require Import Base IntArith_Model RuntimeEval_Model RuntimeEval_Spec RuntimeEval_Proofs RuntimeEval_Proofs2
  RuntimeEval_Proofs3.
Open Scope string_scope.
Open Scope Z_scope.
Open Scope list_scope.

Section Sim.
Variable L : lib.
Variable cfg : config.
Variables S N : Z.
Variable e : ev.          (* the compiled evaluator *)
Variable D d : Z -> Z.    (* the data memory after the compilation and at the start of the execution *)
Hypothesis HN : dsize e = N.

(** The words of the data memory that hold an internal output. *)
Definition in_out (c : cst) (a : Z) : Prop := in_variable (c_out c) a.

Record R0 (c : cst) (s : sstate) (m : mach) : Prop := {
  r_ts : map fst (stk s) = c_ts c;
  r_sp : sp m = c_size c;
  r_stk : stack_at (smem m) (stk s);
  r_const : forall a, 0 <= a < S -> dmem m a = D a;
  r_ptr : forall v, is_var c v -> vext v <> 0 -> load (dmem m) (vloc v) U64 = load D (vloc v) U64;
  r_in : forall x v, plain_name x -> find_var x (c_in c) = Some v -> vext v = 0 ->
         load (dmem m) (vloc v) (vty v) = mem s (PIn x) mod 2 ^ bits (vty v);
  r_out : forall x v, plain_name x -> find_var x (c_out c) = Some v -> vext v = 0 -> vused v = true ->
         load (dmem m) (vloc v) (vty v) = mem s (POut x) mod 2 ^ bits (vty v);
  r_ext : forall p, emem m p = mem s (PExt p);
  r_wr : forall x v, plain_name x -> find_var x (c_out c) = Some v ->
         lookup x (wr s) = if vused v then Some (vty v) else None;
  r_wr' : forall x, plain_name x -> find_var x (c_out c) = None -> lookup x (wr s) = None;
  r_frame : forall a, ~ in_out c a -> dmem m a = d a;
  r_plain : forall x, lookup x (wr s) <> None -> plain_name x }.

(** What the rest of the compilation leaves of the data memory. *)
Definition kept (c : cst) : Prop :=
  (forall a, 0 <= a < c_next c -> D a = c_data c a) /\
  (forall v, is_var c v -> vext v <> 0 -> pointed c (c_data c) v -> load D (vloc v) U64 = vext v).

Definition sim (cp : list Z) (c1 : cst) (m : mach) (r : sres) : Prop :=
  match r with
  | SDone s' => exists m', R0 c1 s' m' /\ merr m' = false /\ goes L e cp m m'
  | SError s' => exists m', R0 c1 s' m' /\ merr m' = true /\ goes L e cp m m'
  | SUndef => fails L e cp m
  | SStuck => False
  end.


(** R0 for a new stack, the rest being the same. *)
Lemma R0_stack c s m c1 st' m' : R0 c s m -> c_in c1 = c_in c -> c_out c1 = c_out c ->
  dmem m' = dmem m -> emem m' = emem m -> map fst st' = c_ts c1 -> sp m' = c_size c1 -> stack_at (smem m') st' ->
  R0 c1 (SS st' (mem s) (wr s)) m'.
Proof.
  intros [] E1 E2 E3 E4 A B C. unfold in_out, is_var in *.
  constructor; cbn [stk mem wr]; unfold in_out, is_var; rewrite ?E1, ?E2, ?E3, ?E4; assumption.
Qed.

Lemma var_get_ok m a t : 0 <= a -> a + words t <= N -> var_get e m a t = Some (load (dmem m) a t).
Proof.
  intros A B. unfold var_get. rewrite HN. destruct (0 <=? a) eqn:E1; [|lia]. destruct (a + words t <=? N) eqn:E2; [|lia].
  reflexivity.
Qed.
Lemma var_set_ok m a t v : 0 <= a -> a + words t <= N ->
  var_set e m a t v = Some (M (sp m) (smem m) (store (dmem m) a t v) (emem m) (merr m)).
Proof.
  intros A B. unfold var_set. rewrite HN. destruct (0 <=? a) eqn:E1; [|lia]. destruct (a + words t <=? N) eqn:E2; [|lia].
  reflexivity.
Qed.

(** R0 after a WRITE to an internal output variable. *)
Lemma R0_write c s m x v td ts st v' c1 er :
  INV cfg S N c -> R0 c s m -> plain_name x -> find_var x (c_out c) = Some v -> vext v = 0 ->
  vty (wchange td v) = td ->
  c_in c1 = c_in c -> c_out c1 = update_first x (wchange td) (c_out c) -> c_ts c1 = ts -> map fst st = ts ->
  c_size c1 = sum_words ts -> stack_at (smem m) st ->
  R0 c1 (SS st (pupd (mem s) (POut x) (write_low (bits td) (mem s (POut x)) v')) ((x, td) :: wr s))
     (M (sum_words ts) (smem m) (store (dmem m) (vloc v) td v') (emem m) er).
Proof.
  intros I R Px Fx X0 Wt E1 E2 E3 Es Ez Sk. destruct R as [A1 A2 A3 A4 A5 A6 A7 A8 A9 A10 A11 A12].
  pose proof (inv_lay _ _ _ _ I) as Ly. pose proof (wchange_facts td v) as (_ & Wl & We & Wu & Wc).
  assert (Ctd : words td <= cell v).
  { pose proof (cell_words (wchange td v)) as Q. rewrite We, Wt in Q. specialize (Q X0). lia. }
  destruct (lay_out _ _ _ _ Ly _ _ Px Fx) as [P1 P2].
  assert (Fo : forall y w, plain_name y -> find_var y (c_out c1) = Some w ->
             y = x /\ w = wchange td v \/ y <> x /\ find_var y (c_out c) = Some w).
  { intros y w Py. rewrite E2, find_update by (intros; apply wchange_facts).
    destruct (String.eqb_spec x y) as [<-|Ne].
    - rewrite Fx. cbn. intros [= <-]. auto.
    - intros Hw. right. auto. }
  assert (Pv : forall w, is_var c1 w -> vext w <> 0 -> is_var c w /\ (vloc w + 2 <= vloc v \/ vloc v + cell v <= vloc w)).
  { intros w (y & Py & Hy) Ew. pose proof (cell_ext _ Ew). destruct Hy as [Hy|Hy].
    - rewrite E1 in Hy. split; [exists y; auto|]. pose proof (lay_io _ _ _ _ Ly y x w v Py Px Hy Fx) as Q. unfold disj in Q. lia.
    - destruct (Fo _ _ Py Hy) as [[-> ->] | [Ne Hy']]; [congruence|]. split; [exists y; auto|].
      pose proof (lay_oo _ _ _ _ Ly y x w v Py Px Ne Hy' Fx) as Q. unfold disj in Q. lia. }
  constructor; cbn [stk mem wr sp smem dmem emem].
  - congruence.
  - congruence.
  - assumption.
  - intros a Ha. rewrite store_frame; [apply A4; assumption|]. lia.
  - intros w Iw Ew. destruct (Pv _ Iw Ew) as [Iw' Dj]. rewrite load_store_other; [apply A5; assumption|].
    change (words U64) with 2. lia.
  - intros y w Py Hy Ew. rewrite E1 in Hy. unfold pupd. cbn [place_eqb].
    rewrite load_store_other; [apply A6; assumption|].
    pose proof (lay_io _ _ _ _ Ly y x w v Py Px Hy Fx) as Q. unfold disj in Q. pose proof (cell_words w Ew). lia.
  - intros y w Py Hy Ew Uw. unfold pupd. cbn [place_eqb]. destruct (Fo _ _ Py Hy) as [[-> ->] | [Ne Hy']].
    + rewrite String.eqb_refl, Wl, Wt, load_store. symmetry. apply set_low_mod.
      destruct (words_bits td) as [[? ?]|[[? ?]|[? ?]]]; lia.
    + destruct (String.eqb_spec y x); [contradiction|]. rewrite load_store_other; [apply A7; assumption|].
      pose proof (lay_oo _ _ _ _ Ly y x w v Py Px Ne Hy' Fx) as Q. unfold disj in Q. pose proof (cell_words w Ew). lia.
  - intros p. unfold pupd. cbn [place_eqb]. apply A8.
  - intros y w Py Hy. cbn [lookup]. destruct (Fo _ _ Py Hy) as [[-> ->] | [Ne Hy']].
    + rewrite String.eqb_refl, Wu, Wt. reflexivity.
    + destruct (String.eqb_spec y x); [contradiction|]. apply A9; assumption.
  - intros y Py Hy. cbn [lookup]. rewrite E2, find_update in Hy by (intros; apply wchange_facts).
    destruct (String.eqb_spec x y) as [<-|Ne].
    + rewrite Fx in Hy. discriminate.
    + destruct (String.eqb_spec y x); [congruence|]. apply A10; assumption.
  - intros a Ha. rewrite store_frame.
    + apply A11. intros (y & w & Hw & Py & Ew & B). apply Ha. unfold in_out, in_variable.
      destruct (string_dec y x) as [->|Ne].
      * rewrite Fx in Hw. injection Hw as <-. exists x, (wchange td v). rewrite E2, find_update by (intros; apply wchange_facts).
        rewrite String.eqb_refl, Fx. split; [reflexivity|]. split; [assumption|]. split; [congruence|].
        rewrite Wl, Wt. unfold wchange in Wt. destruct (ty_eqb (vty v) TVoid) eqn:T.
        -- apply ty_eqb_eq in T. rewrite T in B. change (words TVoid) with 0 in B. lia.
        -- cbn in Wt. subst td. lia.
      * exists y, w. rewrite E2, find_update by (intros; apply wchange_facts).
        destruct (String.eqb_spec x y); [congruence|]. auto.
    + destruct (Z.lt_ge_cases a (vloc v)); [auto|]. destruct (Z.le_gt_cases (vloc v + words td) a); [auto|].
      exfalso. apply Ha. exists x, (wchange td v). rewrite E2, find_update by (intros; apply wchange_facts).
      rewrite String.eqb_refl, Fx. repeat split; try assumption; try congruence; rewrite ?Wl, ?Wt; lia.
  - intros y. cbn [lookup]. destruct (String.eqb_spec y x) as [->|Ne]; [auto|apply A12].
Qed.

(** R0 after a WRITE to an external output variable. *)
Lemma R0_rwrite c s m x v td ts st v' c1 er :
  R0 c s m -> plain_name x -> find_var x (c_out c) = Some v -> vext v <> 0 ->
  vty (wchange td v) = td ->
  c_in c1 = c_in c -> c_out c1 = update_first x (wchange td) (c_out c) -> c_ts c1 = ts -> map fst st = ts ->
  c_size c1 = sum_words ts -> stack_at (smem m) st ->
  R0 c1 (SS st (pupd (mem s) (PExt (vext v)) (write_low (bits td) (mem s (PExt (vext v))) v')) ((x, td) :: wr s))
     (M (sum_words ts) (smem m) (dmem m) (upd (emem m) (vext v) (set_low (bits td) (emem m (vext v)) v')) er).
Proof.
  intros R Px Fx X0 Wt E1 E2 E3 Es Ez Sk. destruct R as [A1 A2 A3 A4 A5 A6 A7 A8 A9 A10 A11 A12].
  pose proof (wchange_facts td v) as (_ & Wl & We & Wu & Wc).
  assert (Vs : wchange td v = with_used v).
  { unfold wchange. destruct (Z.eqb_spec (vext v) 0); [contradiction|]. rewrite andb_false_r. reflexivity. }
  assert (Fo : forall y w, find_var y (c_out c1) = Some w ->
             y = x /\ w = wchange td v \/ y <> x /\ find_var y (c_out c) = Some w).
  { intros y w. rewrite E2, find_update by (intros; apply wchange_facts).
    destruct (String.eqb_spec x y) as [<-|Ne].
    - rewrite Fx. cbn. intros [= <-]. auto.
    - intros Hw. right. auto. }
  constructor; cbn [stk mem wr sp smem dmem emem].
  - congruence.
  - congruence.
  - assumption.
  - assumption.
  - intros w (y & Py & Hy) Ew. destruct Hy as [Hy|Hy].
    + apply A5; [|assumption]. exists y. rewrite <- E1. auto.
    + destruct (Fo _ _ Hy) as [[-> ->] | [Ne Hy']].
      * rewrite Wl. apply A5; [|congruence]. exists x. auto.
      * apply A5; [|assumption]. exists y. auto.
  - intros y w Py Hy Ew. rewrite E1 in Hy. unfold pupd. cbn [place_eqb]. apply A6; assumption.
  - intros y w Py Hy Ew Uw. unfold pupd. cbn [place_eqb]. destruct (Fo _ _ Hy) as [[-> ->] | [Ne Hy']]; [congruence|].
    apply A7; assumption.
  - intros p. unfold pupd, upd. cbn [place_eqb]. rewrite A8. destruct (p =? vext v); [reflexivity | apply A8].
  - intros y w Py Hy. cbn [lookup]. destruct (Fo _ _ Hy) as [[-> ->] | [Ne Hy']].
    + rewrite String.eqb_refl, Wu, Wt. reflexivity.
    + destruct (String.eqb_spec y x); [contradiction|]. apply A9; assumption.
  - intros y Py Hy. cbn [lookup]. rewrite E2, find_update in Hy by (intros; apply wchange_facts).
    destruct (String.eqb_spec x y) as [<-|Ne].
    + rewrite Fx in Hy. discriminate.
    + destruct (String.eqb_spec y x); [congruence|]. apply A10; assumption.
  - intros a Ha. apply A11. intros (y & w & Hw & Py & Ew & B). apply Ha. exists y, w.
    rewrite E2, find_update by (intros; apply wchange_facts).
    destruct (String.eqb_spec x y) as [<-|Ne]; [congruence|]. auto.
  - intros y. cbn [lookup]. destruct (String.eqb_spec y x) as [->|Ne]; [auto|apply A12].
Qed.

Lemma mod_bits_range z t : 0 <= z mod 2 ^ bits t < 2 ^ bits t.
Proof. apply Z.mod_pos_bound, bits_pos. Qed.

Lemma stack_split c s m pops ts : R0 c s m -> c_ts c = pops ++ ts ->
  exists pre st, stk s = pre ++ st /\ map fst pre = pops /\ map fst st = ts /\ List.length pre = List.length pops.
Proof.
  intros R E. rewrite <- (r_ts _ _ _ R) in E. exists (firstn (List.length pops) (stk s)), (skipn (List.length pops) (stk s)).
  rewrite firstn_skipn. rewrite <- !firstn_map, <- !skipn_map, E.
  rewrite firstn_app, Nat.sub_diag, firstn_all, firstn_O, app_nil_r.
  rewrite skipn_app, Nat.sub_diag, skipn_all, skipn_O. repeat split.
  rewrite firstn_length_le; [reflexivity|]. rewrite <- (map_length fst), E, app_length. lia.
Qed.

Lemma line_sim c l c1 s m : INV cfg S N c -> INV cfg S N c1 -> lstep L N c l c1 -> R0 c s m -> merr m = false ->
  kept c1 -> c_next c1 <= S -> c_max c <= c_max c1 -> c_max c1 <= ssize e ->
  exists cp, c_code c1 = rev cp ++ c_code c /\ len cp <= 2 /\
  match parse l with
  | None => False
  | Some i => sim cp c1 m (srun_instrs L cfg i s)
  end.
Proof.
  intros I I1 H R Me K HS Hm Hs.
  pose proof (inv_size _ _ _ _ I) as IS. pose proof (inv_size _ _ _ _ I1) as IS1.
  pose proof (inv_max _ _ _ _ I) as IM. pose proof (inv_max _ _ _ _ I1) as IM1.
  pose proof (inv_lay _ _ _ _ I) as Ly.
  assert (Sp : sp m = sum_words (map fst (stk s))) by (rewrite (r_ts _ _ _ R), (r_sp _ _ _ R); assumption).
  assert (Sb : sp m <= ssize e) by (rewrite (r_sp _ _ _ R); lia).
  assert (S1 : 0 <= c_size c1 <= ssize e) by (pose proof (sum_words_nonneg (c_ts c1)); lia).
  destruct H.
  - (* empty line *)
    exists []. split; [reflexivity|]. split; [vm_compute; discriminate|]. cbn [parse srun_instrs sim]. exists m. split; [assumption|]. split; [assumption|]. split.
    + intros _ md K0 togo T. cbn [app]. rewrite Z.sub_0_r. reflexivity.
    + congruence.
  - (* CAST *)
    set (td := ty_of_name t) in *.
    exists (code_of k 0 (unary "CAST" s0 td (f_cast L s0 td))). split; [reflexivity|]. split; [vm_compute; discriminate|].
    destruct (stack_split c s m [s0] ts R H) as (pre & st & E & E1 & E2 & _).
    destruct pre as [|[t0 v] [|? ?]]; cbn in E1; try discriminate. injection E1 as ->.
    cbn [app] in E.
    change (parse ["CAST"; t]) with (Some [ICast td]). cbn [srun_instrs sstep then_]. rewrite E.
    destruct (n2n L s0 td v) as [ok v'] eqn:En.
    pose proof (n2n_range L s0 td v) as Rn. rewrite En in Rn. cbn [snd] in Rn.
    pose proof (r_stk _ _ _ R) as Sk. rewrite E in Sk, Sp.
    assert (X : exists m', exec_body L e (BFun false [s0] td (f_cast L s0 td)) 0 m = Some m' /\
              R0 (after c (td :: ts) (c_size c - words s0 + words td) k max16) (SS ((td, v') :: st) (mem s) (wr s)) m' /\
              merr m' = negb ok).
    { cbn [exec_body andb].
      pose proof (pop_all_ok e [(s0, v)] m st Sp Sk Sb) as Pa. cbn [map fst snd] in Pa. rewrite Pa. cbn [f_cast]. rewrite En.
      set (m1 := set_err _ _).
      destruct (push_ok e m1 td v' st) as (m' & P1 & P2 & P3 & P4 & P5 & P6).
      - reflexivity.
      - cbn. apply Sk.
      - exact Rn.
      - cbn [m1 set_err sp]. cbn [after c_size] in S1. cbn [map fst] in Sp. rewrite sum_words_cons in Sp.
        rewrite (r_sp _ _ _ R) in Sp. lia.
      - exists m'. split; [exact P1|]. split.
        + eapply R0_stack; try eassumption; try reflexivity.
          * cbn [map fst after c_ts]. congruence.
          * cbn [after c_size]. rewrite P2. cbn [map fst] in *. rewrite sum_words_cons in *.
            rewrite (r_sp _ _ _ R) in Sp. lia.
        + rewrite P6. cbn [m1 set_err merr]. rewrite Me. reflexivity. }
    destruct X as (m' & X & Rm & Mm).
    assert (G : goes L e (code_of k 0 (unary "CAST" s0 td (f_cast L s0 td))) m m').
    { apply goes_one; [assumption|exact X|]. rewrite (r_sp _ _ _ Rm). assumption. }
    destruct ok; cbn [negb done then_ srun_instrs sim] in *; exists m'; auto.
  - (* WRITE *)
    assert (Iv : is_var c v) by (exists x; auto).
    destruct (is_var_place _ _ _ _ _ I Iv) as [Pl1 Pl2]. pose proof (lay_S _ _ _ _ Ly) as LS.
    pose proof (lay_max _ _ _ _ Ly) as LM.
    destruct (inv_cout _ _ _ _ I _ _ H H0) as (Co1 & Co2 & Co3 & Co4).
    assert (Wt : vty (wchange td v) = td).
    { unfold wchange. destruct H3 as [[Q ->] | [Q ->]]; rewrite Q; reflexivity. }
    assert (Nl : vloc v =? max16 = false).
    { destruct (Z.eqb_spec (vloc v) max16); [|reflexivity]. unfold max16 in *. pose proof (cell_range v). lia. }
    destruct (stack_split c s m [s0] ts R H1) as (pre & st & E & E1 & E2 & _).
    destruct pre as [|[t0 val] [|? ?]]; cbn in E1; try discriminate. injection E1 as ->. cbn [app] in E.
    pose proof (r_stk _ _ _ R) as Sk. rewrite E in Sk, Sp.
    assert (T' : match lookup x (wr s) with
                 | Some t0 => t0
                 | None => if ty_eqb (out_type cfg x) TVoid then s0 else out_type cfg x
                 end = td).
    { rewrite (r_wr _ _ _ R _ _ H H0). destruct (vused v) eqn:U.
      - specialize (Co3 eq_refl). destruct H3 as [[Q ->] | [Q ->]]; [|reflexivity].
        apply andb_true_iff in Q as [Q _]. apply ty_eqb_eq in Q. rewrite Q in Co3. discriminate.
      - rewrite <- (Co2 eq_refl). destruct H3 as [[Q ->] | [Q ->]].
        + apply andb_true_iff in Q as [Q _]. rewrite Q. reflexivity.
        + destruct (ty_eqb (vty v) TVoid) eqn:Tv; [|reflexivity]. apply ty_eqb_eq in Tv. rewrite Tv in H2. discriminate. }
    change (parse ["WRITE"; x]) with (Some [IWrite x]). cbn [srun_instrs sstep then_]. rewrite E. cbv zeta. rewrite T'.
    assert (St : sum_words ts = c_size c - words s0).
    { rewrite H1, sum_words_cons in IS. lia. }
    assert (Pop : pop e m s0 = Some (val, M (sum_words ts) (smem m) (dmem m) (emem m) (merr m))).
    { rewrite (pop_ok e m s0 val st); try assumption. rewrite E2. reflexivity. }
    set (cc := after _ _ _ _ _) in *.
    (* the effect of the function on the machine *)
    assert (X : forall r, nth_error (table L) (Z.to_nat k) = Some r -> operand (rbody r) = true ->
        (forall v' er, (v', er) = convert L s0 td val -> exists m',
           exec_body L e (rbody r) (vloc v) m = Some m' /\ merr m' = er /\
           R0 cc (SS st (pupd (mem s) (out_place cfg x) (write_low (bits td) (mem s (out_place cfg x)) v')) ((x, td) :: wr s)) m') ->
        exists cp, c_code cc = rev cp ++ c_code c /\ len cp <= 2 /\
          sim cp cc m (then_ (let '(v', err) := convert L s0 td val in
             done err (SS st (pupd (mem s) (out_place cfg x) (write_low (bits td) (mem s (out_place cfg x)) v')) ((x, td) :: wr s)))
             (fun s => SDone s))).
    { intros r Nr Op X. exists (code_of k (vloc v) r). unfold code_of. rewrite Op. 
      assert (Cc : c_code cc = vloc v :: k :: c_code c) by (unfold cc, after; cbn [c_code]; rewrite Nl; reflexivity). rewrite Cc.
      split; [reflexivity|]. split; [vm_compute; discriminate|].
      destruct (convert L s0 td val) as [v' er]. destruct (X _ _ eq_refl) as (m' & X1 & X2 & X3).
      assert (G : goes L e [k; vloc v] m m').
      { pose proof (goes_one L e k (vloc v) r m m' Nr) as G. unfold code_of in G. rewrite Op in G. apply G; [assumption|].
        rewrite (r_sp _ _ _ X3). assumption. }
      destruct er; cbn [done then_ sim]; exists m'; (split; [assumption|]; split; [assumption|exact G]). }
    assert (Ck : forall d0, c_code (put c d0) = c_code c) by reflexivity.
    destruct H4 as [(E0 & -> & Nt) | (E0 & -> & Nt)].
    + (* internal *)
      assert (Op : out_place cfg x = POut x) by (unfold out_place; rewrite <- Co1, E0; reflexivity).
      apply (X _ Nt); [destruct (ty_eqb s0 td); reflexivity|]. clear X. intros v' er Cv. rewrite Op.
      unfold convert in Cv.
      pose proof (cell_words (wchange td v)) as Cw. destruct (wchange_facts td v) as (_ & Wl & We & Wu & Wc).
      rewrite We, Wt in Cw. specialize (Cw E0).
      assert (RR : forall w er, R0 cc (SS st (pupd (mem s) (POut x) (write_low (bits td) (mem s (POut x)) w)) ((x, td) :: wr s))
                                   (M (sum_words ts) (smem m) (store (dmem m) (vloc v) td w) (emem m) er)).
      { intros w er'. apply (R0_write c s m x v td ts st w cc er'); try assumption; try reflexivity; apply Sk. }
      cbn [rbody]. destruct (ty_eqb s0 td) eqn:Te.
      * injection Cv as -> ->. apply ty_eqb_eq in Te. subst s0. cbn [exec_body]. rewrite Pop.
        rewrite var_set_ok by lia. eexists. split; [reflexivity|]. cbn [sp smem dmem emem merr].
        split; [assumption|]. apply RR.
      * cbn [exec_body]. rewrite Pop. destruct (n2n L s0 td val) as [ok w]. injection Cv as -> ->.
        rewrite var_set_ok by lia. eexists. split; [reflexivity|]. cbn [set_err sp smem dmem emem merr].
        split; [rewrite Me; reflexivity|]. apply RR.
    + (* external *)
      assert (Op : out_place cfg x = PExt (vext v)).
      { unfold out_place. rewrite <- Co1. destruct (Z.eqb_spec (vext v) 0); [contradiction|reflexivity]. }
      apply (X _ Nt); [destruct (ty_eqb s0 td); reflexivity|]. clear X. intros v' er Cv. rewrite Op.
      unfold convert in Cv.
      assert (Ptr : load (dmem m) (vloc v) U64 = vext v).
      { rewrite (r_ptr _ _ _ R v Iv E0). destruct K as [_ K2].
        destruct (wchange_facts td v) as (_ & Wl & We & _ & _).
        rewrite <- Wl, <- We. apply K2.
        - exists x. split; [assumption|]. right. cbn [cc after set_out put c_out].
          rewrite find_update by (intros; apply wchange_facts). rewrite String.eqb_refl, H0. reflexivity.
        - rewrite We; assumption.
        - unfold pointed. cbn [cc after set_out put c_data]. rewrite Wl, We, load_store. apply Z.mod_small. exact Co4. }
      pose proof (cell_ext v E0) as Ce.
      assert (Vg : forall sp0 er0, var_get e (M sp0 (smem m) (dmem m) (emem m) er0) (vloc v) U64 = Some (vext v)).
      { intros. rewrite var_get_ok; [cbn [dmem]; rewrite Ptr; reflexivity|lia|change (words U64) with 2; lia]. }
      assert (Vg' : var_get e m (vloc v) U64 = Some (vext v)) by (destruct m; apply Vg).
      assert (RR : forall w er, R0 cc (SS st (pupd (mem s) (PExt (vext v)) (write_low (bits td) (mem s (PExt (vext v))) w)) ((x, td) :: wr s))
                                   (M (sum_words ts) (smem m) (dmem m) (upd (emem m) (vext v) (set_low (bits td) (emem m (vext v)) w)) er)).
      { intros w er'. apply (R0_rwrite c s m x v td ts st w cc er'); try assumption; try reflexivity; apply Sk. }
      cbn [rbody]. destruct (ty_eqb s0 td) eqn:Te.
      * injection Cv as -> ->. apply ty_eqb_eq in Te. subst s0. cbn [exec_body]. rewrite Vg', Pop.
        eexists. split; [reflexivity|]. unfold ext_set. cbn [sp smem dmem emem merr].
        split; [assumption|]. apply RR.
      * cbn [exec_body]. rewrite Pop, Vg. destruct (n2n L s0 td val) as [ok w]. injection Cv as -> ->.
        eexists. split; [reflexivity|]. unfold ext_set, set_err. cbn [sp smem dmem emem merr].
        split; [rewrite Me; reflexivity|]. apply RR.
  - (* READ *)
    assert (Iv : is_var c v) by (exists x; intuition).
    destruct (is_var_place _ _ _ _ _ I Iv) as [Pl1 Pl2]. pose proof (lay_S _ _ _ _ Ly) as LS.
    pose proof (lay_max _ _ _ _ Ly) as LM.
    assert (Nl : vloc v =? max16 = false).
    { destruct (Z.eqb_spec (vloc v) max16); [|reflexivity]. unfold max16 in *. pose proof (cell_range v). lia. }
    (* where the machine of the specification reads *)
    assert (Wh : exists pl, (match lookup x (wr s) with
                             | Some t => (out_place cfg x, t)
                             | None => (in_place cfg x, in_type cfg x)
                             end) = (pl, vty v) /\
                 (vext v = 0 -> load (dmem m) (vloc v) (vty v) = mem s pl mod 2 ^ bits (vty v)) /\
                 (vext v <> 0 -> pl = PExt (vext v))).
    { destruct H0 as [[F U] | [F Fi]].
      - exists (out_place cfg x). rewrite (r_wr _ _ _ R _ _ H F), U. split; [reflexivity|].
        destruct (inv_cout _ _ _ _ I _ _ H F) as (Co1 & _). unfold out_place. rewrite <- Co1. split; intros E0.
        + rewrite E0. cbn [Z.eqb]. apply (r_out _ _ _ R); assumption.
        + destruct (Z.eqb_spec (vext v) 0); [contradiction|reflexivity].
      - exists (in_place cfg x). destruct (inv_cin _ _ _ _ I _ _ H Fi) as (Ci1 & Ci2 & _).
        assert (Lk : lookup x (wr s) = None).
        { destruct (find_var x (c_out c)) as [v'|] eqn:Fo.
          - rewrite (r_wr _ _ _ R _ _ H Fo), (F _ eq_refl). reflexivity.
          - apply (r_wr' _ _ _ R); assumption. }
        rewrite Lk, <- Ci2. split; [reflexivity|]. unfold in_place. rewrite <- Ci1. split; intros E0.
        + rewrite E0. cbn [Z.eqb]. apply (r_in _ _ _ R); assumption.
        + destruct (Z.eqb_spec (vext v) 0); [contradiction|reflexivity]. }
    destruct Wh as (pl & Wh & W0 & W1).
    change (parse ["READ"; x]) with (Some [IRead x]). cbn [srun_instrs sstep then_]. rewrite Wh. cbn [then_ sim].
    set (val := mem s pl mod 2 ^ bits (vty v)).
    set (cc := after _ _ _ _ _) in *.
    assert (Pu : exists m', push e m (vty v) val = Some m' /\ merr m' = false /\
                 R0 cc (SS ((vty v, val) :: stk s) (mem s) (wr s)) m').
    { destruct (push_ok e m (vty v) val (stk s) Sp (r_stk _ _ _ R) (mod_bits_range _ _)) as (m' & P1 & P2 & P3 & P4 & P5 & P6).
      - rewrite (r_sp _ _ _ R). cbn [cc after c_size] in S1. lia.
      - exists m'. split; [exact P1|]. split; [congruence|]. eapply R0_stack; try eassumption; try reflexivity.
        + cbn [map fst cc after c_ts]. rewrite (r_ts _ _ _ R). reflexivity.
        + rewrite P2. cbn [map fst cc after c_size]. rewrite sum_words_cons, <- Sp, (r_sp _ _ _ R). lia. }
    destruct Pu as (m' & P1 & P2 & P3).
    assert (X : forall r, nth_error (table L) (Z.to_nat k) = Some r -> operand (rbody r) = true ->
                exec_body L e (rbody r) (vloc v) m = Some m' ->
                exists cp, c_code cc = rev cp ++ c_code c /\ len cp <= 2 /\
                exists m', R0 cc (SS ((vty v, val) :: stk s) (mem s) (wr s)) m' /\ merr m' = false /\ goes L e cp m m').
    { intros r Nr Op X. exists (code_of k (vloc v) r). unfold code_of. rewrite Op. 
      assert (Cc : c_code cc = vloc v :: k :: c_code c) by (unfold cc, after; cbn [c_code]; rewrite Nl; reflexivity). rewrite Cc.
      split; [reflexivity|]. split; [vm_compute; discriminate|]. exists m'. split; [assumption|]. split; [assumption|]. split.
      - pose proof (goes_one L e k (vloc v) r m m' Nr) as G. unfold code_of in G. rewrite Op in G. apply G; [assumption|].
        rewrite (r_sp _ _ _ P3). assumption.
      - congruence. }
    destruct H1 as [(E0 & -> & Nt) | (E0 & -> & Nt)].
    + apply (X _ Nt eq_refl). cbn [rbody exec_body]. pose proof (cell_words v E0).
      rewrite var_get_ok by lia. rewrite (W0 E0). exact P1.
    + apply (X _ Nt eq_refl). cbn [rbody exec_body]. pose proof (cell_ext v E0).
      rewrite var_get_ok; [|lia|change (words U64) with 2; lia].
      assert (Ptr : load (dmem m) (vloc v) U64 = vext v).
      { rewrite (r_ptr _ _ _ R v Iv E0). destruct K as [_ K2]. apply K2; [exact Iv|exact E0|].
        unfold pointed. cbn [cc after put c_data]. rewrite load_store. apply Z.mod_small.
        exact (is_var_ext _ _ _ _ _ I Iv). }
      rewrite Ptr, (r_ext _ _ _ R), <- (W1 E0). exact P1.
  - (* CONST *)
    subst c2. set (td := ty_of_name t) in *. pose proof (words_range td) as Wr. pose proof (inv_next _ _ _ _ I) as In0.
    change (parse ["CONST"; t; txt]) with (Some [IConst td txt]). cbn [srun_instrs sstep then_]. rewrite H. cbn [then_ sim].
    set (val := v mod 2 ^ bits td).
    pose proof (lay_max _ _ _ _ Ly) as LM. pose proof (lay_N _ _ _ _ Ly) as LN.
    set (cc := after _ _ _ _ _) in *. cbn [cc after c_next] in HS.
    assert (Nl : c_next c =? max16 = false).
    { destruct (Z.eqb_spec (c_next c) max16); [|reflexivity]. unfold max16 in *. lia. }
    assert (Pu : exists m', push e m td val = Some m' /\ merr m' = false /\
                 R0 cc (SS ((td, val) :: stk s) (mem s) (wr s)) m').
    { destruct (push_ok e m td val (stk s) Sp (r_stk _ _ _ R) (mod_bits_range _ _)) as (m' & P1 & P2 & P3 & P4 & P5 & P6).
      - rewrite (r_sp _ _ _ R). cbn [cc after c_size] in S1. lia.
      - exists m'. split; [exact P1|]. split; [congruence|]. eapply R0_stack; try eassumption; try reflexivity.
        + cbn [map fst cc after c_ts]. rewrite (r_ts _ _ _ R). reflexivity.
        + rewrite P2. cbn [map fst cc after c_size]. rewrite sum_words_cons, <- Sp, (r_sp _ _ _ R). lia. }
    destruct Pu as (m' & P1 & P2 & P3).
    exists [k; c_next c]. 
    assert (Cc : c_code cc = c_next c :: k :: c_code c) by (unfold cc, after; cbn [c_code]; rewrite Nl; reflexivity). rewrite Cc.
    split; [reflexivity|]. split; [vm_compute; discriminate|].
    exists m'. split; [assumption|]. split; [assumption|]. split.
    + pose proof (goes_one L e k (c_next c) _ m m' H2) as G. apply G.
      * cbn [rbody operand exec_body]. rewrite var_get_ok by lia.
        assert (Lv : load (dmem m) (c_next c) td = val).
        { rewrite (load_ext _ (store (c_data c) (c_next c) td v)); [apply load_store|].
          intros b Hb. rewrite (r_const _ _ _ R) by lia. apply (proj1 K). cbn [cc after c_next]. lia. }
        rewrite Lv. exact P1.
      * rewrite (r_sp _ _ _ P3). assumption.
    + congruence.
  - (* operators *)
    assert (Pr : parse (name :: params) = Some [IOp name]).
    { cbn [parse]. destruct (String.eqb_spec name "READ"); [contradiction|]. destruct (String.eqb_spec name "WRITE"); [contradiction|].
      destruct (String.eqb_spec name "CONST"); [contradiction|]. destruct (String.eqb_spec name "CAST"); [contradiction|]. reflexivity. }
    rewrite Pr. cbn [srun_instrs sstep then_].
    destruct (stack_split c s m pops ts R H) as (pre & st & E & E1 & E2 & E3).
    pose proof (r_ts _ _ _ R) as Rt. rewrite Rt, H8, H6, H7.
    rewrite E, <- E3. rewrite firstn_app, Nat.sub_diag, firstn_O, app_nil_r, firstn_all.
    rewrite skipn_app, Nat.sub_diag, skipn_O, skipn_all. cbn [app].
    pose proof (r_stk _ _ _ R) as Sk. rewrite E in Sk, Sp.
    assert (Pa : pop_all e m pops = Some (map snd pre, M (sum_words ts) (smem m) (dmem m) (emem m) (merr m))).
    { rewrite <- E1, (pop_all_ok e pre m st Sp Sk Sb), E2. reflexivity. }
    exists [k]. split; [reflexivity|]. split; [vm_compute; discriminate|].
    assert (Op : operand (rbody r) = false) by (rewrite H6; reflexivity).
    destruct (f (map snd pre)) as [[v er]|] eqn:Fv.
    + set (cc := after _ _ _ _ _) in *.
      assert (Sk' : stack_at (smem m) st).
      { clear - Sk. induction pre as [|[a b] pre IH]; [exact Sk|]. apply IH. apply Sk. }
      assert (X : exists m', exec_body L e (rbody r) 0 m = Some m' /\ merr m' = er /\
                  R0 cc (SS ((out, v) :: st) (mem s) (wr s)) m').
      { rewrite H6. cbn [exec_body]. rewrite Me, andb_false_r, Pa, Fv.
        set (m1 := set_err _ _).
        assert (Sts : sum_words ts = c_size c - sum_words pops).
        { rewrite H, sum_words_app in IS. lia. }
        destruct (push_ok e m1 out v st) as (m' & P1 & P2 & P3 & P4 & P5 & P6).
        - cbn [m1 set_err sp]. congruence.
        - exact Sk'.
        - exact (H0 _ _ _ Fv).
        - cbn [m1 set_err sp]. cbn [cc after c_size] in S1. lia.
        - exists m'. split; [exact P1|]. split; [rewrite P6; cbn [m1 set_err merr]; rewrite Me; reflexivity|].
          eapply R0_stack; try eassumption; try reflexivity.
          + cbn [map fst cc after c_ts]. congruence.
          + rewrite P2. cbn [map fst cc after c_size]. rewrite sum_words_cons, E2. lia. }
      destruct X as (m' & X1 & X2 & X3).
      assert (G : goes L e [k] m m').
      { pose proof (goes_one L e k 0 r m m' H5) as G. unfold code_of in G. rewrite Op in G. apply G; [assumption|].
        rewrite (r_sp _ _ _ X3). assumption. }
      destruct er; cbn [done then_ sim]; exists m'; (split; [assumption|]; split; [assumption|exact G]).
    + cbn [then_ sim]. pose proof (fails_one L e k 0 r m H5) as G. unfold code_of in G. rewrite Op in G. apply G.
      rewrite H6. cbn [exec_body]. rewrite Me, andb_false_r, Pa, Fv. reflexivity.
Qed.
End Sim.
