(** The compiler: what a line emits, and the invariants of the compilation. *)
From Coq Require Import String.
From Verif Require Import Base IntArith_Model RuntimeEval_Model RuntimeEval_Spec RuntimeEval_Proofs RuntimeEval_Proofs2.
Open Scope string_scope.
Open Scope Z_scope.
Open Scope list_scope.

Section Emit.
Variable L : lib.

Definition after (c : cst) (ts : list ty) (size : Z) (k code2 : Z) : cst :=
  C (c_in c) (c_out c) ts (Z.max size (c_max c)) size (c_next c)
    (if code2 =? max16 then k :: c_code c else code2 :: k :: c_code c) (c_data c) (c_dsize c).

Lemma emit_inv c name ts mo code2 c1 : emit L c name ts mo code2 = Ok c1 ->
  exists k r ts' size', nth_error (table L) (Z.to_nat k) = Some r /\ good L r /\ rname r = name /\
    try_consume r name ts mo (c_size c) = Some (ts', size') /\
    (mo = false -> List.find (fun r => (rname r =s? name) && starts (ins_of r) ts) (table L) = Some r) /\
    c1 = after c ts' size' k code2.
Proof.
  unfold emit. destruct (find_pcode _ _ _ _ _ _) as [[k [ts' size']]|] eqn:F; [|discriminate]. intros [= <-].
  assert (Hmax : (if size' >? c_max c then size' else c_max c) = Z.max size' (c_max c)).
  { destruct (size' >? c_max c) eqn:E; lia. }
  rewrite Hmax. destruct mo.
  - destruct (find_pcode_spec _ _ _ _ _ _ _ _ F) as (j & r & -> & N & T).
    exists (0 + Z.of_nat j), r, ts', size'. rewrite Z.add_0_l, Nat2Z.id.
    repeat split; try assumption; try discriminate; [eapply table_nth; eassumption|].
    unfold try_consume in T. destruct (String.eqb_spec (rname r) name); [assumption|discriminate].
  - destruct (find_pcode_first _ _ _ _ _ _ _ F) as (j & r & -> & N & T & Fi).
    exists (0 + Z.of_nat j), r, ts', size'. rewrite Z.add_0_l, Nat2Z.id.
    repeat split; try assumption; [eapply table_nth; eassumption| |intros _; exact Fi].
    unfold try_consume in T. destruct (String.eqb_spec (rname r) name); [assumption|discriminate].
Qed.

Lemma try_consume_some r name ts mo dss ts' size' : try_consume r name ts mo dss = Some (ts', size') ->
  exists st1 st2, (if mo then ts = firstn 1 (skipn (rnin r) (rtypes r)) ++ st1 else ts = st1) /\
    st1 = ins_of r ++ st2 /\ ts' = rev (outs_of r) ++ st2 /\
    size' = u16 (u16 (dss - sum_words (ins_of r)) + sum_words (outs_of r)).
Proof.
  unfold try_consume. destruct (rname r =s? name); [|discriminate]. destruct mo.
  - destruct (peek_all (firstn 1 _) ts) as [st1|] eqn:E1; [|discriminate].
    destruct (peek_all (ins_of r) st1) as [st2|] eqn:E2; [|discriminate]. intros [= <- <-].
    exists st1, st2. repeat split; apply peek_all_some; assumption.
  - destruct (peek_all (ins_of r) ts) as [st2|] eqn:E2; [|discriminate]. intros [= <- <-].
    exists ts, st2. repeat split; apply peek_all_some; assumption.
Qed.

(** What each kind of command emits. *)
Definition sized (c : cst) (drop add : Z) : Z := u16 (u16 (c_size c - drop) + add).
Lemma words_sum1 t : sum_words [t] = words t.
Proof. rewrite sum_words_cons. change (sum_words []) with 0. lia. Qed.

Ltac inv_emit H :=
  apply emit_inv in H; destruct H as (k & r & ts' & size' & N & G & Nm & T & Fst & ->);
  apply try_consume_some in T; destruct T as (st1 & st2 & T1 & T2 & T3 & T4);
  destruct G; cbn [rname unary binary] in Nm; try congruence; try discriminate Nm;
  cbn [rnin rtypes rnout ins_of outs_of firstn skipn unary binary app rev] in T1, T2, T3, T4;
  try (unfold ins_of in T2; cbn [rnin rtypes firstn unary binary app] in T2);
  try (unfold outs_of in T3; cbn [rnin rtypes rnout firstn skipn unary binary app rev] in T3);
  try (unfold ins_of, outs_of in T4; cbn [rnin rtypes rnout firstn skipn unary binary] in T4);
  rewrite ?words_sum1 in T4.

Lemma emit_read c td ts code2 c1 : emit L c "READ" (td :: ts) true code2 = Ok c1 ->
  exists k, nth_error (table L) (Z.to_nat k) = Some (RF "READ" 0 1 [td] (BRead td)) /\
            c1 = after c (td :: ts) (sized c 0 (words td)) k code2.
Proof.
  intros H. inv_emit H. injection T1 as -> ->. exists k. subst st2 ts' size'. split; [exact N|].
  unfold sized. rewrite ?words_sum1. reflexivity.
Qed.
Lemma emit_rread c td ts code2 c1 : emit L c "RREAD" (td :: ts) true code2 = Ok c1 ->
  exists k, nth_error (table L) (Z.to_nat k) = Some (RF "RREAD" 0 1 [td] (BRRead td)) /\
            c1 = after c (td :: ts) (sized c 0 (words td)) k code2.
Proof.
  intros H. inv_emit H. injection T1 as -> ->. exists k. subst st2 ts' size'. split; [exact N|].
  unfold sized. rewrite ?words_sum1. reflexivity.
Qed.
Lemma emit_write c td ts code2 c1 : emit L c "WRITE" (td :: ts) true code2 = Ok c1 ->
  exists k s ts', ts = s :: ts' /\ numeric td = true /\
    nth_error (table L) (Z.to_nat k) =
      Some (RF "WRITE" 1 0 [s; td] (if ty_eqb s td then BWrite s else BWriteConv s td)) /\
    c1 = after c ts' (sized c (words s) 0) k code2.
Proof.
  intros H. inv_emit H; injection T1 as -> ->; exists k.
  - exists t, st2. subst ts' size' st1. rewrite ty_eqb_refl. repeat split; assumption.
  - exists s, st2. subst ts' size' st1. rewrite H0. repeat split; assumption.
Qed.
Lemma emit_rwrite c td ts code2 c1 : emit L c "RWRITE" (td :: ts) true code2 = Ok c1 ->
  exists k s ts', ts = s :: ts' /\
    nth_error (table L) (Z.to_nat k) =
      Some (RF "RWRITE" 1 0 [s; td] (if ty_eqb s td then BRWrite s else BRWriteConv s td)) /\
    c1 = after c ts' (sized c (words s) 0) k code2.
Proof.
  intros H. inv_emit H; injection T1 as -> ->; exists k.
  - exists t, st2. subst ts' size' st1. rewrite ty_eqb_refl. repeat split; assumption.
  - exists s, st2. subst ts' size' st1. rewrite H. repeat split; assumption.
Qed.
Lemma emit_cast c td ts code2 c1 : emit L c "CAST" (td :: ts) true code2 = Ok c1 ->
  exists k s ts', ts = s :: ts' /\
    nth_error (table L) (Z.to_nat k) = Some (unary "CAST" s td (f_cast L s td)) /\
    c1 = after c (td :: ts') (sized c (words s) (words td)) k code2.
Proof.
  intros H. inv_emit H; injection T1 as -> ->; exists k.
  exists s, st2. subst ts' size' st1. unfold sized. rewrite ?words_sum1. repeat split; assumption.
Qed.
Lemma emit_op c name ts code2 c1 : emit L c name ts false code2 = Ok c1 ->
  name <> "READ" -> name <> "WRITE" -> name <> "RREAD" -> name <> "RWRITE" -> name <> "CAST" ->
  exists k r g pops out f ts', ts = pops ++ ts' /\ ranged f out /\
    nth_error (table L) (Z.to_nat k) = Some r /\ rbody r = BFun g pops out f /\ rnin r = List.length pops /\
    List.find (fun r => (rname r =s? name) && starts (ins_of r) ts) (table L) = Some r /\
    c1 = after c (out :: ts') (sized c (sum_words pops) (words out)) k code2.
Proof.
  intros H Q1 Q2 Q3 Q4 Q5. inv_emit H.
  - exists k, (unary n t out f), false, [t], out, f, st2. subst ts' size' ts st1. unfold sized.
    repeat (split; [solve [auto | reflexivity]|]). rewrite ?words_sum1. reflexivity.
  - exists k, (binary n g t1 t2 out f), g, [t1; t2], out, f, st2. subst ts' size' ts st1. unfold sized.
    repeat (split; [solve [auto | reflexivity]|]). rewrite ?words_sum1. reflexivity.
Qed.
End Emit.

(** ** The invariant of the compilation *)
Definition cwords (l : list string) : Z :=
  match l with
  | cmd :: [t; _] => if cmd =s? "CONST" then words (ty_of_name t) else 0
  | _ => 0
  end.
Lemma cwords_range l : 0 <= cwords l <= 2.
Proof.
  unfold cwords. destruct l as [|cmd [|t [|v [|? ?]]]]; try lia. destruct (cmd =s? "CONST"); [|lia]. apply words_range.
Qed.

Section Inv.
Variable L : lib.
Variable cfg : config.
Variables S N : Z.

Record INV (c : cst) : Prop := {
  inv_size : c_size c = sum_words (c_ts c);
  inv_max : c_size c <= c_max c;
  inv_ds : c_dsize c = N;
  inv_lay : LAY (c_in c) (c_out c) S N;
  inv_cin : forall x v, plain_name x -> find_var x (c_in c) = Some v ->
            vext v = in_mem cfg x /\ vty v = in_type cfg x /\ 0 <= vext v < 2 ^ 64;
  inv_cout : forall x v, plain_name x -> find_var x (c_out c) = Some v ->
            vext v = out_mem cfg x /\ (vused v = false -> vty v = out_type cfg x) /\
            (vused v = true -> numeric (vty v) = true) /\ 0 <= vext v < 2 ^ 64;
  inv_next : 0 <= c_next c }.

(** The parts of a state that the commands other than WRITE leave alone. *)
Lemma INV_after c ts size k code2 : INV c -> size = sum_words ts -> INV (after c ts size k code2).
Proof. intros [] E. constructor; cbn [after c_size c_ts c_max c_dsize c_in c_out c_next]; try assumption. lia. Qed.

Definition put (c : cst) (d : Z -> Z) : cst :=
  C (c_in c) (c_out c) (c_ts c) (c_max c) (c_size c) (c_next c) (c_code c) d (c_dsize c).
Lemma INV_put c d : INV c -> INV (put c d).
Proof. intros []. constructor; assumption. Qed.
Lemma put_data_ok c a t v c1 : put_data c a t v = Ok c1 ->
  0 <= a /\ a + words t <= c_dsize c /\ c1 = put c (store (c_data c) a t v).
Proof.
  unfold put_data. destruct ((0 <=? a) && (a + words t <=? c_dsize c)) eqn:E; [|discriminate]. intros [= <-].
  apply andb_true_iff in E as [? ?]. repeat split; lia.
Qed.

(** The change a WRITE makes to its variable. *)
Definition wchange (td : ty) (v : var) : var :=
  with_used (if ty_eqb (vty v) TVoid && (vext v =? 0) then with_ty td v else v).
Lemma wchange_facts td v : vname (wchange td v) = vname v /\ vloc (wchange td v) = vloc v /\
  vext (wchange td v) = vext v /\ vused (wchange td v) = true /\ cell (wchange td v) <= cell v.
Proof.
  unfold wchange. destruct (ty_eqb (vty v) TVoid) eqn:T, (vext v =? 0) eqn:X; cbn [andb with_used with_ty vname vloc vext vused];
    repeat split; unfold cell, with_used, with_ty; cbn [vext vty]; rewrite ?X, ?T; try lia.
  apply Z.eqb_eq in X. pose proof (words_range td). destruct (ty_eqb td TVoid); lia.
Qed.

Lemma sized_id c drop add : c_size c = sum_words (c_ts c) -> 0 <= drop <= c_size c -> 0 <= add ->
  c_size c - drop + add <= 65534 -> c_size c <= 65534 -> sized c drop add = c_size c - drop + add.
Proof. intros E D A B1 B2. unfold sized. rewrite (u16_id (c_size c - drop)) by lia. apply u16_id; lia. Qed.

(** What a line does to the state of the compiler. *)
Inductive lstep (c : cst) : list string -> cst -> Prop :=
| LEmpty : lstep c [] c
| LCast t k s ts : c_ts c = s :: ts ->
    nth_error (table L) (Z.to_nat k) = Some (unary "CAST" s (ty_of_name t) (f_cast L s (ty_of_name t))) ->
    lstep c ["CAST"; t] (after c (ty_of_name t :: ts) (c_size c - words s + words (ty_of_name t)) k max16)
| LWrite x v td k s ts d : plain_name x -> find_var x (c_out c) = Some v ->
    c_ts c = s :: ts -> numeric td = true ->
    (ty_eqb (vty v) TVoid && (vext v =? 0) = true /\ td = s \/
     ty_eqb (vty v) TVoid && (vext v =? 0) = false /\ td = vty v) ->
    (vext v = 0 /\ d = c_data c /\
       nth_error (table L) (Z.to_nat k) =
         Some (RF "WRITE" 1 0 [s; td] (if ty_eqb s td then BWrite s else BWriteConv s td)) \/
     vext v <> 0 /\ d = store (c_data c) (vloc v) U64 (vext v) /\
       nth_error (table L) (Z.to_nat k) =
         Some (RF "RWRITE" 1 0 [s; td] (if ty_eqb s td then BRWrite s else BRWriteConv s td))) ->
    lstep c ["WRITE"; x] (after (set_out (put c d) x (wchange td)) ts (c_size c - words s) k (vloc v))
| LRead x v k d : plain_name x ->
    (find_var x (c_out c) = Some v /\ vused v = true \/
     (forall v', find_var x (c_out c) = Some v' -> vused v' = false) /\ find_var x (c_in c) = Some v) ->
    (vext v = 0 /\ d = c_data c /\
       nth_error (table L) (Z.to_nat k) = Some (RF "READ" 0 1 [vty v] (BRead (vty v))) \/
     vext v <> 0 /\ d = store (c_data c) (vloc v) U64 (vext v) /\
       nth_error (table L) (Z.to_nat k) = Some (RF "RREAD" 0 1 [vty v] (BRRead (vty v)))) ->
    lstep c ["READ"; x] (after (put c d) (vty v :: c_ts c) (c_size c + words (vty v)) k (vloc v))
| LConst t txt v k c2 : conv L (ty_of_name t) txt = Some v -> c_next c + words (ty_of_name t) <= N ->
    c2 = C (c_in c) (c_out c) (c_ts c) (c_max c) (c_size c) (c_next c + words (ty_of_name t)) (c_code c)
           (store (c_data c) (c_next c) (ty_of_name t) v) (c_dsize c) ->
    nth_error (table L) (Z.to_nat k) = Some (RF "READ" 0 1 [ty_of_name t] (BRead (ty_of_name t))) ->
    lstep c ["CONST"; t; txt] (after c2 (ty_of_name t :: c_ts c) (c_size c + words (ty_of_name t)) k (c_next c))
| LOp name params k r g pops out f ts : c_ts c = pops ++ ts -> ranged f out ->
    name <> "READ" -> name <> "WRITE" -> name <> "CAST" -> name <> "CONST" ->
    nth_error (table L) (Z.to_nat k) = Some r -> rbody r = BFun g pops out f -> rnin r = List.length pops ->
    List.find (fun r => (rname r =s? name) && starts (ins_of r) (c_ts c)) (table L) = Some r ->
    lstep c (name :: params) (after c (out :: ts) (c_size c - sum_words pops + words out) k max16).

Lemma compile_line_step c l c1 : INV c -> plain_line l -> c_size c <= 65532 ->
  compile_line L c l = Ok c1 -> lstep c l c1.
Proof.
  intros I P B1 H. destruct l as [|cmd params]; [cbn in H; injection H as <-; constructor|].
  pose proof (lay_max _ _ _ _ (inv_lay _ I)) as B2.
  destruct P as (P1 & P2 & P3).
  pose proof (inv_size _ I) as IS. pose proof (sum_words_nonneg (c_ts c)) as NN. rewrite <- IS in NN.
  cbn [compile_line] in H.
  destruct (String.eqb_spec cmd "CAST") as [->|N1].
  { destruct params as [|t [|? ?]]; try discriminate. destruct (numeric (ty_of_name t)); [|discriminate].
    apply emit_cast in H as (k & s & ts & E & Nt & ->).
    rewrite E, sum_words_cons in IS. pose proof (sum_words_nonneg ts). pose proof (words_range s).
    pose proof (words_range (ty_of_name t)). rewrite sized_id; try lia; [|rewrite E, sum_words_cons; lia].
    apply LCast; assumption. }
  destruct (String.eqb_spec cmd "WRITE") as [->|N2].
  { destruct params as [|x [|? ?]]; try discriminate.
    assert (Px : plain_name x) by (specialize (P3 (or_intror eq_refl)); inversion P3; assumption).
    apply bind_ok in H as (v & Hv & H). apply of_opt_ok in Hv.
    apply bind_ok in H as (c0 & Hc & H). apply bind_ok in H as (td & Ht & H). cbv zeta in H.
    assert (Hd : exists d, c0 = put c d /\ (vext v = 0 /\ d = c_data c \/ vext v <> 0 /\ d = store (c_data c) (vloc v) U64 (vext v))).
    { destruct (Z.eqb_spec (vext v) 0).
      - injection Hc as <-. exists (c_data c). split; [destruct c; reflexivity|auto].
      - apply put_data_ok in Hc as (_ & _ & ->). eexists; split; [reflexivity|auto]. }
    destruct Hd as (d & -> & Hd). fold (wchange td) in H.
    assert (Q : exists k s ts, c_ts c = s :: ts /\ numeric td = true /\
      (vext v = 0 /\ nth_error (table L) (Z.to_nat k) =
         Some (RF "WRITE" 1 0 [s; td] (if ty_eqb s td then BWrite s else BWriteConv s td)) \/
       vext v <> 0 /\ nth_error (table L) (Z.to_nat k) =
         Some (RF "RWRITE" 1 0 [s; td] (if ty_eqb s td then BRWrite s else BRWriteConv s td))) /\
       c1 = after (set_out (put c d) x (wchange td)) ts (sized (set_out (put c d) x (wchange td)) (words s) 0) k (vloc v)).
    { destruct (Z.eqb_spec (vext v) 0) as [E0|E0].
      - apply emit_write in H as (k & s & ts & E & Nu & Nt & ->). exists k, s, ts. repeat split; auto.
      - apply emit_rwrite in H as (k & s & ts & E & Nt & ->). exists k, s, ts. repeat split; auto.
        rewrite andb_false_r in Ht. destruct (numeric (vty v)) eqn:Q; [|discriminate]. congruence. }
    destruct Q as (k & s & ts & E & Nu & Nt & ->).
    assert (Hs : sized (set_out (put c d) x (wchange td)) (words s) 0 = c_size c - words s).
    { rewrite E, sum_words_cons in IS. pose proof (sum_words_nonneg ts). pose proof (words_range s).
      unfold sized; cbn [set_out put c_size]. rewrite (u16_id (c_size c - words s)) by lia. rewrite u16_id; lia. }
    rewrite Hs. eapply LWrite; try eassumption.
    - destruct (ty_eqb (vty v) TVoid && (vext v =? 0)).
      + left. split; [reflexivity|]. rewrite E in Ht. cbn in Ht. congruence.
      + right. split; [reflexivity|]. destruct (numeric (vty v)); [congruence|discriminate].
    - destruct Hd as [[D1 D2] | [D1 D2]], Nt as [[E1 E2] | [E1 E2]]; try contradiction; auto. }
  destruct (String.eqb_spec cmd "READ") as [->|N3].
  { destruct params as [|x [|? ?]]; try discriminate.
    assert (Px : plain_name x) by (specialize (P3 (or_introl eq_refl)); inversion P3; assumption).
    apply bind_ok in H as (v & Hv & H). apply of_opt_ok in Hv.
    apply bind_ok in H as (c0 & Hc & H).
    assert (Hd : exists d, c0 = put c d /\ (vext v = 0 /\ d = c_data c \/ vext v <> 0 /\ d = store (c_data c) (vloc v) U64 (vext v))).
    { destruct (Z.eqb_spec (vext v) 0).
      - injection Hc as <-. exists (c_data c). split; [destruct c; reflexivity|auto].
      - apply put_data_ok in Hc as (_ & _ & ->). eexists; split; [reflexivity|auto]. }
    destruct Hd as (d & -> & Hd). destruct (numeric (vty v)) eqn:Nu; [|discriminate].
    assert (Q : exists k,
      (vext v = 0 /\ nth_error (table L) (Z.to_nat k) = Some (RF "READ" 0 1 [vty v] (BRead (vty v))) \/
       vext v <> 0 /\ nth_error (table L) (Z.to_nat k) = Some (RF "RREAD" 0 1 [vty v] (BRRead (vty v)))) /\
       c1 = after (put c d) (vty v :: c_ts c) (sized (put c d) 0 (words (vty v))) k (vloc v)).
    { destruct (Z.eqb_spec (vext v) 0) as [E0|E0].
      - apply emit_read in H as (k & Nt & ->). exists k. split; [auto|reflexivity].
      - apply emit_rread in H as (k & Nt & ->). exists k. split; [auto|reflexivity]. }
    destruct Q as (k & Nt & ->).
    assert (Hs : sized (put c d) 0 (words (vty v)) = c_size c + words (vty v)).
    { pose proof (words_range (vty v)). unfold sized; cbn [put c_size]. rewrite (u16_id (c_size c - 0)) by lia. rewrite u16_id; lia. }
    rewrite Hs. eapply LRead; try eassumption.
    - destruct (find_var x (c_out c)) as [v'|] eqn:Fo.
      + destruct (vused v') eqn:U; [left; split; congruence|]. right. split; [|assumption]. intros ? [= <-]. exact U.
      + right. split; [congruence|assumption].
    - destruct Hd as [[D1 D2] | [D1 D2]], Nt as [[E1 E2] | [E1 E2]]; try contradiction; auto. }
  destruct (String.eqb_spec cmd "CONST") as [->|N4].
  { destruct params as [|t [|txt [|? ?]]]; try discriminate. destruct (numeric (ty_of_name t)); [|discriminate].
    apply bind_ok in H as (v & Hv & H). apply of_opt_ok in Hv.
    apply bind_ok in H as (c0 & Hc & H). apply put_data_ok in Hc as (D1 & D2 & ->). cbv zeta in H.
    apply emit_read in H as (k & Nt & ->). pose proof (words_range (ty_of_name t)).
    rewrite (inv_ds _ I) in D2. pose proof (inv_next _ I). unfold put; cbn [c_in c_out c_ts c_max c_size c_next c_code c_data c_dsize].
    unfold sized; cbn [c_size]. rewrite (u16_id (c_size c - 0)) by lia. rewrite !u16_id by lia. rewrite Z.sub_0_r.
    eapply LConst; try eassumption. reflexivity. }
  apply emit_op in H as (k & r & g & pops & out & f & ts & E & Rg & Nt & Bd & Ni & Fi & ->); try assumption.
  rewrite E, sum_words_app in IS. pose proof (sum_words_nonneg ts). pose proof (sum_words_nonneg pops).
  pose proof (words_range out).
  rewrite sized_id; try lia; [|rewrite E, sum_words_app; lia].
  eapply LOp; eassumption.
Qed.

Lemma lstep_INV c l c1 : INV c -> lstep c l c1 -> INV c1.
Proof.
  intros I H. pose proof (inv_size _ I) as IS.
  destruct H; try assumption.
  - apply INV_after; [assumption|]. rewrite H, sum_words_cons in IS. rewrite sum_words_cons. lia.
  - apply INV_after; [|rewrite H1, sum_words_cons in IS; lia].
    destruct (inv_cout _ I _ _ H H0) as (Q1 & Q2 & Q3 & Q4).
    destruct (INV_put c d I) as [A1 A2 A3 A4 A5 A6 A7].
    constructor; cbn [set_out c_size c_ts c_max c_dsize c_in c_out c_next] in *; try assumption.
    + apply LAY_update; [assumption|intros; apply wchange_facts|].
      intros w Hw. destruct (wchange_facts td w) as (_ & ? & _ & _ & ?). auto.
    + intros y w Py. rewrite find_update by (intros; apply wchange_facts).
      cbn [put c_out] in *. destruct (String.eqb_spec x y) as [->|Ne]; [|intros Hw; apply A6; assumption].
      rewrite H0. cbn [option_map]. intros [= <-]. destruct (wchange_facts td v) as (_ & _ & Wx & Wu & _).
      rewrite Wx, Wu. repeat split; try assumption; try discriminate; try lia.
      intros _. unfold wchange. destruct H3 as [[E ->] | [E ->]]; rewrite E; cbn [with_used with_ty vty]; assumption.
  - apply INV_after; [|rewrite sum_words_cons; lia]. apply INV_put; assumption.
  - pose proof (words_range (ty_of_name t)). subst c2. apply INV_after; [|rewrite sum_words_cons; lia].
    destruct I as [A1 A2 A3 A4 A5 A6 A7]. constructor; cbn [c_size c_ts c_max c_dsize c_in c_out c_next]; try assumption; lia.
  - apply INV_after; [assumption|]. rewrite H, sum_words_app in IS. rewrite sum_words_cons. lia.
Qed.

Lemma lstep_bounds c l c1 : INV c -> lstep c l c1 ->
  c_size c1 <= c_size c + 2 /\ c_max c <= c_max c1 /\ c_next c1 = c_next c + cwords l.
Proof.
  intros I H. destruct H; cbn [after set_out put c_size c_max c_next].
  - change (cwords []) with 0. lia.
  - pose proof (words_range s). pose proof (words_range (ty_of_name t)). cbn. lia.
  - pose proof (words_range s). cbn. lia.
  - pose proof (words_range (vty v)). cbn. lia.
  - pose proof (words_range (ty_of_name t)). subst c2. cbn. lia.
  - pose proof (words_range out). pose proof (sum_words_nonneg pops).
    assert (cwords (name :: params) = 0) as ->.
    { unfold cwords. destruct params as [|? [|? [|? ?]]]; try reflexivity.
      destruct (String.eqb_spec name "CONST"); [contradiction|reflexivity]. }
    lia.
Qed.

(** The constants already stored and the pointers to external variables stay. *)
Definition pointed (c : cst) (d : Z -> Z) (v : var) : Prop := load d (vloc v) U64 = vext v.
Definition is_var (c : cst) (v : var) : Prop :=
  exists x, plain_name x /\ (find_var x (c_in c) = Some v \/ find_var x (c_out c) = Some v).
Lemma is_var_disj c v w : INV c -> is_var c v -> is_var c w -> vext v <> 0 -> vext w <> 0 ->
  (vloc v = vloc w /\ vext v = vext w) \/ vloc v + 2 <= vloc w \/ vloc w + 2 <= vloc v.
Proof.
  intros I (x & Px & Hx) (y & Py & Hy) Ev Ew. pose proof (inv_lay _ I) as Ly.
  assert (D : vloc v + cell v <= vloc w \/ vloc w + cell w <= vloc v \/ v = w).
  { destruct Hx as [Hx|Hx], Hy as [Hy|Hy].
    - destruct (string_dec x y) as [->|Ne]; [right; right; congruence|].
      destruct (lay_ii _ _ _ _ Ly x y v w); auto.
    - destruct (lay_io _ _ _ _ Ly x y v w); auto.
    - destruct (lay_io _ _ _ _ Ly y x w v); auto.
    - destruct (string_dec x y) as [->|Ne]; [right; right; congruence|].
      destruct (lay_oo _ _ _ _ Ly x y v w); auto. }
  pose proof (cell_ext v Ev). pose proof (cell_ext w Ew). destruct D as [D|[D|D]]; [lia|lia|]. subst w. auto.
Qed.
Lemma is_var_place c v : INV c -> is_var c v -> S <= vloc v /\ vloc v + cell v <= N.
Proof.
  intros I (x & Px & [Hx|Hx]); pose proof (inv_lay _ I) as Ly.
  - eapply lay_in; eassumption.
  - eapply lay_out; eassumption.
Qed.
Lemma is_var_ext c v : INV c -> is_var c v -> 0 <= vext v < 2 ^ 64.
Proof.
  intros I (x & Px & [Hx|Hx]).
  - apply (inv_cin _ I _ _ Px Hx).
  - apply (inv_cout _ I _ _ Px Hx).
Qed.
Lemma pointed_put c v w : INV c -> is_var c v -> is_var c w -> vext v <> 0 -> vext w <> 0 ->
  pointed c (c_data c) w -> pointed c (store (c_data c) (vloc v) U64 (vext v)) w.
Proof.
  intros I Iv Iw Ev Ew P. unfold pointed.
  destruct (is_var_disj c v w I Iv Iw Ev Ew) as [[El Ee] | D].
  - rewrite <- El, <- Ee, load_store. apply Z.mod_small. exact (is_var_ext _ _ I Iv).
  - rewrite load_store_other; [exact P|]. change (words U64) with 2. lia.
Qed.

(** A variable of the new state is a variable of the old one, at the same place. *)
Lemma lstep_var c l c1 w : lstep c l c1 -> is_var c1 w -> exists w0, is_var c w0 /\ vloc w = vloc w0 /\ vext w = vext w0.
Proof.
  intros H (x & Px & Hx). destruct H; cbn [after set_out put c_in c_out] in Hx;
    try (exists w; split; [exists x; split; assumption | auto]; fail).
  - destruct Hx as [Hx|Hx].
    + exists w. split; [exists x; auto|auto].
    + rewrite find_update in Hx by (intros; apply wchange_facts). destruct (x0 =s? x).
      * destruct (find_var x (c_out c)) as [w0|] eqn:E; [|discriminate]. cbn in Hx. injection Hx as <-.
        exists w0. split; [exists x; auto|]. split; apply wchange_facts.
      * exists w. split; [exists x; auto|auto].
  - subst c2. exists w. split; [exists x; split; assumption|auto].
Qed.
Lemma lstep_var_fwd c l c1 v : lstep c l c1 -> is_var c v -> exists w, is_var c1 w /\ vloc w = vloc v /\ vext w = vext v.
Proof.
  intros H (x & Px & Hx). destruct H;
    try (exists v; split; [exists x; split; assumption | auto]; fail).
  - destruct Hx as [Hx|Hx].
    + exists v. split; [exists x; auto|auto].
    + destruct (string_dec x0 x) as [->|Ne].
      * exists (wchange td v). split; [|split; apply wchange_facts]. exists x. split; [assumption|]. right.
        cbn [after set_out put c_out]. rewrite find_update by (intros; apply wchange_facts).
        rewrite String.eqb_refl, Hx. reflexivity.
      * exists v. split; [|auto]. exists x. split; [assumption|]. right.
        cbn [after set_out put c_out]. rewrite find_update by (intros; apply wchange_facts).
        destruct (String.eqb_spec x0 x); [contradiction|assumption].
  - subst c2. exists v. split; [exists x; split; assumption | auto].
Qed.
(** Variables keep their place; only their type may become known. *)
Definition grows (c c1 : cst) : Prop :=
  c_in c1 = c_in c /\
  (forall x v, find_var x (c_out c) = Some v ->
     exists w, find_var x (c_out c1) = Some w /\ vloc w = vloc v /\ vext w = vext v) /\
  (forall a, in_variable (c_out c) a -> in_variable (c_out c1) a).
Lemma grows_refl c : grows c c.
Proof. repeat split; eauto. Qed.
Lemma grows_trans c1 c2 c3 : grows c1 c2 -> grows c2 c3 -> grows c1 c3.
Proof.
  intros (A1 & A2 & A3) (B1 & B2 & B3). split; [congruence|]. split; [|auto].
  intros x v H. destruct (A2 _ _ H) as (w & Hw & ? & ?). destruct (B2 _ _ Hw) as (u & ? & ? & ?).
  exists u. repeat split; congruence.
Qed.
Lemma lstep_grows c l c1 : lstep c l c1 -> grows c c1.
Proof.
  intros H.
  assert (G : forall c', c_in c' = c_in c -> c_out c' = c_out c -> grows c c').
  { intros c' E1 E2. unfold grows. rewrite E1, E2. apply grows_refl. }
  destruct H; try (apply G; reflexivity).
  - split; [reflexivity|]. cbn [after set_out put c_out]. split.
    + intros y w Hy. rewrite find_update by (intros; apply wchange_facts). rewrite Hy.
      destruct (String.eqb_spec x y) as [->|Ne].
      * exists (wchange td w). split; [reflexivity|]. split; apply wchange_facts.
      * exists w. auto.
    + intros a (y & w & Hy & Py & Ew & B). destruct (string_dec x y) as [->|Ne].
      * exists y, (wchange td w). rewrite find_update by (intros; apply wchange_facts). rewrite String.eqb_refl, Hy.
        destruct (wchange_facts td w) as (_ & Wl & We & _ & _). split; [reflexivity|]. split; [assumption|].
        split; [congruence|]. rewrite Wl. unfold wchange. destruct (ty_eqb (vty w) TVoid) eqn:T; [|exact B].
        apply ty_eqb_eq in T. rewrite T in B. change (words TVoid) with 0 in B. lia.
      * exists y, w. rewrite find_update by (intros; apply wchange_facts).
        destruct (String.eqb_spec x y); [contradiction|]. auto.
  - subst c2. apply G; reflexivity.
Qed.
(** Compiling never writes outside the data memory. *)
Lemma emit_defined c name ts mo code2 : emit L c name ts mo code2 <> Undef.
Proof. unfold emit. destruct (find_pcode _ _ _ _ _ _) as [[? [? ?]]|]; discriminate. Qed.
Lemma put_defined c a t v : 0 <= a -> a + words t <= c_dsize c -> put_data c a t v <> Undef.
Proof.
  intros A B. unfold put_data. destruct (0 <=? a) eqn:E1; [|lia]. destruct (a + words t <=? c_dsize c) eqn:E2; [|lia].
  discriminate.
Qed.
Lemma bind_defined {A B} (x : res A) (f : A -> res B) : x <> Undef -> (forall a, x = Ok a -> f a <> Undef) -> bind x f <> Undef.
Proof. destruct x; cbn; intros H G; [apply G; reflexivity | discriminate | contradiction]. Qed.
Lemma of_opt_defined {A} (x : option A) : of_opt x <> Undef.
Proof. destruct x; discriminate. Qed.
Lemma compile_line_defined c l : INV c -> plain_line l -> c_next c + cwords l <= S -> compile_line L c l <> Undef.
Proof.
  intros I P HS. destruct l as [|cmd params]; [discriminate|]. destruct P as (P1 & P2 & P3).
  pose proof (inv_lay _ I) as Ly. pose proof (lay_S _ _ _ _ Ly). pose proof (lay_N _ _ _ _ Ly).
  assert (Pv : forall v, is_var c v -> (if vext v =? 0 then Ok c else put_data c (vloc v) U64 (vext v)) <> Undef).
  { intros v Iv. destruct (Z.eqb_spec (vext v) 0) as [E|E]; [discriminate|]. pose proof (is_var_place _ _ I Iv).
    pose proof (cell_ext _ E). apply put_defined; [lia|]. rewrite (inv_ds _ I). change (words U64) with 2. lia. }
  unfold compile_line. destruct (String.eqb_spec cmd "CAST") as [->|N1].
  { destruct params as [|t [|? ?]]; try discriminate. cbv zeta. destruct (numeric _); [apply emit_defined|discriminate]. }
  destruct (String.eqb_spec cmd "WRITE") as [->|N2].
  { destruct params as [|x [|? ?]]; try discriminate.
    assert (Px : plain_name x) by (specialize (P3 (or_intror eq_refl)); inversion P3; assumption).
    apply bind_defined; [apply of_opt_defined|]. intros v Hv. apply of_opt_ok in Hv.
    apply bind_defined; [apply Pv; exists x; auto|]. intros c0 _. apply bind_defined.
    - destruct (ty_eqb (vty v) TVoid && (vext v =? 0)); [apply of_opt_defined|]. destruct (numeric _); discriminate.
    - intros td _. apply emit_defined. }
  destruct (String.eqb_spec cmd "READ") as [->|N3].
  { destruct params as [|x [|? ?]]; try discriminate.
    assert (Px : plain_name x) by (specialize (P3 (or_introl eq_refl)); inversion P3; assumption).
    apply bind_defined; [apply of_opt_defined|]. intros v Hv. apply of_opt_ok in Hv.
    apply bind_defined.
    - apply Pv. exists x. split; [assumption|]. destruct (find_var x (c_out c)) as [w|]; [destruct (vused w)|]; auto.
    - intros c0 _. destruct (numeric _); [apply emit_defined|discriminate]. }
  destruct (String.eqb_spec cmd "CONST") as [->|N4]; [|apply emit_defined].
  destruct params as [|t [|txt [|? ?]]]; try discriminate. cbv zeta. destruct (numeric _); [|discriminate].
  apply bind_defined; [apply of_opt_defined|]. intros v Hv. apply bind_defined; [|intros; apply emit_defined].
  apply put_defined; [apply (inv_next _ I)|]. rewrite (inv_ds _ I). cbn [cwords] in HS.
  change ("CONST" =s? "CONST") with true in HS. cbv iota in HS. lia.
Qed.

Lemma lstep_frame c l c1 : INV c -> lstep c l c1 -> c_next c1 <= S ->
  (forall a, 0 <= a < c_next c -> c_data c1 a = c_data c a) /\
  (forall w, is_var c1 w -> vext w <> 0 -> pointed c (c_data c) w -> pointed c1 (c_data c1) w).
Proof.
  intros I H HS.
  assert (G : forall v w : var, is_var c v -> is_var c1 w -> vext v <> 0 -> vext w <> 0 ->
     pointed c (c_data c) w -> pointed c (store (c_data c) (vloc v) U64 (vext v)) w).
  { intros v w Hv Hw Ev Ew P. destruct (lstep_var _ _ _ _ H Hw) as (w0 & I0 & El & Ee).
    unfold pointed in *. rewrite El, Ee in *. apply (pointed_put c v w0); assumption. }
  pose proof (fun w => lstep_var _ _ _ w H) as LV.
  destruct H; cbn [after set_out put c_data c_next] in *; try (split; [reflexivity | intros w _ _ P; exact P]; fail).
  - assert (Iv : is_var c v) by (exists x; auto).
    destruct H4 as [(E & -> & _) | (E & -> & _)]; [split; [reflexivity|intros w _ _ P; exact P]|].
    split; [|intros w Hw Ew Pw; apply (G v w); assumption].
    intros a Ha. apply store_frame. pose proof (is_var_place _ _ I Iv). lia.
  - assert (Iv : is_var c v) by (exists x; intuition).
    destruct H1 as [(E & -> & _) | (E & -> & _)]; [split; [reflexivity|intros w _ _ P; exact P]|].
    split; [|intros w Hw Ew Pw; apply (G v w); assumption].
    intros a Ha. apply store_frame. pose proof (is_var_place _ _ I Iv). lia.
  - subst c2. cbn [c_data c_next] in *. split.
    + intros a Ha. apply store_frame. lia.
    + intros w Hw Ew P. unfold pointed in *. rewrite load_store_other; [exact P|].
      destruct (LV _ Hw) as (w0 & I0 & El & Ee). pose proof (is_var_place _ _ I I0). lia.
Qed.
End Inv.
