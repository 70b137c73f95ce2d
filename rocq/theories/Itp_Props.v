(** C56: the broker that interpolates the signals of a data source. *)
From Coq Require Import QArith Qround Lqa.
From Verif Require Import Base Itp_Model Itp_Spec Itp_Proofs.
Local Open Scope Z_scope.

(** After Reset the first call of Execute gives the GAM the values of the current sample. *)
Theorem C56_first : forall fuel s b b0 kinds sizes z,
  usable s kinds sizes (b_at b) z -> uniform s kinds sizes (b_at b) z -> moderate s kinds sizes (b_at b) z ->
  matches b kinds -> (b_at b <= z)%nat -> reset s b = Some b0 ->
  exists b', execute fuel s b0 = Some (true, b') /\ map c_gam (b_copies b') = s_values s (b_at b).
Proof.
  intros fuel s b b0 kinds sizes z U Un Mo Ma Az Er.
  destruct (first_ok s kinds sizes (b_at b) z U fuel b b0 Ma eq_refl Az Er) as (b' & E & _ & G). eauto.
Qed.
Print Assumptions C56_first.

(** Call [k] after that (k = 1, 2, ...) stands for time t + k * period: it succeeds, reads as few samples as
    needed and gives the GAM the value of the line from sample [n] to sample [n'], where [n'] is the first sample
    that is not older than that time and [n] is the sample that was needed by an earlier call, the last one that
    needed another sample than [n']. Not proved for signals whose elements change differently, nor for unsigned
    signals of 32 or 64 bits that decrease: the code is wrong there (see below). Rounding is not modelled. *)
Theorem C56_line_partial : forall fuel s b b0 kinds sizes z k,
  usable s kinds sizes (b_at b) z -> uniform s kinds sizes (b_at b) z -> moderate s kinds sizes (b_at b) z ->
  matches b kinds -> (b_at b <= z)%nat -> reset s b = Some b0 -> (z - b_at b < fuel)%nat -> (0 < k)%nat ->
  let time k := s_time s (b_at b) + Z.of_nat k * s_period s in
  time k <= s_time s z ->
  exists b' n n' k', executes fuel s (S k) b0 = Some b' /\ b_at b' = n' /\ (b_at b <= n < n')%nat /\ (n' <= z)%nat /\
    needed s (b_at b) (time k) n' /\ s_time s n < time k /\
    (k' < k)%nat /\ needed s (b_at b) (time k') n /\ needed s (b_at b) (time (S k')) n' /\
    forall i e, (i < length kinds)%nat -> (e < nth i sizes 0)%nat ->
      stands_for (nth i kinds KFlt)
        (line (s_time s n) (nth e (signal s n i) 0%Q) (s_time s n') (nth e (signal s n' i) 0%Q) (time k)) (gam b' i e).
Proof.
  intros fuel s b b0 kinds sizes z k U Un Mo Ma Az Er Hf Hk time Hz.
  destruct (history_ok s kinds sizes (b_at b) z U Un Mo fuel b b0 k Ma eq_refl Az Er Hf Hz) as (b' & E & A & _).
  destruct A as (_ & _ & Nd & Lz & _ & Sg). destruct (Sg Hk) as (n & k' & H1 & H2 & _ & H4 & H5 & H6 & H7 & _ & H8).
  exists b', n, (b_at b'), k'. split; [exact E|]. split; [reflexivity|]. split; [lia|]. split; [exact Lz|].
  split; [exact Nd|]. split; [exact H4|]. split; [exact H5|]. split; [exact H6|]. split; [exact H7|].
  intros i e Hi He. apply H8; auto.
Qed.
Print Assumptions C56_line_partial.

(** When the samples are not closer than the period the line joins neighbours. *)
Theorem C56_neighbours_partial : forall fuel s b b0 kinds sizes z k,
  usable s kinds sizes (b_at b) z -> uniform s kinds sizes (b_at b) z -> moderate s kinds sizes (b_at b) z ->
  matches b kinds -> (b_at b <= z)%nat -> reset s b = Some b0 -> (z - b_at b < fuel)%nat -> (0 < k)%nat ->
  (forall n, (b_at b <= n < z)%nat -> s_period s <= s_time s (S n) - s_time s n) ->
  let time := s_time s (b_at b) + Z.of_nat k * s_period s in
  time <= s_time s z ->
  exists b' n, executes fuel s (S k) b0 = Some b' /\ b_at b' = S n /\ (b_at b <= n < z)%nat /\
    s_time s n < time <= s_time s (S n) /\
    forall i e, (i < length kinds)%nat -> (e < nth i sizes 0)%nat ->
      stands_for (nth i kinds KFlt)
        (line (s_time s n) (nth e (signal s n i) 0%Q) (s_time s (S n)) (nth e (signal s (S n) i) 0%Q) time) (gam b' i e).
Proof.
  intros fuel s b b0 kinds sizes z k U Un Mo Ma Az Er Hf Hk Gap time Hz.
  destruct (C56_line_partial fuel s b b0 kinds sizes z k U Un Mo Ma Az Er Hf Hk Hz)
    as (b' & n & n' & k' & E & At & Hn & Hn' & Nd & Lt & Lk & Nk & Nk' & R).
  assert (n' = S n) as ->.
  { destruct (Nat.eq_dec n' (S n)) as [Q|Q]; [exact Q|exfalso].
    destruct Nk as (_ & N1 & _). destruct Nk' as (_ & _ & N2). specialize (N2 (S n) ltac:(lia) ltac:(lia)).
    specialize (Gap n ltac:(lia)). lia. }
  exists b', n. split; [exact E|]. split; [exact At|]. split; [lia|]. split; [destruct Nd as (_ & Nd & _); lia|exact R].
Qed.
Print Assumptions C56_neighbours_partial.

(** The value never leaves the interval of the two samples. *)
Theorem C56_between : forall k t0 v0 t1 v1 x g,
  typed k v0 -> typed k v1 -> t0 < x <= t1 -> stands_for k (line t0 v0 t1 v1 x) g ->
  (v0 <= g <= v1 \/ v1 <= g <= v0)%Q.
Proof.
  intros k t0 v0 t1 v1 x g T0 T1 Hx St.
  destruct (line_between t0 v0 t1 v1 x Hx) as [L1 L2].
  assert (W : forall z0 z1 q z, (inject_Z z0 <= q <= inject_Z z1)%Q -> whole q z -> (inject_Z z0 <= inject_Z z <= inject_Z z1)%Q).
  { intros z0 z1 q z [A1 A2] [(B1 & B2 & B3)|(B1 & B2 & B3)].
    - assert (inject_Z z0 < inject_Z (z + 1))%Q by lra. rewrite <- Zlt_Qlt in H.
      assert (inject_Z z <= inject_Z z1)%Q by lra. split; [rewrite <- Zle_Qle; lia|exact H0].
    - assert (inject_Z (z - 1) < inject_Z z1)%Q by lra. rewrite <- Zlt_Qlt in H.
      assert (inject_Z z0 <= inject_Z z)%Q by lra. split; [exact H0|rewrite <- Zle_Qle; lia]. }
  destruct k as [bits sgn|]; cbn [typed stands_for] in *.
  - destruct T0 as (z0 & -> & _), T1 as (z1 & -> & _), St as (z & Wz & ->).
    destruct (Qlt_le_dec (inject_Z z1) (inject_Z z0)) as [C|C].
    + right. apply (W _ _ _ _ (L2 ltac:(lra)) Wz).
    + left. apply (W _ _ _ _ (L1 C) Wz).
  - destruct (Qlt_le_dec v1 v0) as [C|C]; [right; rewrite St; apply L2; lra|left; rewrite St; apply L1; exact C].
Qed.
Print Assumptions C56_between.

(** When Synchronise fails, or the time of the data source stands still, Execute fails and the memory of the GAM is
    not touched. *)
Theorem C56_stop : forall fuel s b,
  b_reset b = false -> (0 < fuel)%nat -> s_time s (b_at b) < uwrap 64 (b_x b + s_period s) ->
  s_sync s (b_at b) = false \/ s_time s (S (b_at b)) = s_time s (b_at b) ->
  exists b', execute fuel s b = Some (false, b') /\ b_copies b' = b_copies b.
Proof.
  intros fuel s b Er Hf Hx H. unfold execute. rewrite Er. destruct fuel as [|fuel]; [lia|]. cbn [advance].
  replace (uwrap 64 (b_x b + s_period s) <=? s_time s (b_at b)) with false by lia.
  destruct (s_sync s (b_at b)); [|eexists; split; reflexivity].
  destruct H as [H|H]; [discriminate|]. rewrite H, Z.eqb_refl. eexists. split; reflexivity.
Qed.
Print Assumptions C56_stop.

(** ** Cases *)

(** A source of one signal with samples every 10 units: int16 values 100, 60, ... *)
Definition case_value (n : nat) : Q := match n with O => inject_Z 100 | _ => inject_Z 60 end.
Definition case_s : source := Source (fun n => 10 * Z.of_nat n) (fun n => [[case_value n]]) (fun _ => true) 3.
Definition case_b : broker := Broker 0 0 0 false [Copy (KInt 16 true) [0%Q] [0%Q] 0%Q [7%Q]] 0.

Example C56_case :
  usable case_s [KInt 16 true] [1%nat] (b_at case_b) 5 /\ uniform case_s [KInt 16 true] [1%nat] (b_at case_b) 5 /\
  moderate case_s [KInt 16 true] [1%nat] (b_at case_b) 5 /\ matches case_b [KInt 16 true] /\
  exists b0, reset case_s case_b = Some b0 /\
    option_map (fun b => map c_gam (b_copies b)) (executes 10 case_s 3 b0) = Some [[inject_Z 76]].
Proof.
  split; [|split; [|split; [|split; [reflexivity|]]]].
  - constructor; cbn [case_s s_time s_values s_sync s_period length]; try reflexivity; try (intros; lia).
    + intros n [|i] H Hi; [reflexivity|lia].
    + intros n [|i] H Hi; [|lia]. cbn. constructor; [|constructor]. cbn.
      destruct n; [exists 100|exists 60]; (split; [reflexivity|unfold in_ty; cbn; lia]).
  - intros [|i] n n' [|e] [|e'] Hi Hn Hn' He He'; cbn in *; try lia; reflexivity.
  - intros [|i] n n' [|e] Hi H1 H2 H3 He; cbn in *; lia || exact I.
  - eexists. split; [vm_compute; reflexivity|vm_compute; reflexivity].
Qed.

(** ** What does not hold *)

(** A signal of several elements has one slope, that of its last element. *)
Definition two_s : source :=
  Source (fun n => 10 * Z.of_nat n) (fun n => [[inject_Z (100 * Z.of_nat n); inject_Z 0]]) (fun _ => true) 5.
Definition two_b : broker := Broker 0 0 0 false [Copy KFlt [0%Q; 0%Q] [0%Q; 0%Q] 0%Q [7%Q; 7%Q]] 0.

Theorem C56_elements_refuted : ~ (forall fuel s b b0 kinds sizes z k,
  usable s kinds sizes (b_at b) z -> moderate s kinds sizes (b_at b) z ->
  matches b kinds -> (b_at b <= z)%nat -> reset s b = Some b0 -> (z - b_at b < fuel)%nat -> (0 < k)%nat ->
  (forall n, (b_at b <= n < z)%nat -> s_period s <= s_time s (S n) - s_time s n) ->
  let time := s_time s (b_at b) + Z.of_nat k * s_period s in
  time <= s_time s z ->
  exists b' n, executes fuel s (S k) b0 = Some b' /\ s_time s n < time <= s_time s (S n) /\
    forall i e, (i < length kinds)%nat -> (e < nth i sizes 0)%nat ->
      stands_for (nth i kinds KFlt)
        (line (s_time s n) (nth e (signal s n i) 0%Q) (s_time s (S n)) (nth e (signal s (S n) i) 0%Q) time) (gam b' i e)).
Proof.
  intros H.
  assert (U : usable two_s [KFlt] [2%nat] (b_at two_b) 3).
  { constructor; cbn [two_s s_time s_values s_sync s_period length]; try reflexivity; try (intros; lia).
    - intros n [|i] Hn Hi; [reflexivity|lia].
    - intros n [|i] Hn Hi; [|lia]. repeat constructor. }
  assert (M : moderate two_s [KFlt] [2%nat] (b_at two_b) 3).
  { intros [|i] n n' e Hi H1 H2 H3 He; [exact I|cbn in Hi; lia]. }
  destruct (reset two_s two_b) as [b0|] eqn:Er; [|vm_compute in Er; discriminate Er].
  destruct (H 5%nat two_s two_b b0 [KFlt] [2%nat] 3%nat 1%nat U M) as (b' & n & E & T & R); try reflexivity; try (cbn; lia).
  { exact Er. }
  { cbn [two_s s_time s_period]. intros n Hn. lia. }
  assert (n = 0)%nat as -> by (cbn [two_s s_time s_period two_b b_at] in T; lia).
  specialize (R 0%nat 0%nat ltac:(cbn; lia) ltac:(cbn; lia)).
  vm_compute in Er. injection Er as <-. vm_compute in E. injection E as <-. vm_compute in R. discriminate R.
Qed.
Print Assumptions C56_elements_refuted.

(** A uint32 that decreases: the difference wraps around and the value is far from both samples. *)
Definition down_s : source :=
  Source (fun n => 10 * Z.of_nat n) (fun n => [[inject_Z (100 - Z.of_nat n)]]) (fun _ => true) 5.
Definition down_b : broker := Broker 0 0 0 false [Copy (KInt 32 false) [0%Q] [0%Q] 0%Q [7%Q]] 0.

Theorem C56_decrease_refuted : ~ (forall fuel s b b0 kinds sizes z k,
  usable s kinds sizes (b_at b) z -> uniform s kinds sizes (b_at b) z ->
  matches b kinds -> (b_at b <= z)%nat -> reset s b = Some b0 -> (z - b_at b < fuel)%nat -> (0 < k)%nat ->
  (forall n, (b_at b <= n < z)%nat -> s_period s <= s_time s (S n) - s_time s n) ->
  let time := s_time s (b_at b) + Z.of_nat k * s_period s in
  time <= s_time s z ->
  exists b' n, executes fuel s (S k) b0 = Some b' /\ s_time s n < time <= s_time s (S n) /\
    forall i e, (i < length kinds)%nat -> (e < nth i sizes 0)%nat ->
      stands_for (nth i kinds KFlt)
        (line (s_time s n) (nth e (signal s n i) 0%Q) (s_time s (S n)) (nth e (signal s (S n) i) 0%Q) time) (gam b' i e)).
Proof.
  intros H.
  assert (U : usable down_s [KInt 32 false] [1%nat] (b_at down_b) 3).
  { constructor; cbn [down_s s_time s_values s_sync s_period length]; try reflexivity; try (intros; lia).
    - intros n [|i] Hn Hi; [reflexivity|lia].
    - intros n [|i] Hn Hi; [|lia]. cbn [signal down_s s_values nth]. constructor; [|constructor].
      exists (100 - Z.of_nat n). split; [reflexivity|]. unfold in_ty, imin, imax. cbn [isgn ibits].
      change (2 ^ 32) with 4294967296. cbn [down_b b_at] in Hn. lia. }
  assert (Un : uniform down_s [KInt 32 false] [1%nat] (b_at down_b) 3).
  { intros [|i] n n' [|e] [|e'] Hi Hn Hn' He He'; cbn [length nth] in *; try lia; reflexivity. }
  destruct (reset down_s down_b) as [b0|] eqn:Er; [|vm_compute in Er; discriminate Er].
  destruct (H 5%nat down_s down_b b0 [KInt 32 false] [1%nat] 3%nat 1%nat U Un) as (b' & n & E & T & R); try reflexivity; try (cbn; lia).
  { exact Er. }
  { cbn [down_s s_time s_period]. intros n Hn. lia. }
  assert (n = 0)%nat as -> by (cbn [down_s s_time s_period down_b b_at] in T; lia).
  specialize (R 0%nat 0%nat ltac:(cbn; lia) ltac:(cbn; lia)).
  vm_compute in Er. injection Er as <-. vm_compute in E. injection E as <-.
  destruct R as (z & W & Ez). vm_compute in Ez. injection Ez as <-. vm_compute in W. intuition congruence.
Qed.
Print Assumptions C56_decrease_refuted.

(** Samples that are closer than the period: the line does not join the neighbours of the time. *)
Definition skip_value (n : nat) : Q := match n with 1%nat => inject_Z 100 | _ => 0%Q end.
Definition skip_s : source := Source (fun n => 10 * Z.of_nat n) (fun n => [[skip_value n]]) (fun _ => true) 15.
Definition skip_b : broker := Broker 0 0 0 false [Copy KFlt [0%Q] [0%Q] 0%Q [7%Q]] 0.

Theorem C56_skip_refuted : ~ (forall fuel s b b0 kinds sizes z k,
  usable s kinds sizes (b_at b) z -> uniform s kinds sizes (b_at b) z -> moderate s kinds sizes (b_at b) z ->
  matches b kinds -> (b_at b <= z)%nat -> reset s b = Some b0 -> (z - b_at b < fuel)%nat -> (0 < k)%nat ->
  let time := s_time s (b_at b) + Z.of_nat k * s_period s in
  time <= s_time s z ->
  exists b' n, executes fuel s (S k) b0 = Some b' /\ s_time s n < time <= s_time s (S n) /\
    forall i e, (i < length kinds)%nat -> (e < nth i sizes 0)%nat ->
      stands_for (nth i kinds KFlt)
        (line (s_time s n) (nth e (signal s n i) 0%Q) (s_time s (S n)) (nth e (signal s (S n) i) 0%Q) time) (gam b' i e)).
Proof.
  intros H.
  assert (U : usable skip_s [KFlt] [1%nat] (b_at skip_b) 3).
  { constructor; cbn [skip_s s_time s_values s_sync s_period length]; try reflexivity; try (intros; lia).
    - intros n [|i] Hn Hi; [reflexivity|lia].
    - intros n [|i] Hn Hi; [|lia]. repeat constructor. }
  assert (Un : uniform skip_s [KFlt] [1%nat] (b_at skip_b) 3).
  { intros [|i] n n' [|e] [|e'] Hi Hn Hn' He He'; cbn [length nth] in *; try lia; reflexivity. }
  assert (M : moderate skip_s [KFlt] [1%nat] (b_at skip_b) 3).
  { intros [|i] n n' e Hi H1 H2 H3 He; [exact I|cbn in Hi; lia]. }
  destruct (reset skip_s skip_b) as [b0|] eqn:Er; [|vm_compute in Er; discriminate Er].
  destruct (H 5%nat skip_s skip_b b0 [KFlt] [1%nat] 3%nat 1%nat U Un M) as (b' & n & E & T & R); try reflexivity; try (cbn; lia).
  { exact Er. }
  assert (n = 1)%nat as -> by (cbn [skip_s s_time s_period skip_b b_at] in T; lia).
  specialize (R 0%nat 0%nat ltac:(cbn; lia) ltac:(cbn; lia)).
  vm_compute in Er. injection Er as <-. vm_compute in E. injection E as <-. vm_compute in R. discriminate R.
Qed.
Print Assumptions C56_skip_refuted.
