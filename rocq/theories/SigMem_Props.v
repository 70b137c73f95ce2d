(** C45: the memory of the signals of an accepted application. *)
From Coq Require Import ZArith List Bool String Lia.
From Verif Require Import Base MultiBuf_Model Broker_Model Broker_Props SigMem_Model SigMem_Spec SigMem_Proofs
  SigMem_Proofs2 SigMem_Proofs3.
Import ListNotations.
Open Scope string_scope. Open Scope Z_scope. Open Scope list_scope.

(** Agreement.  When the builder accepts an application, every signal of every
    function has the same type and the same number of elements as the signal of
    the data source, and these are the ones that were written in the
    configuration: of the function, of the other functions that use the same
    signal and of the data source.  Partial: every function must state the
    number of elements of its signals (or nothing, when the data source does);
    without it the conclusion is false, see the findings below. *)
Theorem C45_agreement_partial :
  forall a v gs, sane a -> all_stated a -> build a = Some (v, gs) ->
    Forall2 (fun g rg => Forall2 (agrees a v) (g_in g) (rg_in rg) /\ Forall2 (agrees a v) (g_out g) (rg_out rg))
      (a_gams a) gs /\
    (forall D k p, In D (a_ds a) -> find_ds (d_name D) (a_ds a) = Some D -> assoc k (d_signals D) = Some p ->
       match signal_of v (d_name D) k with Some s => respects p s | None => False end).
Proof.
  intros a v gs S T B. destruct (build_spec a v gs S T B) as (_ & F & D). split; [|exact D].
  clear - F. induction F as [|g rg gl rl ((_ & A1) & (_ & A2)) F IH]; constructor; auto.
Qed.
Print Assumptions C45_agreement_partial.

(** The memory of a function.  In an accepted application whose sizes can be
    counted with 32 bits, the signals of a direction of a function are one after
    the other in a block of exactly the allocated size: the offset at which the
    broker writes a signal ([r_gam]) is the pointer that the GAM gets
    ([gam_pointers]); the signals do not overlap; each has the size of its
    wanted elements times its samples; and the byte ranges lie inside the signal
    of the data source. *)
Definition laid_out (a : app) (v : list (string * list vsignal)) (fs : list fsignal) (rs : list rsignal) (total : Z) : Prop :=
  total = sum (map (size_in_gam v a) fs) /\
  gam_pointers rs 0 = map r_gam rs /\
  (forall i f r, nth_error fs i = Some f -> nth_error rs i = Some r ->
     0 <= r_gam r /\ 0 <= size_in_gam v a f /\ r_gam r + size_in_gam v a f <= total /\
     match signal_of v (source_of a f) (q_key f) with
     | Some s =>
         r_bytes r = wanted_elems f s * elem_size (v_type s) /\
         r_offsets r = byte_ranges f s /\
         v_bytes s = size_in_ds s /\
         Forall (fun x => 0 <= fst x /\ 0 <= snd x /\ fst x + snd x <= v_bytes s) (r_offsets r)
     | None => False
     end) /\
  (forall i j f r r', (i < j)%nat -> nth_error fs i = Some f -> nth_error rs i = Some r -> nth_error rs j = Some r' ->
     r_gam r + size_in_gam v a f <= r_gam r').

Lemma laid_out_intro a v fs rs total :
  Forall (fun z => 0 <= z) (map (size_in_gam v a) fs) ->
  total = 0 + sum (map (size_in_gam v a) fs) ->
  map r_gam rs = blocks 0 (map (size_in_gam v a) fs) ->
  gam_pointers rs 0 = blocks 0 (map (size_in_gam v a) fs) ->
  Forall2 (exact_for a v) fs rs -> laid_out a v fs rs total.
Proof.
  intros I1 I2 I3 I4 I5. split; [exact I2|]. split; [congruence|]. split.
  - intros i f r Fi Ri.
    assert (G1 : nth_error (blocks 0 (map (size_in_gam v a) fs)) i = Some (r_gam r))
      by (rewrite <- I3; apply map_nth_error; exact Ri).
    destruct (blocks_in _ 0 i _ _ I1 G1 (map_nth_error _ _ _ Fi)) as (P1 & P2).
    split; [exact P1|]. split.
    { rewrite Forall_forall in I1. apply I1. apply in_map. eapply nth_error_In. exact Fi. }
    split; [lia|]. pose proof (Forall2_nth _ _ _ I5 i f r Fi Ri) as E. unfold exact_for in E.
    destruct (signal_of v (source_of a f) (q_key f)) as [s|]; [|exact E].
    destruct E as ((E1 & E2 & E3 & E4 & _) & EB). rewrite EB. repeat (split; [assumption|]).
    split; [reflexivity|exact E4].
  - intros i j f r r' LT Fi Ri Rj.
    refine (blocks_apart _ 0 i j _ _ _ I1 LT _ (map_nth_error _ _ _ Fi) _).
    + rewrite <- I3. apply map_nth_error. exact Ri.
    + rewrite <- I3. apply map_nth_error. exact Rj.
Qed.

Lemma Forall2_In_combine {A B} (R : A -> B -> Prop) l l' : Forall2 R l l' ->
  forall k x y, nth_error l k = Some x -> nth_error l' k = Some y -> R x y.
Proof. apply Forall2_nth. Qed.

Lemma build_layout a v gs k g rg :
  sane a -> all_stated a -> build a = Some (v, gs) -> small_signals v ->
  nth_error (a_gams a) k = Some g -> nth_error gs k = Some rg ->
  forall fs rs total,
  (fs, rs, total) = (g_in g, rg_in rg, rg_in_bytes rg) \/ (fs, rs, total) = (g_out g, rg_out rg, rg_out_bytes rg) ->
  small_function v a fs ->
  Forall2 (agrees a v) fs rs /\
  Forall (fun z => 0 <= z) (map (size_in_gam v a) fs) /\
  total = 0 + sum (map (size_in_gam v a) fs) /\
  map r_gam rs = blocks 0 (map (size_in_gam v a) fs) /\
  gam_pointers rs 0 = blocks 0 (map (size_in_gam v a) fs) /\
  Forall2 (exact_for a v) fs rs.
Proof.
  intros SA ST B SM G R fs rs total W SF. destruct (build_spec a v gs SA ST B) as (GV & F & _).
  destruct (Forall2_nth _ _ _ F k g rg G R) as ((M1 & A1) & (M2 & A2)).
  destruct SA as (_ & SG). rewrite Forall_forall in SG. destruct (SG g (nth_error_In _ _ G)) as (S1 & S2).
  unfold small_function in SF.
  destruct W as [E|E]; injection E as -> -> ->; (split; [assumption|]; apply made_layout; auto; lia).
Qed.

Theorem C45_function_memory_partial :
  forall a v gs, sane a -> all_stated a -> build a = Some (v, gs) -> small_signals v ->
    Forall2 (fun g rg =>
      (small_function v a (g_in g) -> laid_out a v (g_in g) (rg_in rg) (rg_in_bytes rg)) /\
      (small_function v a (g_out g) -> laid_out a v (g_out g) (rg_out rg) (rg_out_bytes rg))) (a_gams a) gs.
Proof.
  intros a v gs SA ST B SM. destruct (build_spec a v gs SA ST B) as (GV & F & _).
  destruct SA as (_ & SG). clear B ST. revert SG.
  induction F as [|g rg gl rl ((M1 & A1) & (M2 & A2)) F IH]; intro SG; [constructor|].
  inversion SG as [|? ? (S1 & S2) S3]; subst. constructor; [|apply IH; exact S3].
  split; intro SF; unfold small_function in SF.
  - destruct (made_layout a v GV SM _ _ _ _ S1 M1 A1) as (I1 & I2 & I3 & I4 & I5); [lia|lia|]. apply laid_out_intro; auto.
  - destruct (made_layout a v GV SM _ _ _ _ S2 M2 A2) as (I1 & I2 & I3 & I4 & I5); [lia|lia|]. apply laid_out_intro; auto.
Qed.
Print Assumptions C45_function_memory_partial.

(** The memory of a data source in memory (MemoryDataSourceI): for every signal
    and every state buffer there is a place for all buffers of the signal, inside
    the allocated memory, and two places never overlap.  [nbuf] is
    NumberOfBuffers. *)
Theorem C45_memory_data_source :
  forall nbuf nstates vs m,
    0 < nbuf -> Forall (fun s => 0 <= v_bytes s) vs -> nbuf * sum (map v_bytes vs) * nstates < 2 ^ 32 ->
    mem_allocate nbuf nstates vs = Some m ->
    forall i s b, nth_error vs i = Some s -> 0 <= b < nstates ->
      match mem_address nstates m i b with
      | Some x =>
          0 <= x /\ 0 < v_bytes s /\ x + nbuf * v_bytes s <= m_size m /\
          forall j s' b' x', nth_error vs j = Some s' -> 0 <= b' < nstates ->
            mem_address nstates m j b' = Some x' -> (i, b) <> (j, b') ->
            x + nbuf * v_bytes s <= x' \/ x' + nbuf * v_bytes s' <= x
      | None => False
      end.
Proof.
  intros nbuf nstates vs m NB F L A i s b N B.
  destruct (mem_place nbuf nstates vs m i b s ltac:(lia) B F L A N) as (o & O1 & O2 & O3 & O4 & O5 & O6 & O7 & O8).
  rewrite O3.
  assert (F' : Forall (fun z => 0 <= z) (map v_bytes vs)) by (apply Forall_map; exact F).
  pose proof (sum_nonneg _ F') as SN.
  split; [nia|]. split; [exact O8|]. split; [rewrite O5; nia|].
  intros j s' b' x' N' B' AD NE.
  destruct (mem_place nbuf nstates vs m j b' s' ltac:(lia) B' F L A N') as (o' & P1 & P2 & P3 & P4 & P5 & P6 & P7 & P8).
  rewrite P3 in AD. injection AD as <-.
  destruct (Z.lt_total b b') as [LT|[EQ|LT]]; [left; nia| |right; nia].
  subst b'. assert (NIJ : i <> j) by (intro E; apply NE; congruence).
  pose proof (scale_nonneg nbuf _ ltac:(lia) F') as FS.
  destruct (Nat.lt_total i j) as [LT|[EQ|LT]]; [left| |right]; [|contradiction|].
  - pose proof (blocks_apart _ 0 i j _ _ _ FS LT O1
      (map_nth_error _ _ _ (map_nth_error v_bytes _ _ N)) P1). lia.
  - pose proof (blocks_apart _ 0 j i _ _ _ FS LT P1
      (map_nth_error _ _ _ (map_nth_error v_bytes _ _ N')) O1). lia.
Qed.
Print Assumptions C45_memory_data_source.

(** The memory of a GAMDataSource: the signals, each with as many samples as the
    first function that uses it asks for, do not overlap and lie inside the
    memory. *)
Definition all_uses (uses : list (list (string * Z) * list (string * Z))) : list (string * Z) := flat_map (fun f => fst f ++ snd f) uses.
Definition gds_size (multi : bool) uses (s : vsignal) : Z :=
  if multi then match List.find (fun u => String.eqb (fst u) (v_name s)) (all_uses uses) with Some u => v_bytes s * snd u | None => 0 end else v_bytes s.
Lemma samples_first k uses : samples_of_signal k uses = match List.find (fun u => String.eqb (fst u) k) (all_uses uses) with Some u => Some (snd u) | None => None end.
Proof.
  assert (A : forall l (r : list (string * Z)), List.find (fun u => String.eqb (fst u) k) (l ++ r) = match List.find (fun u => String.eqb (fst u) k) l with Some u => Some u | None => List.find (fun u => String.eqb (fst u) k) r end).
  { induction l as [|u l IH]; intro r; [reflexivity|]. cbn [List.app List.find]. destruct (String.eqb (fst u) k); [reflexivity|apply IH]. }
  assert (B : forall l, @assoc Z k l = match List.find (fun u => String.eqb (fst u) k) l with Some u => Some (snd u) | None => None end).
  { induction l as [|[n v] l IH]; [reflexivity|]. cbn [assoc List.find fst]. destruct (String.eqb n k); [reflexivity|exact IH]. }
  induction uses as [|[o i] uses IH]; [reflexivity|]. cbn [samples_of_signal all_uses flat_map fst snd]. fold (all_uses uses). rewrite !A, !B, IH.
  destruct (List.find _ o); [reflexivity|]. destruct (List.find _ i); reflexivity.
Qed.

Lemma gds_exact multi uses : forall vs off e l,
  gds_offsets multi uses vs off = Some (e, l) -> Forall (fun s => 0 <= gds_size multi uses s) vs -> 0 <= off ->
  off + sum (map (gds_size multi uses) vs) < 2 ^ 32 ->
  e = off + sum (map (gds_size multi uses) vs) /\ l = blocks off (map (gds_size multi uses) vs).
Proof.
  induction vs as [|s vs IH]; intros off e l; cbn [gds_offsets map].
  - intros E _ _ _. injection E as <- <-. cbn. split; [lia|reflexivity].
  - intros E F O L. inversion F as [|? ? P F']; subst.
    assert (0 <= sum (map (gds_size multi uses) vs)) by (apply sum_nonneg, Forall_map; exact F').
    cbn [sum fold_right] in L |- *. fold (sum (map (gds_size multi uses) vs)) in L |- *.
    assert (K : match (if multi then match samples_of_signal (v_name s) uses with
                        | Some n => Some (w32 (v_bytes s * n)) | None => None end
                      else Some (v_bytes s)) with
                | Some z => z = gds_size multi uses s | None => True end).
    { unfold gds_size in *. destruct multi; [|reflexivity]. rewrite samples_first.
      destruct (List.find _ (all_uses uses)); [|exact Logic.I]. apply w32_id. lia. }
    destruct (if multi then _ else _) as [z|]; [|discriminate]. subst z.
    destruct (_ =? 0); [discriminate|]. rewrite w32_id in E by lia.
    destruct (gds_offsets multi uses vs _) as [[e0 l0]|] eqn:M; [|discriminate]. injection E as <- <-.
    destruct (IH _ _ _ M F' ltac:(lia) ltac:(lia)) as (A & B). split; [lia|]. cbn [blocks]. congruence.
Qed.

Theorem C45_gam_data_source :
  forall multi uses vs m,
    Forall (fun s => 0 <= gds_size multi uses s) vs -> sum (map (gds_size multi uses) vs) < 2 ^ 32 ->
    gds_allocate multi uses vs = Some m ->
    forall i s, nth_error vs i = Some s ->
      match mem_address 1 m i 0 with
      | Some x =>
          0 <= x /\ x + gds_size multi uses s <= m_size m /\
          forall j s' x', nth_error vs j = Some s' -> mem_address 1 m j 0 = Some x' -> i <> j ->
            x + gds_size multi uses s <= x' \/ x' + gds_size multi uses s' <= x
      | None => False
      end.
Proof.
  intros multi uses vs m F L A i s N. unfold gds_allocate in A.
  assert (exists e l, gds_offsets multi uses vs 0 = Some (e, l) /\ m = DMem e e l) as (e & l & G & ->).
  { destruct vs; [discriminate|]. destruct (gds_offsets multi uses (v :: vs) 0) as [[e l]|]; [|discriminate].
    injection A as <-. eauto. }
  destruct (gds_exact _ _ _ _ _ _ G F ltac:(lia) ltac:(lia)) as (E1 & E2).
  assert (FS : Forall (fun z => 0 <= z) (map (gds_size multi uses) vs)) by (apply Forall_map; exact F).
  assert (AD : forall j t, nth_error vs j = Some t -> exists o, nth_error (blocks 0 (map (gds_size multi uses) vs)) j = Some o /\
            mem_address 1 (DMem e e l) j 0 = Some o).
  { intros j t NJ. unfold mem_address. cbn [m_offsets m_state]. rewrite E2.
    destruct (nth_error (blocks 0 (map (gds_size multi uses) vs)) j) as [o|] eqn:Q.
    - exists o. split; [reflexivity|]. cbn [Z.ltb Z.compare]. rewrite Z.mul_0_r. reflexivity.
    - apply nth_error_None in Q. rewrite blocks_length, map_length in Q.
      assert (nth_error vs j <> None) as X by congruence. apply nth_error_Some in X. lia. }
  destruct (AD i s N) as (o & O1 & O2). rewrite O2.
  destruct (blocks_in _ 0 i o _ FS O1 (map_nth_error _ _ _ N)) as (P1 & P2). cbn [m_size].
  split; [exact P1|]. split; [lia|]. intros j s' x' NJ AJ NE.
  destruct (AD j s' NJ) as (o' & Q1 & Q2). rewrite Q2 in AJ. injection AJ as <-.
  destruct (Nat.lt_total i j) as [LT|[EQ|LT]]; [left| |right]; [|contradiction|].
  - exact (blocks_apart _ 0 i j _ _ _ FS LT O1 (map_nth_error _ _ _ N) Q1).
  - exact (blocks_apart _ 0 j i _ _ _ FS LT Q1 (map_nth_error _ _ _ NJ) O1).
Qed.
Print Assumptions C45_gam_data_source.

(** End to end.  In an accepted application, the broker between a function and a
    data source in memory copies to the place of every input signal exactly the
    bytes of the wanted elements of the signal of the data source, in every state
    buffer, and touches nothing else; no access is outside the two memories.
    For the output signals the same holds in the other direction, when no two
    signals of the function write the same byte of the data source
    ([one_target], which CheckProducersRanges is there to ensure).  Conditions:
    the sizes can be counted with 32 bits and the data source has as many
    buffers as the samples asked for. *)
Definition signal_copied (a : app) v (fs : list fsignal) (rs : list rsignal) name vs nstates m b (from : mem) (to : mem) : Prop :=
  forall i f r j, nth_error fs i = Some f -> nth_error rs i = Some r -> source_of a f = name ->
    0 <= j < size_in_gam v a f ->
    match signal_of v name (q_key f), index_of (q_key f) vs with
    | Some s, Some k =>
        match mem_address nstates m k b with
        | Some adr => mdat to (r_gam r + j) =
            mdat from (adr + byte_of (byte_ranges f s) (match q_samples f with Some n => n | None => 1 end) (size_in_ds s) j)
        | None => False
        end
    | _, _ => False
    end.

Theorem C45_broker_partial :
  forall a v gs k g rg, sane a -> all_stated a -> build a = Some (v, gs) -> small_signals v ->
    nth_error (a_gams a) k = Some g -> nth_error gs k = Some rg ->
    forall name vs nbuf nstates m b,
    assoc name v = Some vs -> mem_allocate nbuf nstates vs = Some m -> 0 <= nbuf -> 0 <= b < nstates ->
    nbuf * sum (map v_bytes vs) * nstates < 2 ^ 32 ->
    let samples_fit fs := forall f, In f fs -> source_of a f = name ->
      match q_samples f with Some n => n | None => 1 end <= nbuf in
    let base := fun i => nth i (m_offsets m) 0 + b * m_state m in
    (small_function v a (g_in g) -> samples_fit (g_in g) ->
     exists sigs t, broker_signals name vs (rg_in rg) = Some sigs /\
       init_optim (fun i => nth i (m_offsets m) 0) sigs = Some t /\
       forall ds gam, msize ds = m_size m -> msize gam = rg_in_bytes rg ->
       exists gam', exec_in base t ds gam = Some gam' /\ gathered base sigs ds gam gam' /\
         signal_copied a v (g_in g) (rg_in rg) name vs nstates m b ds gam') /\
    (small_function v a (g_out g) -> samples_fit (g_out g) ->
     exists sigs t, broker_signals name vs (rg_out rg) = Some sigs /\
       init_optim (fun i => nth i (m_offsets m) 0) sigs = Some t /\
       (one_target base sigs ->
        forall ds gam, msize ds = m_size m -> msize gam = rg_out_bytes rg ->
        exists ds', exec_out base t gam ds = Some ds' /\ scattered base sigs gam ds ds' /\
          signal_copied a v (g_out g) (rg_out rg) name vs nstates m b ds' gam)).
Proof.
  intros a v gs k g rg SA ST B SM G R name vs nbuf nstates m b AV MA NB BB ML samples_fit base.
  destruct (build_spec a v gs SA ST B) as (GV & _).
  assert (VP : Forall (fun s => 0 <= v_bytes s) vs).
  { pose proof (assoc_Forall (Forall good) _ _ _ GV AV) as GS. eapply Forall_impl; [|exact GS].
    intros s (_ & bits & _ & ->). apply Z.div_pos; [|lia]. apply (uwrap_range 32). lia. }
  split; intros SF SL.
  - destruct (build_layout a v gs k g rg SA ST B SM G R _ _ _ (or_introl eq_refl) SF) as (AG & I1 & I2 & I3 & _ & I5).
    destruct (broker_facts a v _ _ _ AG I1 I2 I3 I5 name vs nbuf nstates b m AV MA NB BB VP ML SL)
      as (sigs & S1 & S2 & S3 & S4 & S5).
    unfold place, shift in *. fold base in S3, S4, S5.
    set (pl := fun i => nth i (m_offsets m) 0) in *.
    destruct (C40_optimised pl (b * m_state m) sigs (Mem (m_size m) (fun _ => 0)) (Mem (rg_in_bytes rg) (fun _ => 0)) S2
                (S4 (Mem (m_size m) (fun _ => 0)) (Mem (rg_in_bytes rg) (fun _ => 0)) eq_refl eq_refl)) as (t & T1 & _).
    exists sigs, t. split; [exact S1|]. split; [exact T1|]. intros ds gam MD MG.
    destruct (C40_optimised pl (b * m_state m) sigs ds gam S2 (S4 _ _ MD MG)) as (t' & T1' & T2 & _).
    rewrite T1 in T1'. injection T1' as <-. destruct (T2 S3) as (gam' & E & GA).
    exists gam'. split; [exact E|]. split; [exact GA|].
    intros i f r j Fi Ri SN J. specialize (S5 i f r j Fi Ri SN J).
    destruct (signal_of v name (q_key f)) as [s|]; [|exact S5].
    destruct (index_of (q_key f) vs) as [x|]; [|exact S5].
    destruct (mem_address nstates m x b) as [adr|]; [|exact S5].
    destruct GA as (_ & GA & _). apply GA. exact S5.
  - destruct (build_layout a v gs k g rg SA ST B SM G R _ _ _ (or_intror eq_refl) SF) as (AG & I1 & I2 & I3 & _ & I5).
    destruct (broker_facts a v _ _ _ AG I1 I2 I3 I5 name vs nbuf nstates b m AV MA NB BB VP ML SL)
      as (sigs & S1 & S2 & S3 & S4 & S5).
    unfold place, shift in *. fold base in S3, S4, S5.
    set (pl := fun i => nth i (m_offsets m) 0) in *.
    destruct (C40_optimised pl (b * m_state m) sigs (Mem (m_size m) (fun _ => 0)) (Mem (rg_out_bytes rg) (fun _ => 0)) S2
                (S4 (Mem (m_size m) (fun _ => 0)) (Mem (rg_out_bytes rg) (fun _ => 0)) eq_refl eq_refl)) as (t & T1 & _).
    exists sigs, t. split; [exact S1|]. split; [exact T1|]. intros OT ds gam MD MG.
    destruct (C40_optimised pl (b * m_state m) sigs ds gam S2 (S4 _ _ MD MG)) as (t' & T1' & _ & T2).
    rewrite T1 in T1'. injection T1' as <-. destruct (T2 OT) as (ds' & E & SC).
    exists ds'. split; [exact E|]. split; [exact SC|].
    intros i f r j Fi Ri SN J. specialize (S5 i f r j Fi Ri SN J).
    destruct (signal_of v name (q_key f)) as [s|]; [|exact S5].
    destruct (index_of (q_key f) vs) as [x|]; [|exact S5].
    destruct (mem_address nstates m x b) as [adr|]; [|exact S5].
    destruct SC as (_ & SC & _). symmetry. apply SC. exact S5.
Qed.
Print Assumptions C45_broker_partial.

(** A concrete application: one function writes a vector of four uint16 and a
    float64, another reads two ranges of the vector and inherits the float64. *)
Definition ex_p t e := Props (Some t) None (Some e) None.
Definition ex_app : app :=
  App "D" [DSource "D" false [("x", Props (Some "float64") None (Some 1) None)]]
    [Gam [] [FSignal (Some "D") "v" None (ex_p "uint16" 4) None None; FSignal None "y" (Some "x") (ex_p "float64" 1) None None];
     Gam [FSignal (Some "D") "w" (Some "v") (ex_p "uint16" 4) None (Some [(0, 0); (2, 3)]);
          FSignal (Some "D") "x" None no_props None None] []].

Example C45_case :
  sane ex_app /\ all_stated ex_app /\
  match build ex_app with
  | Some (v, [g1; g2]) =>
      small_signals v /\ small_function v ex_app (g_in (nth 1 (a_gams ex_app) (Gam [] []))) /\
      map (fun r => (r_gam r, r_bytes r, r_offsets r)) (rg_out g1) = [(0, 8, [(0, 8)]); (8, 8, [(0, 8)])] /\
      map (fun r => (r_gam r, r_bytes r, r_offsets r)) (rg_in g2) = [(0, 6, [(0, 2); (4, 4)]); (6, 8, [(0, 8)])] /\
      rg_in_bytes g2 = 14 /\
      match assoc "D" v with
      | Some vs =>
          match mem_allocate 2 3 vs, broker_signals "D" vs (rg_in g2) with
          | Some m, Some sigs =>
              m_offsets m = [0; 16] /\ m_size m = 96 /\
              match init_optim (fun i => nth i (m_offsets m) 0) sigs with
              | Some t =>
                  match exec_in (fun i => nth i (m_offsets m) 0 + 1 * m_state m) t (Mem 96 (fun i => i)) (Mem 14 (fun _ => -1)) with
                  | Some gam => map (mdat gam) [0;1;2;3;4;5;6;13] = [48;49;52;53;54;55;32;39]
                  | None => False
                  end
              | None => False
              end
          | _, _ => False
          end
      | None => False
      end
  | _ => False
  end.
Proof.
  split; [|split].
  - unfold sane, sane_signal, numbers, uint32. cbn [ex_app a_ds a_gams d_signals g_in g_out].
    repeat first [apply Forall_nil | apply Forall_cons | match goal with |- _ /\ _ => split end | progress cbn [q_props q_samples q_ranges fst snd]].
    all: try (intros; discriminate); try (intros e H; injection H as <-; lia); try exact Logic.I; try lia; discriminate.
  - unfold all_stated. cbn [ex_app a_gams g_in g_out].
    repeat first [apply Forall_nil | apply Forall_cons | match goal with |- _ /\ _ => split end].
    all: try (left; cbn; discriminate).
    right. split; [reflexivity|]. split; [reflexivity|].
    eexists _, _. split; [reflexivity|]. split; [reflexivity|]. discriminate.
  - let r := eval vm_compute in (build ex_app) in assert (E : build ex_app = r) by (vm_compute; reflexivity).
    rewrite E. clear E. cbv beta iota. split.
    { unfold small_signals. apply Forall_cons; [|apply Forall_nil]. cbn [snd].
      repeat (apply Forall_cons; [vm_compute; reflexivity|]). apply Forall_nil. }
    split; [vm_compute; reflexivity|]. vm_compute. repeat split; reflexivity.
Qed.

(** Findings. *)

(** A mismatch between a function and a data source is not noticed when the
    function does not state NumberOfElements: AddSignalToDataSource reports the
    mismatch and returns false, but its result is then overwritten by the result
    of the Write of the default NumberOfElements (lines 1000-1005).  Here one
    function writes the uint8 S, another reads S as a float64; the application is
    accepted, and the broker reads eight bytes from a memory of one byte.  The
    same application in which the second function states NumberOfElements = 1 is
    refused. *)
Definition bad_app (e : option Z) : app :=
  App "D" [DSource "D" false []]
    [Gam [] [FSignal None "S" None (Props (Some "uint8") None None None) None None];
     Gam [FSignal None "S" None (Props (Some "float64") None e None) None None] []].
Theorem C45_type_mismatch_accepted_refuted :
  build (bad_app (Some 1)) = None /\
  match build (bad_app None) with
  | Some (v, [g1; g2]) =>
      v = [("D", [VSignal "S" "uint8" 1 1])] /\
      match mem_allocate 1 1 [VSignal "S" "uint8" 1 1], broker_signals "D" [VSignal "S" "uint8" 1 1] (rg_in g2) with
      | Some m, Some sigs =>
          m_size m = 1 /\ rg_in_bytes g2 = 8 /\
          match init_optim (fun i => nth i (m_offsets m) 0) sigs with
          | Some t => exec_in (fun i => nth i (m_offsets m) 0) t (Mem (m_size m) (fun _ => 0)) (Mem (rg_in_bytes g2) (fun _ => 0)) = None
          | None => False
          end
      | _, _ => False
      end
  | _ => False
  end.
Proof. split; [reflexivity|]. vm_compute. repeat split; reflexivity. Qed.
Print Assumptions C45_type_mismatch_accepted_refuted.

(** In the same way ResolveDataSources succeeds for a function that asks a locked
    data source for a signal that it does not have.  (When the function runs in a
    state, the code then creates its node States among the signals of the data
    source, which the later verification refuses; states are not modelled.) *)
Theorem C45_locked_data_source_refuted :
  let f e := FSignal None "T" None (Props (Some "uint8") None e None) None None in
  let a e := App "D" [DSource "D" true [("S", Props (Some "uint8") None None None)]] [Gam [f e] []] in
  build (a (Some 1)) = None /\
  match build (a None) with
  | Some (v, [g]) => v = [("D", [VSignal "S" "uint8" 1 1])] /\ map r_key (rg_in g) = ["T"] /\
                     broker_signals "D" [VSignal "S" "uint8" 1 1] (rg_in g) = None
  | _ => False
  end.
Proof. split; [reflexivity|]. vm_compute. repeat split; reflexivity. Qed.
Print Assumptions C45_locked_data_source_refuted.

(** The number of elements that a function gets depends on the order of the
    functions: a function that does not state it gets 1 when it comes before the
    function that states 10, and 10 when it comes after it. *)
Theorem C45_order_refuted :
  let w := Gam [] [FSignal None "S" None (Props (Some "uint8") None (Some 10) None) None None] in
  let r := Gam [FSignal None "S" None (Props (Some "uint8") None None None) None None] [] in
  let a gs := App "D" [DSource "D" false []] gs in
  match build (a [w; r]), build (a [r; w]) with
  | Some (v, [_; g]), Some (v', [g'; _]) => v = v' /\ rg_in_bytes g = 10 /\ rg_in_bytes g' = 1
  | _, _ => False
  end.
Proof. vm_compute. repeat split; reflexivity. Qed.
Print Assumptions C45_order_refuted.

(** Sizes are computed in bits with 32 bits: a vector of 67108865 float64 is
    accepted and gets 8 bytes. *)
Theorem C45_size_wrap_refuted :
  match build (App "D" [DSource "D" false []]
                 [Gam [FSignal None "S" None (Props (Some "float64") None (Some 67108865) None) None None] []]) with
  | Some (v, [g]) => v = [("D", [VSignal "S" "float64" 67108865 8])] /\ rg_in_bytes g = 8
  | _ => False
  end.
Proof. vm_compute. repeat split; reflexivity. Qed.
Print Assumptions C45_size_wrap_refuted.

(** NumberOfBuffers = 0 is accepted by MemoryDataSourceI: all signals are at the
    same place of a memory of no bytes. *)
Theorem C45_no_buffers_refuted :
  match mem_allocate 0 1 [VSignal "S" "uint8" 1 1; VSignal "T" "uint8" 1 1] with
  | Some m => m_size m = 0 /\ mem_address 1 m 0 0 = Some 0 /\ mem_address 1 m 1 0 = Some 0
  | None => False
  end.
Proof. vm_compute. repeat split; reflexivity. Qed.
Print Assumptions C45_no_buffers_refuted.

(** A GAMDataSource with AllowMultipleSamples gives a signal the samples of the
    first function that uses it; nothing checks that the others ask for the
    same, and a function that reads four samples of a signal written with one
    reads after the end of the memory. *)
Theorem C45_samples_of_first_function_refuted :
  let S := VSignal "S" "uint8" 1 1 in
  let a := App "D" [DSource "D" false []]
    [Gam [] [FSignal None "S" None (ex_p "uint8" 1) None None];
     Gam [FSignal None "S" None (ex_p "uint8" 1) (Some 4) None] []] in
  match build a with
  | Some (v, [g1; g2]) =>
      match gds_allocate true [([("S", 1)], []); ([], [("S", 4)])] [S], broker_signals "D" [S] (rg_in g2) with
      | Some m, Some sigs =>
          m_size m = 1 /\ rg_in_bytes g2 = 4 /\
          match init_optim (fun i => nth i (m_offsets m) 0) sigs with
          | Some t => exec_in (fun i => nth i (m_offsets m) 0) t (Mem (m_size m) (fun _ => 0)) (Mem (rg_in_bytes g2) (fun _ => 0)) = None
          | None => False
          end
      | _, _ => False
      end
  | _ => False
  end.
Proof. vm_compute. repeat split; reflexivity. Qed.
Print Assumptions C45_samples_of_first_function_refuted.
