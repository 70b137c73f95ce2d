(** Proofs about TypeConvert: all the elements. *)
From Verif Require Import Base BitsBase Bsb_Model Bsb_Spec Bsb_Proofs Tcv_Model Tcv_Spec Tcv_Proofs Tcv_Proofs2.
Local Open Scope nat_scope.

(** ** Loops *)

Lemma loop_ext {A} (P : list Z -> Prop) (f g : A -> list Z -> option (bool * list Z)) l :
  (forall x m, In x l -> P m -> f x m = g x m) ->
  (forall x m ok m', In x l -> P m -> g x m = Some (ok, m') -> P m') ->
  forall m, P m -> loop f l m = loop g l m.
Proof.
  induction l as [|x l IH]; intros E K m Hm; [reflexivity|]. cbn [loop].
  rewrite E by (auto; left; reflexivity). destruct (g x m) as [[ok m1]|] eqn:G; [|reflexivity].
  rewrite IH; [reflexivity| | |].
  - intros y m2 Hy. apply E. right. exact Hy.
  - intros y m2 ok2 m3 Hy. apply K. right. exact Hy.
  - eapply K; [left; reflexivity|exact Hm|exact G].
Qed.

Lemma loop_keep {A} (P : list Z -> Prop) (g : A -> list Z -> option (bool * list Z)) l :
  (forall x m ok m', In x l -> P m -> g x m = Some (ok, m') -> P m') ->
  forall m ok m', P m -> loop g l m = Some (ok, m') -> P m'.
Proof.
  induction l as [|x l IH]; intros K m ok m' Hm; cbn [loop]; [intros E; injection E as _ <-; exact Hm|].
  destruct (g x m) as [[ok1 m1]|] eqn:G; [|discriminate].
  destruct (loop g l m1) as [[ok2 m2]|] eqn:L; [|discriminate]. intros E. injection E as _ <-.
  eapply IH; [|eapply K; [left; reflexivity|exact Hm|exact G]|exact L].
  intros y m3 ok3 m4 Hy. apply K. right. exact Hy.
Qed.

Lemma loop_app {A} (f : A -> list Z -> option (bool * list Z)) a b : forall m,
  loop f (a ++ b) m =
  match loop f a m with
  | None => None
  | Some (ok, m1) => match loop f b m1 with None => None | Some (ok2, m2) => Some (ok && ok2, m2) end
  end.
Proof.
  induction a as [|x a IH]; intros m; cbn [app loop].
  - destruct (loop f b m) as [[ok m1]|]; reflexivity.
  - destruct (f x m) as [[ok m1]|]; [|reflexivity]. rewrite IH.
    destruct (loop f a m1) as [[ok2 m2]|]; [|reflexivity].
    destruct (loop f b m2) as [[ok3 m3]|]; [|reflexivity]. rewrite andb_assoc. reflexivity.
Qed.

Lemma loop_map {A B} (f : B -> list Z -> option (bool * list Z)) (h : A -> B) l : forall m,
  loop f (map h l) m = loop (fun x => f (h x)) l m.
Proof.
  induction l as [|x l IH]; intros m; cbn [map loop]; [reflexivity|].
  destruct (f (h x) m) as [[ok m1]|]; [|reflexivity]. rewrite IH. reflexivity.
Qed.

Lemma loop_flat (g : nat * nat -> list Z -> option (bool * list Z)) rs cs : forall m,
  loop (fun r => loop (fun c => g (r, c)) cs) rs m = loop g (list_prod rs cs) m.
Proof.
  induction rs as [|r rs IH]; intros m; cbn [loop list_prod]; [reflexivity|].
  rewrite loop_app, loop_map.
  destruct (loop (fun c => g (r, c)) cs m) as [[ok m1]|]; [|reflexivity]. rewrite IH. reflexivity.
Qed.

Lemma nodup_prod rs cs : NoDup rs -> NoDup cs -> NoDup (list_prod rs cs : list (nat * nat)).
Proof.
  intros Hr Hc. induction Hr as [|r rs Nr Hr IH]; cbn [list_prod]; [constructor|].
  assert (G : forall a b : list (nat * nat), NoDup a -> NoDup b -> (forall x, In x a -> ~ In x b) -> NoDup (a ++ b)).
  { intros a b Ha Hb. induction Ha as [|x a Nx Ha IHa]; intros D; [exact Hb|]. cbn. constructor.
    - rewrite in_app_iff. intros [Q|Q]; [contradiction|]. apply (D x); [left; reflexivity|exact Q].
    - apply IHa. intros y Hy. apply D. right. exact Hy. }
  apply G; [|exact IH|].
  - clear - Hc. induction Hc as [|c cs Nc Hc IH]; cbn; constructor; [|exact IH].
    rewrite in_map_iff. intros (x & E & Hx). injection E as ->. contradiction.
  - intros [a b] Ha Hb. apply in_map_iff in Ha. destruct Ha as (x & E & _). injection E as -> ->.
    apply in_prod_iff in Hb. tauto.
Qed.

Section All.

Variable number : ty -> ty -> list Z -> bool * list Z.
Variable text : ty -> list Z -> option (list Z).
Hypothesis Fair : fair number text.

Variable m0 : list Z.
Variables d s : any.
Hypothesis B0 : bytes m0.
Hypothesis Ld : laid_out m0 d.
Hypothesis Ls : laid_out m0 s.
Hypothesis Sep : separate m0 d s.
Hypothesis Rd : readable m0 d s.
Hypothesis Eo : order d = order s.
Hypothesis Er : rows d = rows s.
Hypothesis Ec : cols d = cols s.

Definition cells : list (nat * nat) := list_prod (seq 0 (rows d)) (seq 0 (cols d)).

Lemma in_cells r c : In (r, c) cells <-> r < rows d /\ c < cols d.
Proof. unfold cells. rewrite in_prod_iff, !in_seq. lia. Qed.

(** Nothing is changed but the elements of the destination. *)
Definition agrees (m : list Z) : Prop :=
  length m = length m0 /\ bytes m /\
  forall i, (forall r c, r < rows d -> c < cols d -> i < place m0 d r c \/ place m0 d r c + width d <= i) ->
    nth i m 0%Z = nth i m0 0%Z.

Lemma agrees_refl : agrees m0.
Proof. split; [reflexivity|]. split; [exact B0|auto]. Qed.

Lemma agrees_slice m p n : agrees m -> p + n <= length m0 ->
  (forall r c, r < rows d -> c < cols d -> apart (place m0 d r c) (width d) p n) -> slice m p n = slice m0 p n.
Proof.
  intros (L & _ & H) Hp A. apply slice_ext; auto. intros i Hi. apply H. intros r c Hr Hc.
  specialize (A r c Hr Hc). unfold apart in A. lia.
Qed.

Lemma agrees_put m r c new : agrees m -> r < rows d -> c < cols d -> length new = width d -> bytes new ->
  agrees (put m (place m0 d r c) new).
Proof.
  intros (L & B & H) Hr Hc Ln Bn. pose proof (lo_places _ _ Ld r c Hr Hc) as P.
  split; [rewrite put_length; lia|]. split; [apply put_bytes; auto|].
  intros i Hi. rewrite put_nth by lia. specialize (Hi r c Hr Hc) as Hj.
  destruct ((place m0 d r c <=? i) && (i <? place m0 d r c + length new)) eqn:E; [|apply H; exact Hi].
  apply andb_true_iff in E. destruct E as [E1 E2]. apply Nat.leb_le in E1. apply Nat.ltb_lt in E2. lia.
Qed.

Lemma agrees_pointer m p : agrees m -> In p (tables m0 d) \/ In p (tables m0 s) ->
  pointer_at m p = Some (pointer m0 p).
Proof.
  intros A H. assert (Lp : p + 8 <= length m0) by (destruct H; [apply (lo_tables _ _ Ld)|apply (lo_tables _ _ Ls)]; auto).
  assert (E : slice m p 8 = slice m0 p 8).
  { apply agrees_slice; auto. intros r c Hr Hc. apply (se_tables _ _ _ Sep); auto. }
  destruct A as (L & _). unfold pointer_at. rewrite read_slice by lia. rewrite E. unfold pointer.
  change 64 with (8 * 8). rewrite unsigned_slice by auto. reflexivity.
Qed.

(** ** The views of the elements *)

Definition view (a : any) (rc : nat * nat) : scalar :=
  match order a with
  | 0 => Scalar (a_ty a) (a_dims a) (a_n0 a) (a_ptr a)
  | _ => Scalar (a_ty a) (if is_char (a_ty a) then 1 else 0) (if is_char (a_ty a) then width a else 1)
           (place m0 a (fst rc) (snd rc))
  end.

Lemma view_at a r c : s_at (view a (r, c)) = place m0 a r c.
Proof. unfold view, place. destruct (order a); reflexivity. Qed.

Lemma view_ty a rc : s_ty (view a rc) = a_ty a.
Proof. unfold view. destruct (order a); reflexivity. Qed.

Lemma view_spans a rc : laid_out m0 a -> spans (view a rc) (width a).
Proof.
  intros L. pose proof (lo_scalar _ _ L) as L0. unfold spans. rewrite view_ty.
  destruct (a_ty a) eqn:Et; unfold width; rewrite Et; try reflexivity.
  unfold view, order. rewrite Et. destruct (a_dims a) as [|[|[|k]]] eqn:Ed; cbn [s_n0 s_dims is_char];
    unfold width; rewrite ?Et, ?Ed; try (split; [auto|intros; try lia; auto]).
Qed.

Definition convert_cell (rc : nat * nat) (m : list Z) : option (bool * list Z) :=
  scalar_convert number text m (view d rc) (view s rc).

Lemma cell_ok m r c : agrees m -> r < rows d -> c < cols d ->
  exists ok new, convert_cell (r, c) m = Some (ok, put m (place m0 d r c) new) /\
    length new = width d /\ bytes new /\
    good_element number text (a_ty d) (a_ty s) (slice m0 (place m0 s r c) (width s))
      (slice m (place m0 d r c) (width d)) ok new.
Proof.
  intros A Hr Hc. pose proof (lo_places _ _ Ld r c Hr Hc) as Pd.
  assert (Ps : place m0 s r c + width s <= length m0) by (apply (lo_places _ _ Ls); lia).
  assert (E : slice m (place m0 s r c) (width s) = slice m0 (place m0 s r c) (width s)).
  { apply agrees_slice; auto. intros r' c' Hr' Hc'. apply (se_source _ _ _ Sep); auto; lia. }
  assert (Am := A). destruct Am as (L & B & _).
  pose proof (scalar_ok number text Fair m (view d (r, c)) (view s (r, c)) (width d) (width s) B) as H.
  rewrite !view_ty, !view_at, E in H.
  apply H; try (apply view_spans; assumption).
  - apply (lo_type _ _ Ld).
  - apply (lo_type _ _ Ls).
  - apply (lo_width _ _ Ld).
  - apply (lo_width _ _ Ls).
  - rewrite L. exact Pd.
  - rewrite L. exact Ps.
  - intros Es Ed. pose proof Rd as R. unfold readable in R. rewrite Es, Ed in R. exact R.
  - intros Es Ed. pose proof Rd as R. unfold readable in R. rewrite Es in R.
    destruct (a_ty d); [| | |congruence]; apply R; lia.
Qed.

Lemma cell_keep x m ok m' : In x cells -> agrees m -> convert_cell x m = Some (ok, m') -> agrees m'.
Proof.
  destruct x as [r c]. intros Hx A. apply in_cells in Hx.
  destruct (cell_ok m r c A (proj1 Hx) (proj2 Hx)) as (ok1 & new & -> & Ln & Bn & _).
  intros E. injection E as _ <-. apply agrees_put; tauto.
Qed.

Lemma cells_ok l : forall m, NoDup l -> incl l cells -> agrees m ->
  (forall r c, In (r, c) l -> slice m (place m0 d r c) (width d) = slice m0 (place m0 d r c) (width d)) ->
  exists okf m', loop convert_cell l m = Some (forallb okf l, m') /\ agrees m' /\
    (forall r c, In (r, c) cells -> ~ In (r, c) l ->
       slice m' (place m0 d r c) (width d) = slice m (place m0 d r c) (width d)) /\
    (forall r c, In (r, c) l ->
       good_element number text (a_ty d) (a_ty s) (slice m0 (place m0 s r c) (width s))
         (slice m0 (place m0 d r c) (width d)) (okf (r, c)) (slice m' (place m0 d r c) (width d))).
Proof.
  induction l as [|[r c] l IH]; intros m Nd I A F.
  - exists (fun _ => true), m. split; [reflexivity|]. split; [exact A|]. split; [reflexivity|intros r c []].
  - inversion Nd as [|x l' Nx Nl]; subst.
    assert (Hrc : r < rows d /\ c < cols d) by (apply in_cells, I; left; reflexivity).
    destruct Hrc as [Hr Hc].
    destruct (cell_ok m r c A Hr Hc) as (ok & new & Ecell & Ln & Bn & Good).
    rewrite (F r c) in Good by (left; reflexivity).
    pose proof (lo_places _ _ Ld r c Hr Hc) as P.
    assert (Lm : length m = length m0) by apply A.
    assert (Other : forall r' c', In (r', c') cells -> (r', c') <> (r, c) ->
      slice (put m (place m0 d r c) new) (place m0 d r' c') (width d) = slice m (place m0 d r' c') (width d)).
    { intros r' c' H' N'. apply in_cells in H'. destruct H' as [Hr' Hc'].
      pose proof (lo_places _ _ Ld r' c' Hr' Hc') as P'.
      pose proof (se_elements _ _ _ Sep r' c' r c Hr' Hc' Hr Hc N') as Ap. unfold apart in Ap.
      apply slice_ext; [lia|rewrite put_length; lia|]. intros i Hi. rewrite put_nth by lia.
      destruct ((place m0 d r c <=? i) && (i <? place m0 d r c + length new)) eqn:E; [|reflexivity].
      apply andb_true_iff in E. destruct E as [E1 E2]. apply Nat.leb_le in E1. apply Nat.ltb_lt in E2. lia. }
    destruct (IH (put m (place m0 d r c) new) Nl) as (okf & m' & El & A' & Keep & Done).
    + intros y Hy. apply I. right. exact Hy.
    + apply agrees_put; auto.
    + intros r' c' H'. rewrite Other; [apply F; right; exact H'|apply I; right; exact H'|].
      intros E. rewrite E in H'. contradiction.
    + assert (Dec : forall x y : nat * nat, {x = y} + {x <> y}) by (decide equality; apply Nat.eq_dec).
      exists (fun x => if Dec x (r, c) then ok else okf x), m'.
      split; [|split; [exact A'|split]].
      * cbn [loop]. rewrite Ecell, El. cbn [forallb]. destruct (Dec (r, c) (r, c)) as [_|N]; [|congruence].
        do 3 f_equal. clear - Nx. induction l as [|y l IHl]; [reflexivity|]. cbn [forallb].
        destruct (Dec y (r, c)) as [E|N]; [exfalso; apply Nx; left; exact E|].
        f_equal. apply IHl. intros H. apply Nx. right. exact H.
      * intros r' c' H' N'. rewrite Keep; [|exact H'|intros Q; apply N'; right; exact Q].
        apply Other; [exact H'|]. intros E. apply N'. left. symmetry. exact E.
      * intros r' c' H'. destruct (Dec (r', c') (r, c)) as [E|N].
        -- injection E as -> ->. rewrite Keep; [|apply in_cells; auto|exact Nx].
           assert (Hs : slice (put m (place m0 d r c) new) (place m0 d r c) (width d) = new)
             by (rewrite <- Ln; apply slice_put; lia).
           rewrite Hs. exact Good.
        -- destruct H' as [E|H']; [symmetry in E; contradiction|]. apply Done. exact H'.
Qed.

(** ** The loops of the code are loops over the elements *)

(** An element of a vector or of a row. *)
Lemma element_view m a k1 k2 stc p w n idx :
  laid_out m0 a -> w = width a -> (Z.of_nat (n * w) < 2 ^ 32)%Z -> (Z.of_nat n < 2 ^ 32)%Z -> idx < n ->
  k1 = (if is_char (a_ty a) then w else n) -> k2 = (if is_char (a_ty a) then n else 1) ->
  (is_char (a_ty a) = true -> stc = false -> pointer_at m (p + 8 * idx) = Some (pointer m0 (p + 8 * idx))) ->
  forall x cst k3, element m (Any (a_ty a) cst x k1 k2 k3 stc p) idx =
    Some (Scalar (a_ty a) (if is_char (a_ty a) then 1 else 0) (if is_char (a_ty a) then w else 1)
      (if is_char (a_ty a) && negb stc then pointer m0 (p + 8 * idx) else p + idx * w)).
Proof.
  intros L Ew Hn Hn1 Hi E1 E2 T x cst k3. unfold element. cbn [a_ty a_static a_n0 a_ptr].
  assert (Hw : (Z.of_nat (idx * w) < 2 ^ 32)%Z) by (assert (idx * w <= n * w) by (apply Nat.mul_le_mono_r; lia); lia).
  destruct (is_char (a_ty a)) eqn:Ech.
  - destruct (a_ty a) eqn:Et; try discriminate Ech. destruct stc.
    + cbn [andb negb byte_size]. rewrite E1. rewrite Nat.mul_1_r. rewrite (u32_id idx) by lia.
      rewrite u32_id by lia. reflexivity.
    + rewrite T by reflexivity. rewrite E1. reflexivity.
  - cbn [andb]. assert (Eb : byte_size (a_ty a) = w)
      by (rewrite Ew; unfold width; destruct (a_ty a); try reflexivity; discriminate Ech).
    rewrite Eb, u32_id by lia. reflexivity.
Qed.

Lemma vector_element a m c : a = d \/ a = s -> order a = 1 -> agrees m -> c < cols a ->
  element m a c = Some (view a (0, c)).
Proof.
  intros Ha O A Hc. assert (L : laid_out m0 a) by (destruct Ha as [->| ->]; assumption).
  pose proof (lo_small _ _ L) as H1. pose proof (lo_rows _ _ L) as H2.
  assert (R1 : rows a = 1) by (unfold rows; rewrite O; reflexivity). rewrite R1, Nat.mul_1_l in H1, H2.
  assert (Nx : is_char (a_ty a) = true -> width a = a_n0 a).
  { intros Ech. unfold width. unfold order in O. destruct (a_ty a); try discriminate Ech.
    destruct (a_dims a) as [|[|[|k]]]; try discriminate O. reflexivity. }
  assert (Cx : cols a = if is_char (a_ty a) then a_n1 a else a_n0 a) by (unfold cols; rewrite O; reflexivity).
  unfold view, place. rewrite O. cbn [fst snd].
  unfold element. destruct (is_char (a_ty a)) eqn:Ech.
  - destruct (a_ty a) eqn:Et; try discriminate Ech. rewrite (Nx eq_refl). destruct (a_static a) eqn:Es.
    + cbn [andb negb byte_size]. rewrite Nat.mul_1_r. rewrite (u32_id c) by lia.
      rewrite (Nx eq_refl) in H1.
      assert (c * a_n0 a <= cols a * a_n0 a) by (apply Nat.mul_le_mono_r; lia).
      rewrite u32_id by lia. reflexivity.
    + cbn [andb negb]. rewrite (agrees_pointer m) by
        (auto; assert (In (a_ptr a + 8 * c) (tables m0 a)) by
           (unfold tables; rewrite O, Et, Es; cbn [is_char andb negb];
            apply in_map_iff; exists c; split; [reflexivity|apply in_seq; lia]);
         destruct Ha as [->| ->]; auto). reflexivity.
  - cbn [andb]. assert (Eb : byte_size (a_ty a) = width a)
      by (unfold width; destruct (a_ty a); try reflexivity; discriminate Ech).
    assert (c * width a <= cols a * width a) by (apply Nat.mul_le_mono_r; lia).
    rewrite Eb, u32_id by lia. reflexivity.
Qed.

Lemma vector_eq : order s = 1 -> forall m, agrees m ->
  vector_convert number text m d s = loop convert_cell cells m.
Proof.
  intros O m A. unfold cells. rewrite <- loop_flat.
  assert (R1 : rows d = 1) by (unfold rows; rewrite Eo, O; reflexivity). rewrite R1. cbn [seq loop].
  unfold vector_convert.
  replace (if is_char (a_ty s) then a_n1 s else a_n0 s) with (cols d) by (rewrite Ec; unfold cols; rewrite O; reflexivity).
  rewrite (loop_ext agrees _ (fun c => convert_cell (0, c))); auto.
  - destruct (loop _ _ _) as [[ok m1]|]; [|reflexivity]. rewrite andb_true_r. reflexivity.
  - intros c m1 Hc Am. apply in_seq in Hc. unfold convert_element.
    rewrite !vector_element by (auto; try congruence; lia). reflexivity.
  - intros c m1 ok m2 Hc Am E. apply in_seq in Hc. eapply cell_keep; [|exact Am|exact E]. apply in_cells. lia.
Qed.

(** The rows of a matrix. *)
Definition row_view (a : any) (r : nat) : any :=
  row a (cols a) (a_static a)
    (if a_static a then a_ptr a + r * cols a * width a else pointer m0 (a_ptr a + 8 * r)).

Lemma row_element a m r c : a = d \/ a = s -> order a = 2 -> agrees m -> r < rows a -> c < cols a ->
  element m (row_view a r) c = Some (view a (r, c)).
Proof.
  intros Ha O A Hr Hc. assert (L : laid_out m0 a) by (destruct Ha as [->| ->]; assumption).
  pose proof (lo_small _ _ L) as H1. pose proof (lo_rows _ _ L) as H2.
  assert (Hw : (Z.of_nat (cols a * width a) < 2 ^ 32)%Z).
  { assert (1 * (cols a * width a) <= rows a * (cols a * width a)) by (apply Nat.mul_le_mono_r; lia).
    rewrite <- Nat.mul_assoc in H1. lia. }
  assert (Hn : (Z.of_nat (cols a) < 2 ^ 32)%Z).
  { assert (1 * cols a <= rows a * cols a) by (apply Nat.mul_le_mono_r; lia). lia. }
  assert (Nx : is_char (a_ty a) = true -> width a = a_n2 a).
  { intros Ech. unfold width. unfold order in O. destruct (a_ty a); try discriminate Ech.
    destruct (a_dims a) as [|[|[|k]]]; try discriminate O. reflexivity. }
  unfold row_view, row.
  assert (G : element m (Any (a_ty a) false 1 (if is_char (a_ty a) then width a else cols a)
      (if is_char (a_ty a) then cols a else 1) 1 (a_static a)
      (if a_static a then a_ptr a + r * cols a * width a else pointer m0 (a_ptr a + 8 * r))) c = Some (view a (r, c))).
  { rewrite (element_view m a _ _ _ _ (width a) (cols a) c L eq_refl Hw Hn Hc eq_refl eq_refl).
    - unfold view, place. rewrite O. cbn [fst snd]. destruct (a_static a); cbn [negb andb].
      + rewrite andb_false_r. do 2 f_equal. rewrite Nat.mul_add_distr_r. lia.
      + rewrite andb_true_r. reflexivity.
    - intros Ech Es. rewrite Es. apply agrees_pointer; [exact A|].
      assert (In (pointer m0 (a_ptr a + 8 * r) + 8 * c) (tables m0 a)).
      { unfold tables. rewrite O, Es, Ech. apply in_or_app. right. apply in_flat_map. exists r.
        split; [apply in_seq; lia|]. apply in_map_iff. exists c. split; [reflexivity|apply in_seq; lia]. }
      destruct Ha as [->| ->]; auto. }
  destruct (is_char (a_ty a)) eqn:Ech; [rewrite <- (Nx eq_refl)|]; exact G.
Qed.

Lemma static_row_view a r : laid_out m0 a -> order a = 2 -> a_static a = true -> r < rows a ->
  static_row a (cols a) r = row_view a r.
Proof.
  intros L O Es Hr. unfold static_row, row_view. rewrite Es. do 2 f_equal.
  pose proof (lo_small _ _ L) as H1. pose proof (lo_rows _ _ L) as H2. pose proof (lo_width _ _ L) as H3.
  assert (Sz : (if is_char (a_ty a) then u32 (byte_size (a_ty a) * a_n2 a) else byte_size (a_ty a)) = width a).
  { revert H3. unfold width. unfold order in O. destruct (a_ty a); try reflexivity.
    destruct (a_dims a) as [|[|[|k]]]; try discriminate O. cbn [is_char byte_size]. intros H3.
    rewrite Nat.mul_1_l. apply u32_id. exact H3. }
  rewrite Sz.
  assert (r * cols a <= rows a * cols a) by (apply Nat.mul_le_mono_r; lia).
  assert (r * cols a * width a <= rows a * cols a * width a) by (apply Nat.mul_le_mono_r; lia).
  rewrite (u32_id (r * cols a)) by lia. rewrite u32_id by lia. reflexivity.
Qed.

Lemma heap_row_view a m r : a = d \/ a = s -> order a = 2 -> agrees m -> a_static a = false -> r < rows a ->
  heap_row m a (cols a) r = Some (row_view a r).
Proof.
  intros Ha O A Es Hr. unfold heap_row, row_view. rewrite Es.
  rewrite (agrees_pointer m); [reflexivity|exact A|].
  assert (In (a_ptr a + 8 * r) (tables m0 a)).
  { unfold tables. rewrite O, Es. apply in_or_app. left. apply in_map_iff. exists r.
    split; [reflexivity|apply in_seq; lia]. }
  destruct Ha as [->| ->]; auto.
Qed.

Lemma matrix_eq : order s = 2 -> ~ (a_ty d = TChar /\ a_static d = true /\ a_static s = false) ->
  forall m, agrees m -> matrix_convert number text m d s = loop convert_cell cells m.
Proof.
  intros O Nb m A. assert (Od : order d = 2) by congruence.
  unfold cells. rewrite <- loop_flat. unfold matrix_convert.
  assert (Cd : a_n0 d = cols d) by (unfold cols; rewrite Od; reflexivity).
  assert (Rw : a_n1 d = rows d) by (unfold rows; rewrite Od; reflexivity).
  rewrite Cd, Rw. apply (loop_ext agrees).
  - intros r m1 Hr Am. apply in_seq in Hr.
    assert (Es : source_row m1 s (cols d) r = Some (row_view s r)).
    { unfold source_row. rewrite Ec. destruct (a_static s) eqn:Es; [f_equal; apply static_row_view|apply heap_row_view];
        auto; lia. }
    assert (Ed : destination_row m1 d s (cols d) r = Some (row_view d r)).
    { unfold destination_row. destruct (a_static d) eqn:Ed; [f_equal|apply heap_row_view; auto; lia].
      destruct (a_static s) eqn:Es2; [apply static_row_view; auto; lia|].
      rewrite <- static_row_view by (auto; lia). unfold plain_row, static_row, row.
      destruct (a_ty d) eqn:Et; try reflexivity. exfalso. apply Nb. auto. }
    rewrite Es, Ed. unfold vector_convert.
    replace (if is_char (a_ty (row_view s r)) then a_n1 (row_view s r) else a_n0 (row_view s r)) with (cols d)
      by (rewrite Ec; unfold row_view, row; destruct (is_char (a_ty s)) eqn:Ech; cbn [a_ty a_n0 a_n1]; rewrite Ech; reflexivity).
    apply (loop_ext agrees); [| |exact Am].
    + intros c m2 Hc Am2. apply in_seq in Hc. unfold convert_element.
      rewrite !row_element by (auto; lia). reflexivity.
    + intros c m2 ok m3 Hc Am2 E. apply in_seq in Hc. eapply cell_keep; [|exact Am2|exact E]. apply in_cells. lia.
  - intros r m1 ok m2 Hr Am E. apply in_seq in Hr. revert E. apply (loop_keep agrees); [|exact Am].
    intros c m3 ok3 m4 Hc Am2 E. apply in_seq in Hc. eapply cell_keep; [|exact Am2|exact E]. apply in_cells. lia.
  - exact A.
Qed.

End All.

Lemma outer_order a : outer_dims a = order a.
Proof. unfold outer_dims, order. destruct (a_ty a), (a_dims a); try reflexivity. cbn [is_char andb]. cbn. lia. Qed.

Lemma same_elements_spec d s : order d = order s -> order d <= 2 ->
  (same_elements d s = true <-> rows d = rows s /\ cols d = cols s).
Proof.
  intros Eo Le. unfold same_elements. rewrite !outer_order, <- Eo.
  unfold rows, cols. rewrite <- Eo. destruct (order d) as [|[|[|k]]]; [| | |lia].
  - cbn. split; auto.
  - cbn [seq forallb]. change (1 =? 1) with true. rewrite andb_true_r, andb_true_r. cbn [a_n plus].
    rewrite Nat.eqb_eq. destruct (is_char (a_ty d)), (is_char (a_ty s)); tauto.
  - cbn [seq forallb]. change (2 =? 1) with false. rewrite andb_true_r, !andb_false_r. cbn [a_n].
    rewrite andb_true_iff, !Nat.eqb_eq. destruct (is_char (a_ty d)), (is_char (a_ty s)); tauto.
Qed.

Section Main.

Variable number : ty -> ty -> list Z -> bool * list Z.
Variable text : ty -> list Z -> option (list Z).
Hypothesis Fair : fair number text.

Theorem convert_ok m d s :
  bytes m -> laid_out m d -> laid_out m s -> separate m d s -> readable m d s ->
  a_const d = false -> order d = order s -> rows d = rows s -> cols d = cols s ->
  ~ (order d = 2 /\ a_ty d = TChar /\ a_static d = true /\ a_static s = false) ->
  exists okf m', type_convert number text m d s = Some (forallb okf (cells d), m') /\ agrees m d m' /\
    (forall r c, r < rows d -> c < cols d ->
       good_element number text (a_ty d) (a_ty s) (slice m (place m s r c) (width s))
         (slice m (place m d r c) (width d)) (okf (r, c)) (slice m' (place m d r c) (width d))).
Proof.
  intros B Ld Ls Sep Rd Cd Eo Er Ec Nb.
  pose proof (lo_order _ _ Ld) as Od.
  assert (Am : agrees m d m) by (apply agrees_refl; assumption).
  destruct (cells_ok number text Fair m d s Ld Ls Sep Rd Eo Er Ec (cells d) m) as (okf & m' & El & A' & _ & Done); auto.
  { unfold cells. apply nodup_prod; apply seq_NoDup. }
  { apply incl_refl. }
  exists okf, m'. split; [|split; [exact A'|]].
  - rewrite <- El. unfold type_convert. rewrite Cd, !outer_order, Eo, Nat.eqb_refl. cbn [negb].
    rewrite (proj2 (same_elements_spec d s Eo Od)) by auto. cbn [negb].
    rewrite Eo in Od, Nb. destruct (order s) as [|[|[|k]]] eqn:Os; [| | |lia].
    + unfold cells. replace (rows d) with 1 by (unfold rows; rewrite Eo; reflexivity).
      replace (cols d) with 1 by (unfold cols; rewrite Eo; reflexivity).
      cbn [seq list_prod map app loop]. unfold convert_cell, view. rewrite Eo, Os.
      destruct (scalar_convert _ _ _ _ _) as [[ok m1]|]; [|reflexivity]. rewrite andb_true_r. reflexivity.
    + apply vector_eq; auto; congruence.
    + apply matrix_eq; auto; try congruence.
  - intros r c Hr Hc. apply Done. unfold cells. apply in_prod; apply in_seq; lia.
Qed.

Theorem convert_refused m d s :
  order d <= 2 -> a_const d = true \/ order d <> order s \/ rows d <> rows s \/ cols d <> cols s ->
  type_convert number text m d s = Some (false, m).
Proof.
  intros Od H. unfold type_convert. destruct (a_const d); [reflexivity|]. rewrite !outer_order.
  destruct (order d =? order s) eqn:E; cbn [negb]; [|reflexivity]. apply Nat.eqb_eq in E.
  destruct (same_elements d s) eqn:E2; cbn [negb]; [|reflexivity].
  apply (same_elements_spec d s E Od) in E2. destruct H as [H|[H|[H|H]]]; [discriminate|tauto|tauto|tauto].
Qed.

End Main.
