(** Proofs about integer printing and parsing. *)
From Verif Require Import Base IntText_Model IntText_Spec.

Ltac Zify.zify_post_hook ::= Z.to_euclidean_division_equations.

Ltac std t H := destruct t as [?b ?s]; unfold std_ty in H; cbn [ibits isgn] in *;
  destruct H as [->|[->|[->| ->]]].

(** ** Positional values *)

Lemma fold_value_acc base s a :
  fold_left (fun acc c => acc * base + digit_val c) s a = a * base ^ Z.of_nat (length s) + value base s.
Proof.
  unfold value. revert a. induction s as [|c s IH]; intros a; cbn [fold_left length].
  - cbn. lia.
  - rewrite (IH (a * base + digit_val c)), (IH (0 * base + digit_val c)).
    rewrite Nat2Z.inj_succ, Z.pow_succ_r by lia. ring.
Qed.

Lemma value_cons base c s : value base (c :: s) = digit_val c * base ^ Z.of_nat (length s) + value base s.
Proof. unfold value at 1. cbn [fold_left]. rewrite fold_value_acc. ring. Qed.

Lemma value_app base a b : value base (a ++ b) = value base a * base ^ Z.of_nat (length b) + value base b.
Proof. unfold value at 1. rewrite fold_left_app. rewrite fold_value_acc. reflexivity. Qed.

Lemma value_snoc base a c : value base (a ++ [c]) = value base a * base + digit_val c.
Proof. unfold value. rewrite fold_left_app. reflexivity. Qed.

Lemma value_bound base s : 1 <= base -> Forall (is_digit base) s -> 0 <= value base s < base ^ Z.of_nat (length s).
Proof.
  intros Hb H. induction H as [|c s Hc H IH].
  - unfold value; cbn. lia.
  - rewrite value_cons. cbn [length]. rewrite Nat2Z.inj_succ, Z.pow_succ_r by lia.
    unfold is_digit in Hc. nia.
Qed.

Lemma value_zeros base n : value base (repeat 48 n) = 0.
Proof.
  induction n as [|n IH]; [reflexivity|]. cbn [repeat]. rewrite value_cons, IH. cbn. lia.
Qed.

Lemma zeros_digits base n : 1 <= base -> Forall (is_digit base) (repeat 48 n).
Proof. intros H. apply Forall_forall. intros x Hx. apply repeat_spec in Hx. subst. unfold is_digit, digit_val. cbn. lia. Qed.

Lemma digit_val_0 : digit_val 48 = 0. Proof. reflexivity. Qed.

Lemma digit_val_dec d : 0 <= d <= 9 -> digit_val (48 + d) = d.
Proof. intros H. unfold digit_val. destruct ((48 <=? 48 + d) && (48 + d <=? 57)) eqn:E; lia. Qed.

Lemma digit_char_val d : 0 <= d < 36 -> digit_val (digit_char d) = d.
Proof.
  intros H. unfold digit_char, ch_0, ch_A, digit_val.
  destruct (d <? 10) eqn:E.
  - destruct ((48 <=? 48 + d) && (48 + d <=? 57)) eqn:E1; lia.
  - destruct ((48 <=? 65 + d - 10) && (65 + d - 10 <=? 57)) eqn:E1; [lia|].
    destruct ((65 <=? 65 + d - 10) && (65 + d - 10 <=? 90)) eqn:E2; lia.
Qed.

(** ** Small decimal printing *)

(* the do-while loop with [room] cells prints n canonically whenever n < 10^room *)
Lemma n2s_digits_spec room n acc :
  0 <= n < 10 ^ Z.of_nat room -> (0 < room)%nat ->
  exists ds, n2s_digits room n acc = Some (ds ++ acc) /\ canonical 10 ds n /\ (length ds <= room)%nat.
Proof.
  revert n acc. induction room as [|r IH]; intros n acc Hn Hr; [lia|].
  cbn [n2s_digits]. rewrite Nat2Z.inj_succ, Z.pow_succ_r in Hn by lia.
  assert (Hd : 0 <= Z.rem n 10 <= 9) by lia.
  destruct (Z.quot n 10 >? 0) eqn:E.
  - assert (Hr' : (0 < r)%nat). { destruct r; [cbn in Hn; lia|lia]. }
    destruct (IH (Z.quot n 10) ((ch_0 + Z.rem n 10) :: acc)) as (ds & E1 & ((F & V) & N & Hz) & L); [lia|lia|].
    exists (ds ++ [ch_0 + Z.rem n 10]). split; [rewrite E1, <- app_assoc; reflexivity|].
    split; [|rewrite app_length; cbn; lia].
    split; [split|split].
    + apply Forall_app; split; [exact F|]. constructor; [|constructor].
      unfold is_digit, ch_0. rewrite digit_val_dec; lia.
    + rewrite value_snoc, V. unfold ch_0. rewrite digit_val_dec by lia. lia.
    + destruct ds; discriminate.
    + destruct ds as [|c ds]; [congruence|]. cbn in Hz |- *. intros ->.
      specialize (Hz eq_refl). injection Hz as ->. cbn in V. unfold value in V; cbn in V. lia.
  - exists [ch_0 + Z.rem n 10]. split; [reflexivity|]. split; [|cbn; lia].
    split; [split|split].
    + constructor; [|constructor]. unfold is_digit, ch_0. rewrite digit_val_dec; lia.
    + unfold value; cbn [fold_left]. unfold ch_0. rewrite digit_val_dec by lia. lia.
    + discriminate.
    + cbn. intros H. f_equal. exact H.
Qed.

Lemma canonical_length_le base s n k :
  1 < base -> canonical base s n -> n < base ^ Z.of_nat k -> (1 <= k)%nat -> (length s <= k)%nat.
Proof.
  intros Hb ((F & V) & N & Hz) Hn Hk.
  destruct s as [|c s]; [congruence|]. cbn [hd] in Hz.
  destruct (Z.eq_dec c 48) as [->|Hc]; [rewrite (Hz eq_refl); cbn; lia|].
  inversion F as [|? ? Hd F']; subst.
  rewrite value_cons in Hn.
  pose proof (value_bound base s ltac:(lia) F') as B.
  assert (1 <= digit_val c).
  { unfold is_digit in Hd. destruct (Z.eq_dec (digit_val c) 0) as [E|E]; [|lia].
    exfalso. unfold digit_val in E.
    destruct ((48 <=? c) && (c <=? 57)) eqn:E1; [lia|].
    destruct ((65 <=? c) && (c <=? 90)) eqn:E2; [lia|].
    destruct ((97 <=? c) && (c <=? 122)) eqn:E3; lia. }
  cbn [length]. destruct (Nat.le_gt_cases (S (length s)) k) as [|G]; [assumption|exfalso].
  assert (base ^ Z.of_nat k <= base ^ Z.of_nat (length s)) by (apply Z.pow_le_mono_r; lia).
  nia.
Qed.

Lemma canonical_length_ge base s n k :
  1 < base -> canonical base s n -> base ^ Z.of_nat k <= n -> (k < length s)%nat.
Proof.
  intros Hb ((F & V) & N & Hz) Hn.
  pose proof (value_bound base s ltac:(lia) F) as B. rewrite V in B.
  destruct (Nat.lt_ge_cases k (length s)) as [|G]; [assumption|exfalso].
  assert (base ^ Z.of_nat (length s) <= base ^ Z.of_nat k) by (apply Z.pow_le_mono_r; lia). lia.
Qed.

Lemma n2s_small_canonical n fill :
  0 <= n < 65536 -> fill <= 0 -> exists ds, n2s_small n fill = Some ds /\ canonical 10 ds n.
Proof.
  intros Hn Hf. unfold n2s_small.
  destruct (n2s_digits_spec 5 n []) as (ds & E & C & L); [cbn; lia|lia|].
  rewrite E, app_nil_r. exists ds. split; [|exact C].
  destruct (fill <? 0) eqn:E1.
  - replace (0 >? 0) with false by reflexivity. reflexivity.
  - replace (fill >? 0) with false by lia. reflexivity.
Qed.

Definition padded_num (k : Z) (s : list Z) (n : Z) : Prop := numeral 10 s n /\ Z.of_nat (length s) = k.

Lemma n2s_small_padded n : 0 <= n < 10000 -> exists ds, n2s_small n 4 = Some ds /\ padded_num 4 ds n.
Proof.
  intros Hn. unfold n2s_small.
  destruct (n2s_digits_spec 5 n []) as (ds & E & C & L); [cbn; lia|lia|].
  rewrite E, app_nil_r. cbn -[repeat Z.to_nat Z.sub Z.of_nat].
  pose proof (canonical_length_le 10 ds n 4 ltac:(lia) C ltac:(cbn; lia) ltac:(lia)) as L4.
  destruct C as ((F & V) & _).
  eexists. split; [reflexivity|]. split; [split|].
  - apply Forall_app; split; [apply zeros_digits; lia|exact F].
  - rewrite value_app, value_zeros. lia.
  - rewrite app_length, repeat_length. lia.
Qed.

Lemma uwrap16_id z : 0 <= z < 65536 -> uwrap 16 z = z.
Proof. intros; apply uwrap_id. change (2 ^ 16) with 65536. lia. Qed.

(** chain k = [(10^(4k),4k); ...; (10^4,4)] *)
Fixpoint chain (k : nat) : list (Z * Z) :=
  match k with O => [] | S m => (10 ^ (4 * Z.of_nat k), 4 * Z.of_nat k) :: chain m end.

Lemma pow4_succ k : 10 ^ (4 * Z.of_nat (S k)) = 10000 * 10 ^ (4 * Z.of_nat k).
Proof.
  replace (4 * Z.of_nat (S k)) with (4 + 4 * Z.of_nat k) by lia.
  rewrite Z.pow_add_r by lia. reflexivity.
Qed.

Ltac Zify.zify_post_hook ::= idtac.

Lemma n2s_big_padded k n :
  0 <= n < 10 ^ (4 * Z.of_nat (S k)) ->
  exists ds, n2s_big (chain k) n (4 * Z.of_nat (S k)) = Some ds /\ padded_num (4 * Z.of_nat (S k)) ds n.
Proof.
  revert n. induction k as [|k IH]; intros n Hn.
  - cbn -[n2s_small uwrap]. change (10 ^ (4 * Z.of_nat 1)) with 10000 in Hn.
    rewrite uwrap16_id by (clear -Hq || clear -Hn; lia). apply n2s_small_padded; lia.
  - cbn [chain n2s_big].
    replace (4 * Z.of_nat (S (S k)) >? 4 * Z.of_nat (S k)) with true by lia.
    rewrite orb_true_r.
    rewrite pow4_succ in Hn. set (T := 10 ^ (4 * Z.of_nat (S k))) in *.
    assert (HT : 0 < T) by (apply Z.pow_pos_nonneg; lia).
    assert (Hq : 0 <= Z.quot n T < 10000).
    { rewrite Z.quot_div_nonneg by lia. split; [apply Z.div_pos; lia|apply Z.div_lt_upper_bound; lia]. }
    assert (Hr : 0 <= Z.rem n T < T) by (apply Z.rem_bound_pos; lia).
    rewrite uwrap16_id by (clear -Hq || clear -Hn; lia).
    replace (4 * Z.of_nat (S (S k)) - 4 * Z.of_nat (S k)) with 4 by lia.
    destruct (n2s_small_padded (Z.quot n T) Hq) as (d1 & E1 & (F1 & V1) & L1). rewrite E1.
    destruct (IH (Z.rem n T) Hr) as (d2 & E2 & (F2 & V2) & L2). rewrite E2.
    exists (d1 ++ d2). split; [reflexivity|]. split; [split|].
    + apply Forall_app; auto.
    + rewrite value_app, L2, V1, V2. fold T. pose proof (Z.quot_rem' n T). lia.
    + rewrite app_length. lia.
Qed.

Lemma n2s_big_canonical k n :
  0 <= n < 10 ^ (4 * Z.of_nat k) * 60000 ->
  exists ds, n2s_big (chain k) n 0 = Some ds /\ canonical 10 ds n.
Proof.
  revert n. induction k as [|k IH]; intros n Hn.
  - cbn -[n2s_small uwrap]. change (10 ^ (4 * Z.of_nat 0)) with 1 in Hn.
    rewrite uwrap16_id by (clear -Hq || clear -Hn; lia). apply n2s_small_canonical; lia.
  - cbn [chain n2s_big].
    replace (0 >? 4 * Z.of_nat (S k)) with false by lia. rewrite orb_false_r.
    set (T := 10 ^ (4 * Z.of_nat (S k))) in *.
    assert (HT : 0 < T) by (apply Z.pow_pos_nonneg; lia).
    destruct (n >? T) eqn:E.
    + assert (Hq : 1 <= Z.quot n T < 60000).
      { rewrite Z.quot_div_nonneg by lia. split; [apply Z.div_le_lower_bound; lia|apply Z.div_lt_upper_bound; lia]. }
      assert (Hr : 0 <= Z.rem n T < T) by (apply Z.rem_bound_pos; lia).
      rewrite uwrap16_id by (clear -Hq || clear -Hn; lia).
      destruct (n2s_small_canonical (Z.quot n T) (0 - 4 * Z.of_nat (S k))) as (d1 & E1 & C1); [lia|lia|]. rewrite E1.
      destruct (n2s_big_padded k (Z.rem n T) Hr) as (d2 & E2 & (F2 & V2) & L2). rewrite E2.
      exists (d1 ++ d2). split; [reflexivity|].
      destruct C1 as ((F1 & V1) & N1 & Hz).
      split; [split|split].
      * apply Forall_app; auto.
      * rewrite value_app, L2, V1, V2. fold T. pose proof (Z.quot_rem' n T). lia.
      * destruct d1; [congruence|discriminate].
      * destruct d1 as [|c d1]; [congruence|]. cbn in Hz |- *. intros ->. exfalso.
        specialize (Hz eq_refl). injection Hz as ->. change (value 10 [48]) with 0 in V1. lia.
    + apply IH. unfold T in *. clear T. rewrite pow4_succ in E, HT. apply Z.gtb_ltb in E || rewrite Z.gtb_ltb in E.
      apply Z.ltb_ge in E. generalize dependent (10 ^ (4 * Z.of_nat k)). intros X. lia.
Qed.

Ltac Zify.zify_post_hook ::= Z.to_euclidean_division_equations.

Lemma number2stream_canonical t n :
  std_ty t -> 0 <= n <= imax t -> exists ds, number2stream_decimal t n = Some ds /\ canonical 10 ds n.
Proof.
  intros Ht Hn. unfold number2stream_decimal, sizeofT, imax in *. std t Ht.
  - replace (8 / 8 =? 8) with false by reflexivity. replace (8 / 8 =? 4) with false by reflexivity.
    apply n2s_small_canonical; [destruct s; cbn in Hn; lia|lia].
  - replace (16 / 8 =? 8) with false by reflexivity. replace (16 / 8 =? 4) with false by reflexivity.
    apply n2s_small_canonical; [destruct s; cbn in Hn; lia|lia].
  - replace (32 / 8 =? 8) with false by reflexivity. replace (32 / 8 =? 4) with true by reflexivity.
    change [(100000000, 8); (10000, 4)] with (chain 2). apply n2s_big_canonical.
    change (10 ^ (4 * Z.of_nat 2)) with 100000000. destruct s; cbn in Hn; lia.
  - replace (64 / 8 =? 8) with true by reflexivity.
    change [(10000000000000000, 16); (1000000000000, 12); (100000000, 8); (10000, 4)] with (chain 4).
    apply n2s_big_canonical.
    change (10 ^ (4 * Z.of_nat 4)) with 10000000000000000. destruct s; cbn in Hn; lia.
Qed.

(** ** Order of magnitude = number of digits - 1 *)

Ltac Zify.zify_post_hook ::= idtac.

Ltac closed_cast :=
  match goal with
  | |- context [cast ?t ?x] =>
    let v := eval vm_compute in (cast t x) in
    match v with
    | Z0 => idtac | Zpos _ => idtac | Zneg _ => idtac
    end;
    change (cast t x) with v
  end.

Ltac gom_go :=
  repeat (first
    [ progress (cbn beta iota zeta)
    | closed_cast
    | match goal with
      | |- context [?n >=? ?v] => is_var n; destruct (Z.geb_spec n v)
      | |- context [?a >? ?b] => let v := eval vm_compute in (a >? b) in change (a >? b) with v
      | |- context [?a >=? ?b] => let v := eval vm_compute in (a >=? b) in
           match v with true => idtac | false => idtac end; change (a >=? b) with v
      end ]).

Ltac closed_pows :=
  repeat match goal with
  | |- context [10 ^ ?x] =>
    let v := eval vm_compute in (10 ^ x) in
    match v with Z0 => idtac | Zpos _ => idtac | Zneg _ => idtac end;
    change (10 ^ x) with v
  end.

Lemma order_of_magnitude_spec t n :
  std_ty t -> 0 <= n <= imax t ->
  let m := get_order_of_magnitude t n in
  0 <= m <= 19 /\ n < 10 ^ (m + 1) /\ (10 ^ m <= n \/ m = 0).
Proof.
  intros Ht Hn. unfold imax in Hn. std t Ht; destruct s;
    match type of Hn with _ <= _ <= ?x => let v := eval vm_compute in x in change x with v in Hn end;
    cbv zeta; unfold get_order_of_magnitude, gom_step; gom_go; closed_pows; lia.
Qed.

Lemma order_length t n ds :
  std_ty t -> 0 <= n <= imax t -> canonical 10 ds n ->
  Z.of_nat (length ds) = get_order_of_magnitude t n + 1.
Proof.
  intros Ht Hn C. pose proof (order_of_magnitude_spec t n Ht Hn) as H. cbv zeta in H.
  destruct H as (B & U & L). set (m := get_order_of_magnitude t n) in *.
  pose proof (canonical_length_le 10 ds n (Z.to_nat (m + 1)) ltac:(lia) C) as A.
  rewrite Z2Nat.id in A by lia. specialize (A U ltac:(lia)).
  destruct L as [L|L].
  - pose proof (canonical_length_ge 10 ds n (Z.to_nat m) ltac:(lia) C) as G.
    rewrite Z2Nat.id in G by lia. specialize (G L). lia.
  - destruct C as (_ & N & _). destruct ds; [congruence|]. cbn [length] in *. lia.
Qed.

Lemma min_text_canonical t :
  std_ty t -> isgn t = true -> decimal_text (min_text t) (imin t) /\ Z.of_nat (length (min_text t)) = min_text_room t.
Proof.
  intros Ht Hs. std t Ht; subst s; unfold decimal_text; (split; [|reflexivity]); cbv [imin isgn ibits];
    match goal with |- if ?b then _ else _ => let v := eval vm_compute in b in change b with v end; cbv iota;
    
    match goal with |- exists ds, ?m = _ /\ _ => let v := eval vm_compute in (tl m) in exists v end; (split; [vm_compute; reflexivity|]).
  all: split; [split; [repeat (apply Forall_cons || apply Forall_nil); unfold is_digit; cbn; lia|vm_compute; reflexivity]|].
  all: split; [congruence|vm_compute; congruence].
Qed.

Lemma ismin_iff t z : std_ty t -> in_ty t z ->
  (z =? cast t (2 ^ (ibits t - 1))) && (z <? 0) = true <-> (isgn t = true /\ z = imin t).
Proof.
  intros Ht Hz. unfold in_ty, imin, imax in *. std t Ht; destruct s;
    repeat match goal with
    | |- context [cast ?t ?x] => let v := eval vm_compute in (cast t x) in change (cast t x) with v
    end; cbn in *; lia.
Qed.

Lemma std_pos t : std_ty t -> 0 < ibits t.
Proof. unfold std_ty; lia. Qed.

Lemma neg_in_range t z : std_ty t -> in_ty t z -> z < 0 -> ~ (isgn t = true /\ z = imin t) ->
  cast t (- z) = - z /\ 0 <= - z <= imax t.
Proof.
  intros Ht Hz Hn Hm. unfold in_ty, imin, imax in *.
  destruct (isgn t) eqn:Es; [|lia].
  assert (R : 0 <= - z <= 2 ^ (ibits t - 1) - 1) by lia.
  split; [|lia]. apply cast_id; [apply std_pos; auto|]. unfold in_ty, imin, imax. rewrite Es. lia.
Qed.

(** General form of decimal printing in a field. *)
Lemma print_decimal_field t z m padded left binp :
  std_ty t -> in_ty t z -> 0 <= m ->
  let W := if m =? 0 then 20 else m in
  let P := if m =? 0 then false else padded || binp in
  ~ (isgn t = true /\ z = imin t /\ P = true) ->
  exists text out,
    decimal_text text z /\
    int_to_stream_decimal t z m padded left binp = Some out /\
    field W P left (if binp then 48 else 32) text out.
Proof.
  intros Ht Hz Hm W P Hmin. unfold int_to_stream_decimal.
  replace (if m =? 0 then (20, false) else (m, if binp then true else padded)) with (W, P).
  2:{ unfold W, P. destruct (m =? 0), binp, padded; reflexivity. }
  pose proof (ismin_iff t z Ht Hz) as IM.
  destruct ((z =? cast t (2 ^ (ibits t - 1))) && (z <? 0)) eqn:Em.
  - destruct IM as [IM _]. destruct (IM eq_refl) as [Hs ->].
    destruct P eqn:EP; [exfalso; apply Hmin; auto|]. cbn [andb].
    destruct (min_text_canonical t Ht Hs) as [D L].
    exists (min_text t).
    destruct (W >=? min_text_room t) eqn:ER.
    + eexists. split; [exact D|]. split; [reflexivity|]. unfold field. rewrite L.
      replace (min_text_room t <=? W) with true by lia. reflexivity.
    + replace (W <? W + 1) with true by lia.
      eexists. split; [exact D|]. split; [reflexivity|]. unfold field. rewrite L.
      replace (min_text_room t <=? W) with false by lia. reflexivity.
  - assert (NM : ~ (isgn t = true /\ z = imin t)) by (intros X; apply IM in X; discriminate).
    clear IM Em Hmin. cbn [andb].
    set (pn := if z <? 0 then cast t (- z) else z).
    assert (HP : pn = Z.abs z /\ 0 <= pn <= imax t).
    { unfold pn. destruct (z <? 0) eqn:E.
      - destruct (neg_in_range t z Ht Hz ltac:(lia) NM) as [-> R]. lia.
      - unfold in_ty in Hz. lia. }
    destruct HP as [HP1 HP2].
    destruct (number2stream_canonical t pn Ht HP2) as (ds & E & C).
    pose proof (order_length t pn ds Ht HP2 C) as OL.
    exists (if z <? 0 then 45 :: ds else ds).
    assert (D : decimal_text (if z <? 0 then 45 :: ds else ds) z).
    { unfold decimal_text. destruct (z <? 0) eqn:Ez.
      - exists ds. split; [reflexivity|]. replace (- z) with pn by lia. exact C.
      - replace z with pn by lia. exact C. }
    assert (LT : Z.of_nat (length (if z <? 0 then 45 :: ds else ds))
                 = (if z <? 0 then 2 else 1) + get_order_of_magnitude t pn).
    { destruct (z <? 0); cbn [length]; lia. }
    unfold field. rewrite LT.
    set (ns := (if z <? 0 then 2 else 1) + get_order_of_magnitude t pn) in *.
    destruct (W <? ns) eqn:EW.
    + eexists. split; [exact D|]. split; [reflexivity|].
      replace (ns <=? W) with false by lia. change (Z.of_nat (length [63])) with 1.
      unfold zrepeat, ch_0, ch_space, ch_qmark.
      destruct P, left; cbn [andb negb app]; rewrite ?app_nil_r; destruct binp; reflexivity.
    + rewrite E. eexists. split; [exact D|]. split; [reflexivity|].
      replace (ns <=? W) with true by lia. rewrite LT.
      unfold zrepeat, ch_0, ch_space, ch_minus.
      destruct P, left, (z <? 0); cbn [andb negb app]; rewrite ?app_nil_r; destruct binp; reflexivity.
Qed.

Lemma print_decimal_default t z left binp padded :
  std_ty t -> in_ty t z ->
  exists out, int_to_stream_decimal t z 0 padded left binp = Some out /\ decimal_text out z.
Proof.
  intros Ht Hz.
  destruct (print_decimal_field t z 0 padded left binp Ht Hz ltac:(lia)) as (text & out & D & E & F).
  { cbn. intuition congruence. }
  exists out. split; [exact E|]. unfold field in F. cbn [Z.eqb] in F.
  assert (Z.of_nat (length text) <= 20).
  { unfold decimal_text in D. unfold in_ty in Hz.
    assert (B : - 9223372036854775808 <= z < 18446744073709551616).
    { clear - Ht Hz. unfold imin, imax in Hz. std t Ht; destruct s; cbn in *; lia. }
    destruct (z <? 0) eqn:Ez.
    - destruct D as (ds & -> & C).
      pose proof (canonical_length_le 10 ds (- z) 19 ltac:(lia) C ltac:(change (10 ^ Z.of_nat 19) with 10000000000000000000; lia) ltac:(lia)).
      cbn [length]. lia.
    - pose proof (canonical_length_le 10 text z 20 ltac:(lia) D ltac:(change (10 ^ Z.of_nat 20) with 100000000000000000000; lia) ltac:(lia)). lia. }
  replace (Z.of_nat (length text) <=? 20) with true in F by lia. subst out. exact D.
Qed.

(** The most negative value is not padded although its text fits. *)
Lemma print_decimal_min_not_padded :
  exists out, int_to_stream_decimal (ITy 32 true) (-2147483648) 20 true false false = Some out
              /\ decimal_text out (-2147483648)
              /\ Z.of_nat (length out) = 11.
Proof.
  exists (min_text (ITy 32 true)). split; [vm_compute; reflexivity|].
  split; [|reflexivity]. apply (min_text_canonical (ITy 32 true)); [right; right; left; reflexivity|reflexivity].
Qed.

(** ** Power-of-two notations *)

Definition nd_inv (kk N : Z) (st : Z * Z) : Prop :=
  1 <= snd st /\ fst st = N / 2 ^ (kk * (snd st - 1)) /\ (snd st = 1 \/ 1 <= fst st).

Lemma nd_step_inv kk N k d b st :
  0 < kk -> 0 <= N -> 0 < d -> k = kk * d -> 0 <= b <= k ->
  nd_inv kk N st -> 0 <= fst st < 2 ^ (k + b) ->
  nd_inv kk N (nd_step k d st) /\ 0 <= fst (nd_step k d st) < 2 ^ k.
Proof.
  intros Hkk HN Hd -> Hb (I1 & I2 & I3) HB. destruct st as [n nd]. cbn [fst snd] in *.
  assert (P1 : 0 < 2 ^ (kk * d)) by (apply Z.pow_pos_nonneg; lia).
  unfold nd_step. destruct (n >=? 2 ^ (kk * d)) eqn:E; cbn [fst snd].
  - split; [split; [|split]|]; cbn [fst snd].
    + lia.
    + rewrite I2, Z.div_div by (try apply Z.pow_nonzero; try apply Z.pow_pos_nonneg; nia).
      rewrite <- Z.pow_add_r by nia. f_equal. f_equal. ring.
    + right. apply Z.div_le_lower_bound; lia.
    + split; [apply Z.div_pos; lia|]. apply Z.div_lt_upper_bound; [lia|].
      rewrite <- Z.pow_add_r by nia. eapply Z.lt_le_trans; [apply HB|]. apply Z.pow_le_mono_r; nia.
  - split; [split; [|split]|]; cbn [fst snd]; auto; lia.
Qed.

(** what a digit count must satisfy *)
Definition nd_ok (kk N nd : Z) : Prop := 1 <= nd /\ 0 <= N < 2 ^ (kk * nd) /\ (nd = 1 \/ 2 ^ (kk * (nd - 1)) <= N).

Lemma nd_final kk N st :
  0 < kk -> 0 <= N -> nd_inv kk N st -> 0 <= fst st < 2 ^ (2 * kk) ->
  nd_ok kk N (let '(n, nd) := st in if n >=? 2 ^ kk then nd + 1 else nd).
Proof.
  intros Hkk HN (I1 & I2 & I3) HB. destruct st as [n nd]. cbn [fst snd] in *.
  set (Q := 2 ^ (kk * (nd - 1))) in *.
  assert (HQ : 0 < Q) by (apply Z.pow_pos_nonneg; nia).
  assert (P : 0 < 2 ^ kk) by (apply Z.pow_pos_nonneg; lia).
  pose proof (Z.div_mod N Q ltac:(lia)) as DM. pose proof (Z.mod_pos_bound N Q HQ) as MB.
  assert (E1 : 2 ^ (kk * nd) = Q * 2 ^ kk).
  { unfold Q. rewrite <- Z.pow_add_r by nia. f_equal. ring. }
  assert (E2 : 2 ^ (2 * kk) = 2 ^ kk * 2 ^ kk).
  { rewrite <- Z.pow_add_r by nia. f_equal. ring. }
  rewrite E2 in HB.
  unfold nd_ok. destruct (n >=? 2 ^ kk) eqn:E.
  - split; [lia|]. replace (nd + 1 - 1) with nd by ring. rewrite E1.
    split; [split; [lia|]|right; nia].
    replace (2 ^ (kk * (nd + 1))) with (Q * 2 ^ kk * 2 ^ kk).
    2:{ rewrite <- E1, <- Z.pow_add_r by nia. f_equal. ring. }
    nia.
  - split; [lia|]. rewrite E1. split; [nia|]. fold Q. destruct I3 as [I3|I3]; [left; lia|right; nia].
Qed.

Lemma nd_inv_init kk N : 0 <= N -> nd_inv kk N (N, 1).
Proof.
  intros H; split; [cbn; lia|]. cbn [fst snd]. replace (kk * (1 - 1)) with 0 by ring.
  rewrite Z.pow_0_r, Z.div_1_r. auto.
Qed.

Ltac nd_chain HN :=
  repeat match goal with
  | I : nd_inv ?kk ?N ?st, B : 0 <= fst ?st < 2 ^ ?e |- context [nd_step ?k ?d ?st] =>
      let I' := fresh "I" in let B' := fresh "B" in
      let st' := fresh "st" in let b := eval vm_compute in (e - k) in
      destruct (nd_step_inv kk N k d b st ltac:(lia) HN ltac:(lia) ltac:(lia) ltac:(lia) I B) as [I' B'];
      clear I B; set (st' := nd_step k d st) in *; clearbody st'
  end.

Lemma nd_nonneg_spec t n :
  std_ty t -> 0 <= n <= imax t ->
  nd_ok 4 n (nd_hex t n) /\ nd_ok 3 n (nd_oct t n) /\ nd_ok 1 n (nd_bin t n).
Proof.
  intros Ht Hn.
  assert (HN : 0 <= n) by lia.
  assert (B : 0 <= fst (n, 1) < 2 ^ ibits t).
  { cbn [fst]. unfold imax in Hn. pose proof (pow2_half (ibits t) (std_pos t Ht)).
    pose proof (Z.pow_pos_nonneg 2 (ibits t - 1) ltac:(lia) ltac:(pose proof (std_pos t Ht); lia)).
    destruct (isgn t); lia. }
  unfold nd_hex, nd_oct, nd_bin. replace (n >=? 0) with true by lia.
  pose proof (nd_inv_init 4 n HN) as I4. pose proof (nd_inv_init 3 n HN) as I3. pose proof (nd_inv_init 1 n HN) as I1.
  clear Hn. unfold sizeofT.
  std t Ht;
  repeat match goal with
  | |- context [?a / ?b >=? ?c] => let v := eval vm_compute in (a / b >=? c) in change (a / b >=? c) with v
  | |- context [?a / ?b =? ?c] => let v := eval vm_compute in (a / b =? c) in change (a / b =? c) with v
  end; cbv zeta iota;
  (split; [clear I3 I1|split; [clear I4 I1|clear I4 I3]]).
  1: exact (nd_final 4 n (n, 1) ltac:(lia) HN I4 B).
  all: set (st0 := (n, 1)) in *; clearbody st0; nd_chain HN.
  all: match goal with I : nd_inv ?kk ?N ?st, B : _ |- _ =>
       exact (nd_final kk N st ltac:(lia) HN I B) end.
Qed.

Lemma nd_neg_spec t z :
  std_ty t -> in_ty t z -> z < 0 ->
  let u := uwrap (ibits t) z in
  nd_ok 4 u (nd_hex t z) /\ nd_ok 3 u (nd_oct t z) /\ nd_ok 1 u (nd_bin t z).
Proof.
  intros Ht Hz Hn u.
  assert (Hu : u = z + 2 ^ ibits t).
  { unfold u, uwrap. unfold in_ty, imin, imax in Hz. destruct (isgn t); [|lia].
    pose proof (pow2_half (ibits t) (std_pos t Ht)).
    symmetry. apply Z.mod_unique with (-1); lia. }
  unfold nd_hex, nd_oct, nd_bin. replace (z >=? 0) with false by lia.
  unfold in_ty, imin, imax, nd_ok, sizeofT in *. clearbody u. subst u.
  std t Ht; destruct s; cbn in Hz; try lia; cbn; lia.
Qed.

Lemma nd_spec t z :
  std_ty t -> in_ty t z ->
  let u := uwrap (ibits t) z in
  nd_ok 4 u (nd_hex t z) /\ nd_ok 3 u (nd_oct t z) /\ nd_ok 1 u (nd_bin t z).
Proof.
  intros Ht Hz. destruct (Z.lt_ge_cases z 0) as [H|H].
  - apply nd_neg_spec; auto.
  - cbv zeta. rewrite uwrap_id.
    + apply nd_nonneg_spec; auto. unfold in_ty in Hz. lia.
    + unfold in_ty, imax in Hz. pose proof (pow2_half (ibits t) (std_pos t Ht)).
      pose proof (Z.pow_pos_nonneg 2 (ibits t - 1) ltac:(lia) ltac:(pose proof (std_pos t Ht); lia)).
      destruct (isgn t); lia.
Qed.

Lemma put_digits_spec t k z nd :
  0 < k <= 5 -> 0 <= ibits t ->
  length (put_digits t k z nd) = nd /\
  numeral (2 ^ k) (put_digits t k z nd) (uwrap (ibits t) z mod 2 ^ (k * Z.of_nat nd)).
Proof.
  intros Hk Ht. set (u := uwrap (ibits t) z).
  assert (Hu : 0 <= u) by (unfold u; apply uwrap_range; lia). 
  assert (P : 0 < 2 ^ k <= 36).
  { split; [apply Z.pow_pos_nonneg; lia|]. assert (2 ^ k <= 2 ^ 5) by (apply Z.pow_le_mono_r; lia).
    change (2 ^ 5) with 32 in *. lia. }
  induction nd as [|m [IL [IF IV]]].
  - cbn [put_digits length]. split; [reflexivity|]. split; [constructor|].
    cbn [Z.of_nat]. rewrite Z.mul_0_r, Z.pow_0_r, Z.mod_1_r. reflexivity.
  - cbn [put_digits length]. split; [lia|].
    unfold digit_at. fold u.
    pose proof (Z.mod_pos_bound (u / 2 ^ (Z.of_nat m * k)) (2 ^ k) ltac:(lia)) as DB.
    split.
    + constructor; [|exact IF]. unfold is_digit. rewrite digit_char_val by lia. lia.
    + rewrite value_cons, IV, IL, digit_char_val by lia.
      rewrite <- Z.pow_mul_r by lia.
      replace (k * Z.of_nat (S m)) with (k * Z.of_nat m + k) by lia.
      rewrite Z.pow_add_r by lia.
      rewrite Z.rem_mul_r by (try apply Z.pow_nonzero; lia).
      replace (Z.of_nat m * k) with (k * Z.of_nat m) by ring. ring.
Qed.

Lemma digit_char_zero d : 0 <= d < 36 -> digit_char d = 48 -> d = 0.
Proof. unfold digit_char, ch_0, ch_A. intros H E. destruct (d <? 10) eqn:X; lia. Qed.

Lemma put_digits_canonical t k z nd :
  0 < k <= 5 -> 0 <= ibits t -> nd_ok k (uwrap (ibits t) z) nd ->
  canonical (2 ^ k) (put_digits t k z (Z.to_nat nd)) (uwrap (ibits t) z) /\
  Z.of_nat (length (put_digits t k z (Z.to_nat nd))) = nd.
Proof.
  intros Hk Ht (N1 & N2 & N3).
  destruct (put_digits_spec t k z (Z.to_nat nd) Hk Ht) as [L Nm].
  rewrite Z2Nat.id in Nm by lia. rewrite Z.mod_small in Nm by lia.
  split; [|lia]. split; [exact Nm|].
  destruct Nm as [F V].
  set (s := put_digits t k z (Z.to_nat nd)) in *.
  destruct s as [|c s'] eqn:Es; [cbn in L; lia|].
  split; [congruence|]. cbn [hd]. intros ->.
  rewrite value_cons in V. change (digit_val 48) with 0 in V.
  inversion F as [|? ? _ F']; subst.
  assert (Hb : 1 <= 2 ^ k) by (pose proof (Z.pow_pos_nonneg 2 k); lia).
  pose proof (value_bound (2 ^ k) s' Hb F') as B. rewrite <- Z.pow_mul_r in B by lia.
  cbn [length] in L. destruct N3 as [->|N3].
  - destruct s'; [reflexivity|]. cbn [length] in L. lia.
  - exfalso. replace (nd - 1) with (Z.of_nat (length s')) in N3 by lia. lia.
Qed.

Lemma put_digits_zeros t k z a b :
  0 < k <= 5 -> 0 <= ibits t -> uwrap (ibits t) z < 2 ^ (k * Z.of_nat b) ->
  put_digits t k z (a + b) = repeat 48 a ++ put_digits t k z b.
Proof.
  intros Hk Ht Hu. pose proof (uwrap_range (ibits t) z ltac:(lia)) as R.
  induction a as [|a IH]; [reflexivity|].
  cbn [Nat.add put_digits repeat app]. rewrite IH. f_equal.
  unfold digit_at. rewrite Z.div_small.
  - rewrite Z.mod_0_l by (apply Z.pow_nonzero; lia). reflexivity.
  - split; [lia|]. eapply Z.lt_le_trans; [exact Hu|]. apply Z.pow_le_mono_r; nia.
Qed.

(** Printing in a power-of-two notation, general field form. *)
Lemma print_pow2_field k hc ndf t z m padded left zp hdr :
  std_ty t -> 0 < k <= 5 -> 0 <= m -> 0 <= zp ->
  nd_ok k (uwrap (ibits t) z) (ndf t z) ->
  (m = 0 -> zp <= 900) ->
  let W := if m =? 0 then 1000 else m in
  let P := if m =? 0 then false else padded in
  let H := if hdr : bool then 2 else 0 in
  ndf t z <= 900 ->
  exists c, canonical (2 ^ k) c (uwrap (ibits t) z) /\
    let len := Z.of_nat (length c) in
    let wanted := Z.max len (Z.min ((zp + (k - 1)) / k) (W - H)) in
    field W P left 32 ((if hdr then [48; hc] else []) ++ repeat 48 (Z.to_nat (wanted - len)) ++ c)
          (int_to_stream_pow2 k hc ndf t z m padded left zp hdr).
Proof.
  intros Ht Hk Hm Hzp Hnd Hz0 W P H Hbig. pose proof (std_pos t Ht) as Hp.
  destruct (put_digits_canonical t k z (ndf t z) Hk ltac:(lia) Hnd) as [C L].
  set (nd := ndf t z) in *.
  exists (put_digits t k z (Z.to_nat nd)). split; [exact C|]. cbv zeta. rewrite L.
  unfold int_to_stream_pow2. fold H nd.
  replace (if m =? 0 then (1000, false) else (m, padded)) with (W, P)
    by (unfold W, P; destruct (m =? 0); reflexivity).
  destruct Hnd as (N1 & N2 & N3).
  set (D := (zp + (k - 1)) / k).
  assert (LH : Z.of_nat (length (if hdr then [48; hc] else [])) = H) by (unfold H; destruct hdr; reflexivity).
  assert (HH : 0 <= H <= 2) by (unfold H; destruct hdr; lia).
  assert (HW : 1 <= W) by (unfold W; destruct (m =? 0) eqn:?; lia).
  unfold field.
  rewrite !app_length, repeat_length, !Nat2Z.inj_add, LH, L.
  destruct (W <? H + nd) eqn:EW.
  - replace (Z.max nd (Z.min D (W - H))) with nd by lia.
    replace (H + (Z.of_nat (Z.to_nat (nd - nd)) + nd) <=? W) with false by lia.
    change (Z.of_nat (length [63])) with 1. unfold zrepeat, ch_space, ch_qmark.
    destruct P, left; cbn [andb negb app]; rewrite ?app_nil_r; reflexivity.
  - set (wanted := Z.max nd (Z.min D (W - H))).
    replace (if D >? nd then if H + D >? W then (W, D - (H + D - W)) else (H + D, D) else (H + nd, nd))
      with (H + wanted, wanted).
    2:{ unfold wanted. destruct (D >? nd) eqn:E1; [destruct (H + D >? W) eqn:E2|]; f_equal; lia. }
    assert (Hw : nd <= wanted <= W - H) by (unfold wanted; lia).
    replace (Z.to_nat wanted) with (Z.to_nat (wanted - nd) + Z.to_nat nd)%nat by lia.
    rewrite put_digits_zeros by (try lia; rewrite Z2Nat.id by lia; lia).
    replace (H + (Z.of_nat (Z.to_nat (wanted - nd)) + nd) <=? W) with true by lia.
    rewrite !app_length, repeat_length, !Nat2Z.inj_add, LH, L.
    replace (H + (Z.of_nat (Z.to_nat (wanted - nd)) + nd)) with (H + wanted) by lia.
    unfold zrepeat, ch_space, ch_0.
    destruct P, left, hdr; cbn [andb negb app]; rewrite ?app_nil_r; rewrite <- ?app_assoc; reflexivity.
Qed.

(** ** Parsing: digits *)

Lemma finite_chars (P : Z -> bool) :
  forallb P (map Z.of_nat (seq 0 256)) = true -> forall c, 0 <= c < 256 -> P c = true.
Proof.
  intros H c Hc. rewrite forallb_forall in H. apply H.
  apply in_map_iff. exists (Z.to_nat c). split; [lia|]. apply in_seq. lia.
Qed.

Definition opt_eqb (a b : option Z) : bool :=
  match a, b with Some x, Some y => x =? y | None, None => true | _, _ => false end.
Lemma opt_eqb_eq a b : opt_eqb a b = true -> a = b.
Proof. destruct a, b; cbn; intros; try congruence. f_equal. lia. Qed.

Definition digit_opt (base c : Z) : option Z :=
  if (0 <=? digit_val c) && (digit_val c <? base) then Some (digit_val c) else None.

Lemma hex_digit_spec c : 0 <= c < 256 -> hex_digit c = digit_opt 16 c.
Proof.
  intros Hc. apply opt_eqb_eq.
  apply (finite_chars (fun c => opt_eqb (hex_digit c) (digit_opt 16 c))); [vm_compute; reflexivity|exact Hc].
Qed.
Lemma oct_digit_spec c : 0 <= c < 256 -> small_digit 7 c = digit_opt 8 c.
Proof.
  intros Hc. apply opt_eqb_eq.
  apply (finite_chars (fun c => opt_eqb (small_digit 7 c) (digit_opt 8 c))); [vm_compute; reflexivity|exact Hc].
Qed.
Lemma bin_digit_spec c : 0 <= c < 256 -> small_digit 1 c = digit_opt 2 c.
Proof.
  intros Hc. apply opt_eqb_eq.
  apply (finite_chars (fun c => opt_eqb (small_digit 1 c) (digit_opt 2 c))); [vm_compute; reflexivity|exact Hc].
Qed.
Lemma dec_digit_spec c : 0 <= c < 256 ->
  (if (new_digit c >=? 0) && (new_digit c <=? 9) then Some (new_digit c) else None) = digit_opt 10 c.
Proof.
  intros Hc. apply opt_eqb_eq.
  apply (finite_chars (fun c => opt_eqb (if (new_digit c >=? 0) && (new_digit c <=? 9) then Some (new_digit c) else None) (digit_opt 10 c))); [vm_compute; reflexivity|exact Hc].
Qed.
