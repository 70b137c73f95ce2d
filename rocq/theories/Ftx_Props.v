(** C61: the floating point numbers that are read from a text. *)
From Verif Require Import Base Flt_Model Flt_Spec Flt_Proofs Flt_Proofs2 Ftx_Model Ftx_Spec Ftx_Proofs Ftx_Proofs2 Ftx_Proofs4 Ftx_Proofs5 Ftx_Proofs7.
From Verif Require IntText_Model IntText_Spec IntText_Props Flt_Props.
From Coq Require Import String Ascii.
From Coq Require Import Lia ZArith Bool List.
Import ListNotations.
Open Scope Z_scope.

Definition chars_of (s : string) : list Z := map (fun a => Z.of_nat (nat_of_ascii a)) (list_ascii_of_string s).

Ltac dg := apply Forall_forall; let c := fresh in let J := fresh in intros c J; vm_compute in J; repeat (destruct J as [<-|J]; [lia|]); destruct J.
Ltac wf := split; [unfold sign; cbn; tauto|split; [dg|split;
  [let ds := fresh in let E := fresh in intros ds E; first [discriminate E|injection E as <-; dg]
  |let l := fresh in let s := fresh in let ds := fresh in let E := fresh in intros l s ds E; first [discriminate E|injection E as <- <- <-; split; [tauto|split; [unfold sign; cbn; tauto|dg]]]]]].
(** Every number of the syntax that is far from the largest one, has not too many decimals and has no more than 1000 characters is accepted.
    Partial: the last two powers of ten of the format and longer texts are not covered (see the refutations). *)
Theorem C61_accepted_partial f p : is_format f -> well_formed p -> in_range f p -> zlen (written p) <= 1000 ->
  exists m e, string_to_float f (written p) = (Some (Fin m e), true) /\ finite f m e.
Proof.
  intros Hf W F L. rewrite (string_written f p W), (normal_written f p W). rewrite written_unsigned in L. unfold zlen in L. rewrite app_length, Nat2Z.inj_add in L.
  assert (R : forall i, 0 <= i -> i + zlen (unsigned_text p) <= 1000 -> exists m e, read_unsigned f (unsigned_text p) i = (Fin m e, true) /\ finite f m e).
  { intros i Hi Hz. destruct (read_ok f (the_unit f) p i Hf (unit_low f) W F Hi Hz) as [y [Y [A [[m [e [-> [B _]]]] _]]]]. exists m, e. auto. }
  pose proof W as [Ws _]. destruct Ws as [S|[S|S]]; rewrite S in *; cbn [length] in L.
  - destruct (R 0 ltac:(lia) ltac:(unfold zlen; lia)) as [m [e [E Fi]]]. rewrite E. exists m, e. auto.
  - destruct (R 1 ltac:(lia) ltac:(unfold zlen; lia)) as [m [e [E Fi]]]. rewrite E. exists m, e. auto.
  - destruct (R 1 ltac:(lia) ltac:(unfold zlen; lia)) as [m [e [E Fi]]]. rewrite E. exists (- m), e. split; [reflexivity|].
    destruct Fi as [F1 [F2 F3]]. split; [rewrite Z.abs_opp; exact F1|]. split; [exact F2|]. destruct F3 as [->|F3]; [left; reflexivity|right].
    unfold bits in *. rewrite Z.abs_opp. replace (- m =? 0) with (m =? 0); [exact F3|]. destruct (Z.eqb_spec m 0), (Z.eqb_spec (- m) 0); lia.
Qed.
Print Assumptions C61_accepted_partial.

(** An integer, with or without an exponent, that has no more digits than the mantissa is read exactly. *)
Theorem C61_integer_exact f p : is_format f -> well_formed p -> in_range f p -> zlen (written p) <= 1000 ->
  p_dec p = None \/ p_dec p = Some [] -> 0 <= exponent p < 64 -> number (p_int p) * 10 ^ exponent p <= 2 ^ prec f ->
  exists x, string_to_float f (written p) = (Some x, true) /\ is_integer x (signed p (number (p_int p) * 10 ^ exponent p)).
Proof. intros Hf W F L A B C. destruct (accepted f p Hf W F L) as [x [E [V _]]]. exists x. split; [exact E|]. apply V; assumption. Qed.
Print Assumptions C61_integer_exact.
Example C61_integer_example : let p := Parts [45] (chars_of "12") None (Some (101, [43], chars_of "05")) in
  well_formed p /\ in_range binary32 p /\ written p = chars_of "-12e+05" /\ string_to_float binary32 (written p) = (Some (Fin (- 1200000) 0), true)
  /\ signed p (number (p_int p) * 10 ^ exponent p) = - 1200000.
Proof.
  split; [wf|]. vm_compute. split; [|repeat split]. split; [discriminate|]. split; [repeat constructor|]. intros l s ds H. injection H as <- <- <-. reflexivity.
Qed.

(** A number with decimals and no exponent is read with an error that is at most (2 d + 2^(b-1)) / 2^prec, where d is the number of decimals and the
    integer part is below 2^b - 1. Partial: up to 22 (float64) or 10 (float32) decimals, and no exponent. *)
Theorem C61_accuracy_partial f p b : is_format f -> well_formed p -> in_range f p -> zlen (written p) <= 1000 ->
  p_exp p = None -> (length (decimals p) <= exact_decimals f)%nat -> 1 <= b <= prec f -> number (p_int p) + 2 <= 2 ^ b ->
  let d := Z.of_nat (length (decimals p)) in
  exists x, string_to_float f (written p) = (Some x, true)
  /\ within x (signed p (number (p_int p) * 10 ^ d + number (decimals p))) (10 ^ d) (2 * d + 2 ^ (b - 1)) (prec f).
Proof. intros Hf W F L A B C D d. destruct (accepted f p Hf W F L) as [x [E [_ V]]]. exists x. split; [exact E|]. apply V; assumption. Qed.
Print Assumptions C61_accuracy_partial.
Example C61_accuracy_example : let p := Parts [] (chars_of "3") (Some (chars_of "14159")) None in
  well_formed p /\ in_range binary64 p /\ written p = chars_of "3.14159" /\ string_to_float binary64 (written p) = (Some (Fin 7074231776675438 (-51)), true).
Proof.
  split; [wf|]. vm_compute. split; [|repeat split]. split; [discriminate|]. split; [repeat constructor|]. intros l s ds H. discriminate H.
Qed.

(** An exponent multiplies the number that is written before it by that power of ten, with an error of at most 50 parts in 2^prec.
    Partial: exponents below 64 in a float32, and results that are not so small that digits are lost. *)
Theorem C61_exponent_partial f p x0 : is_format f -> well_formed p -> in_range f p -> zlen (written p) <= 1000 -> Z.abs (exponent p) < max_exponent f ->
  string_to_float f (written (plain p)) = (Some x0, true) -> at_least x0 (exponent p) (emax f - 5) ->
  exists x, string_to_float f (written p) = (Some x, true) /\ scaled x0 x (exponent p) 50 (prec f).
Proof. apply with_exponent. Qed.
Print Assumptions C61_exponent_partial.
Example C61_exponent_example : let p := Parts [45] (chars_of "6") (Some (chars_of "626")) (Some (69, [45], chars_of "34")) in
  well_formed p /\ in_range binary64 p /\ written p = chars_of "-6.626E-34" /\ exponent p = -34
  /\ exists x0, string_to_float binary64 (written (plain p)) = (Some x0, true) /\ at_least x0 (exponent p) (emax binary64 - 5).
Proof.
  split; [wf|]. split; [vm_compute; split; [discriminate|]; split; [repeat constructor|]; intros l s ds H; injection H as <- <- <-; reflexivity|].
  split; [reflexivity|]. split; [reflexivity|]. eexists. split; [vm_compute; reflexivity|]. eexists. eexists. split; [reflexivity|]. vm_compute. discriminate.
Qed.

(** A text that is accepted is a number of the syntax or an integer in another base.
    Partial: texts of up to 1000 characters with not too many digits after a point. *)
Theorem C61_syntax_partial f t x : is_format f -> IntText_Spec.c_string t -> zlen t <= 1000 -> few_decimals f t ->
  string_to_float f t = (Some x, true) ->
  float_syntax t \/ (based t /\ exists n, IntText_Spec.int_literal (ITy 64 false) t n /\ nearest_float f n 0 x).
Proof.
  intros Hf Hc Hz Hs E. unfold string_to_float in E.
  assert (N : (let (x0, ret) := normal_float f t in (Some x0, ret)) = (Some x, true) -> float_syntax t).
  { destruct (normal_float f t) as [y ret] eqn:En. intros E0. injection E0 as -> ->. apply (sound f t x); assumption. }
  destruct t as [|c0 [|c1 r]]; [left; apply N; exact E|left; apply N; exact E|].
  destruct ((c0 =? 48) && ((c1 =? 120) || (c1 =? 111) || (c1 =? 98))) eqn:G; [|left; apply N; exact E]. right.
  apply andb_true_iff in G. destruct G as [G0 G1]. apply Z.eqb_eq in G0. subst c0.
  split; [exists c1, r; split; [reflexivity|]; apply orb_true_iff in G1; destruct G1 as [G1|G1]; [apply orb_true_iff in G1; destruct G1 as [G1|G1]|]; apply Z.eqb_eq in G1; tauto|].
  destruct (IntText_Model.string_to_integer (ITy 64 false) (48 :: c1 :: r)) as [ok n] eqn:Ei. destruct ok; [|discriminate].
  assert (S : std_ty (ITy 64 false)) by (unfold std_ty; cbn; tauto).
  assert (Li : IntText_Spec.int_literal (ITy 64 false) (48 :: c1 :: r) n) by (apply (IntText_Props.C03_integer_parse_exact _ _ _ S Hc); [unfold zlen in Hz; lia|exact Ei]).
  exists n. split; [exact Li|].
  assert (R : 0 <= n < 2 ^ 64).
  { unfold IntText_Spec.int_literal in Li. destruct Li as [[A _]|[[k [A _]]|[[ds [k [A _]]]|[[ds [k [A _]]]|[l2 [k [ds [m [_ [_ [_ [_ [_ ->]]]]]]]]]]]]]; try discriminate A.
    - exfalso. apply A. reflexivity.
    - unfold Base.cast. cbn. unfold uwrap. apply Z.mod_pos_bound. reflexivity. }
  destruct (Flt_Props.C60_to_float f (Flt_Model.Ity false 64) n Hf ltac:(right; right; right; reflexivity)) as [A B].
  { change (imin (Flt_Model.Ity false 64)) with 0. change (Flt_Model.imax (Flt_Model.Ity false 64)) with (2 ^ 64 - 1). unfold Flt_Model.imin. cbn [sgn]. lia. }
  destruct (integer_to_float f n) as [y ret]. injection E as -> _. exact B.
Qed.
Print Assumptions C61_syntax_partial.
Example C61_syntax_example : few_decimals binary32 (chars_of "1.5E3") /\ fst (string_to_float binary32 (chars_of "1.5E3")) <> None /\ snd (string_to_float binary32 (chars_of "1.5E3")) = true
  /\ snd (string_to_float binary32 (chars_of "1.5X3")) = false /\ snd (string_to_float binary32 (chars_of "--1")) = false /\ snd (string_to_float binary32 (chars_of "1E2.5")) = false.
Proof.
  split; [|vm_compute; repeat split; discriminate].
  intros a ds r H Hd. assert (L := f_equal (@List.length Z) H). rewrite app_length in L. cbn [List.length] in L. rewrite app_length in L. cbn in L. change (max_decimals binary32) with 38%nat. lia.
Qed.

(** An integer in base 16, 8 or 2 is read as the nearest number, and refused when it does not fit in 64 bits. *)
Theorem C61_based f t : is_format f -> IntText_Spec.c_string t -> zlen t <= 1000 -> based t ->
  (forall n, IntText_Spec.int_literal (ITy 64 false) t n -> exists x, string_to_float f t = (Some x, true) /\ nearest_float f n 0 x)
  /\ ((forall n, ~ IntText_Spec.int_literal (ITy 64 false) t n) -> string_to_float f t = (None, false)).
Proof.
  intros Hf Hc Hz [le [r [-> Hl]]].
  assert (S : std_ty (ITy 64 false)) by (unfold std_ty; cbn; tauto).
  assert (G : (le =? 120) || (le =? 111) || (le =? 98) = true) by (destruct Hl as [->|[->| ->]]; reflexivity).
  unfold string_to_float. rewrite Z.eqb_refl, G. cbn [andb]. split.
  - intros n Li. assert (Ei := proj2 (IntText_Props.C03_integer_parse_exact _ _ _ S Hc ltac:(unfold zlen in Hz; lia)) Li). rewrite Ei.
    assert (R : 0 <= n < 2 ^ 64).
    { unfold IntText_Spec.int_literal in Li. destruct Li as [[A _]|[[k [A _]]|[[ds [k [A _]]]|[[ds [k [A _]]]|[l2 [k [ds [m [_ [_ [_ [_ [_ ->]]]]]]]]]]]]]; try discriminate A.
      - exfalso. apply A. reflexivity.
      - unfold Base.cast. cbn. unfold uwrap. apply Z.mod_pos_bound. reflexivity. }
    destruct (Flt_Props.C60_to_float f (Flt_Model.Ity false 64) n Hf ltac:(right; right; right; reflexivity)) as [A B].
    { change (Flt_Model.imax (Flt_Model.Ity false 64)) with (2 ^ 64 - 1). unfold Flt_Model.imin. cbn [sgn]. lia. }
    destruct (integer_to_float f n) as [y ret]. cbn in A, B. subst ret. exists y. auto.
  - intros No. destruct (IntText_Model.string_to_integer (ITy 64 false) (48 :: le :: r)) as [ok n] eqn:Ei. destruct ok; [|reflexivity].
    exfalso. apply (No n). apply (IntText_Props.C03_integer_parse_exact _ _ _ S Hc); [unfold zlen in Hz; lia|exact Ei].
Qed.
Print Assumptions C61_based.
Example C61_based_example : string_to_float binary32 (chars_of "0xFF") = (Some (Fin 255 0), true) /\ string_to_float binary32 (chars_of "0xG") = (None, false).
Proof. vm_compute. split; reflexivity. Qed.

(** A minus sign changes the sign of the number and nothing else. *)
Theorem C61_sign f r : string_to_float f (45 :: r) = let (x, ret) := string_to_float f (43 :: r) in (match x with Some y => Some (fneg y) | None => None end, ret).
Proof.
  assert (H : forall c, c = 45 \/ c = 43 -> string_to_float f (c :: r) = let (x, ret) := normal_float f (c :: r) in (Some x, ret)).
  { intros c Hc. unfold string_to_float. destruct r; [reflexivity|]. destruct Hc as [->| ->]; reflexivity. }
  rewrite (H 45), (H 43) by tauto. unfold normal_float. cbn [Z.eqb Pos.eqb]. destruct (read_unsigned f r 1). reflexivity.
Qed.
Print Assumptions C61_sign.

(** ** What does not hold *)
(** A text with no digit at all is accepted. *)
Theorem C61_no_digit_refuted : ~ (forall t x, string_to_float binary64 t = (Some x, true) -> exists c, In c t /\ 48 <= c <= 57).
Proof. intros H. destruct (H (chars_of "-.E+") (Fin 0 0)) as [c [I B]]; [vm_compute; reflexivity|]. vm_compute in I. destruct I as [<-|[<-|[<-|[<-|[]]]]]; lia. Qed.
Print Assumptions C61_no_digit_refuted.

Lemma written_chars p : well_formed p -> forall c, In c (written p) -> (48 <= c <= 57) \/ c = 46 \/ c = 69 \/ c = 101 \/ c = 43 \/ c = 45.
Proof.
  intros [Ws [Wi [Wd We]]] d Hd. unfold written in Hd.
  assert (Si : forall s, sign s -> In d s -> d = 43 \/ d = 45) by (intros s [->|[->| ->]] I; cbn in I; intuition).
  assert (Di : forall ds, digits ds -> In d ds -> 48 <= d <= 57) by (intros ds H I; unfold digits in H; rewrite Forall_forall in H; apply H; exact I).
  apply in_app_or in Hd. destruct Hd as [Hd|Hd]; [specialize (Si _ Ws Hd); tauto|].
  apply in_app_or in Hd. destruct Hd as [Hd|Hd]; [left; apply (Di _ Wi Hd)|].
  apply in_app_or in Hd. destruct Hd as [Hd|Hd].
  - destruct (p_dec p) as [ds|]; cbn in Hd; [|tauto]. destruct Hd as [<-|Hd]; [tauto|]. left. apply (Di ds); auto.
  - destruct (p_exp p) as [[[l s] es]|]; cbn in Hd; [|tauto]. destruct (We l s es eq_refl) as [Wl [Wss Wes]]. destruct Hd as [<-|Hd]; [tauto|].
    apply in_app_or in Hd. destruct Hd as [Hd|Hd]; [specialize (Si _ Wss Hd); tauto|left; apply (Di _ Wes Hd)].
Qed.
(** What follows too many decimals is not looked at, and is accepted. *)
Theorem C61_rest_ignored_refuted : ~ (forall t x, IntText_Spec.c_string t -> zlen t <= 1000 -> string_to_float binary32 t = (Some x, true) -> float_syntax t \/ based t).
Proof.
  intros H. set (t := chars_of "1.000000000000000000000000000000000000000 metres").
  destruct (H t (Fin 8388608 (-23))) as [[p [W E]]|[l [r [E _]]]].
  - unfold IntText_Spec.c_string. apply Forall_forall. intros c I. vm_compute in I. repeat (destruct I as [<-|I]; [lia|]). destruct I.
  - vm_compute. discriminate.
  - vm_compute. reflexivity.
  - assert (I : In 109 (written p)) by (rewrite <- E; vm_compute; tauto). pose proof (written_chars p W 109 I). lia.
  - vm_compute in E. discriminate E.
Qed.
Print Assumptions C61_rest_ignored_refuted.
(** So is an exponent after them: the number is not even of the right size. *)
Definition right_size : Prop := forall p x, well_formed p -> p_sign p = [] -> zlen (written p) <= 1000 -> string_to_float binary32 (written p) = (Some x, true) ->
  Z.of_nat (List.length (decimals p)) <= exponent p ->
  let n := number (p_int p ++ decimals p) * 10 ^ (exponent p - Z.of_nat (List.length (decimals p))) in 2 <= n -> within x n 1 (n / 2) 0.
Theorem C61_exponent_ignored_refuted : ~ right_size.
Proof.
  intros H. set (p := Parts [] (chars_of "1") (Some (chars_of "000000000000000000000000000000000000000")) (Some (69, [], chars_of "50"))).
  destruct (H p (Fin 8388608 (-23))) as [m [e [E L]]].
  - wf.
  - reflexivity.
  - vm_compute. discriminate.
  - vm_compute. reflexivity.
  - vm_compute. discriminate.
  - vm_compute. discriminate.
  - injection E as <- <-. vm_compute in L. apply L. reflexivity.
Qed.
Print Assumptions C61_exponent_ignored_refuted.
(** In a float32 the part of an exponent above 63 is lost even with few decimals. *)
Theorem C61_exponent_64_refuted : ~ (forall p x, well_formed p -> (List.length (decimals p) <= max_decimals binary32)%nat -> p_sign p = [] -> string_to_float binary32 (written p) = (Some x, true) ->
  Z.of_nat (List.length (decimals p)) <= exponent p ->
  let n := number (p_int p ++ decimals p) * 10 ^ (exponent p - Z.of_nat (List.length (decimals p))) in 2 <= n -> within x n 1 (n / 2) 0).
Proof.
  intros H. set (p := Parts [] (chars_of "0") (Some (chars_of "00000000000000000000000000000000000001")) (Some (69, [], chars_of "64"))).
  destruct (H p (Fin 8673618 60)) as [m [e [E L]]].
  - wf.
  - apply Nat.leb_le. vm_compute. reflexivity.
  - reflexivity.
  - vm_compute. reflexivity.
  - vm_compute. discriminate.
  - vm_compute. discriminate.
  - injection E as <- <-. vm_compute in L. apply L. reflexivity.
Qed.
Print Assumptions C61_exponent_64_refuted.
(** The characters after the first 1000 are ignored. *)
Theorem C61_long_refuted : ~ (forall ds x, digits ds -> number ds <= 2 ^ 53 -> string_to_float binary64 ds = (Some x, true) -> is_integer x (number ds)).
Proof.
  intros H. destruct (H (repeat 48 1000 ++ [53]) (Fin 0 0)) as [m [e [E L]]].
  - apply Forall_app. split; [apply Forall_forall; intros c I; apply repeat_spec in I; lia|repeat constructor; lia].
  - vm_compute. discriminate.
  - vm_compute. reflexivity.
  - injection E as <- <-. vm_compute in L. discriminate L.
Qed.
Print Assumptions C61_long_refuted.
