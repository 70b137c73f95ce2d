(** The theorems about the printing of floating point numbers (C62). *)
From Coq Require Import String Ascii.
From Verif Require Import Base Flt_Model Flt_Spec Flt_Proofs Flt_Proofs2 Ftx_Model Ftx_Spec Ftx_Proofs Ftx_Proofs2 Ftx_Proofs3 Ftx_Proofs5 Ftx_Proofs6 Fpr_Model Fpr_Spec Fpr_Proofs Fpr_Proofs2 Fpr_Proofs3 Fpr_Proofs4 Fpr_Proofs5 Fpr_Proofs6 Fpr_Proofs7 Fpr_Proofs8 Fpr_Proofs9.
From Verif Require Fmt_Model.
From Coq Require Import Lia ZArith Bool List.
Import ListNotations.
Open Scope Z_scope.

Lemma asked_eq f d : is_format f -> format_precision f d = asked f d.
Proof. intros [->| ->]; unfold format_precision, asked, FixedPoint; cbn [is_double prec binary32 binary64 Z.eqb Pos.eqb]; destruct (Fmt_Model.precision d =? 255); try reflexivity; destruct (Fmt_Model.floatNotation d =? 0); reflexivity. Qed.
Lemma in_field_ok d core : (0 < Fmt_Model.size d -> Z.of_nat (length core) <= Fmt_Model.size d) -> 0 <= Fmt_Model.size d ->
  let maximumSize := if Fmt_Model.size d =? 0 then 1000 else Fmt_Model.size d in
  let isPadded := if Fmt_Model.size d =? 0 then false else Fmt_Model.padded d in
  let spaces := repeat 32 (Z.to_nat (maximumSize - Z.of_nat (length core))) in
  in_field d core ((if isPadded && negb (Fmt_Model.leftAligned d) then spaces else []) ++ core ++ (if isPadded && Fmt_Model.leftAligned d then spaces else [])).
Proof.
  intros L S maximumSize isPadded spaces. exists (if isPadded && negb (Fmt_Model.leftAligned d) then spaces else []), (if isPadded && Fmt_Model.leftAligned d then spaces else []).
  assert (F : forall b : bool, Forall (fun c => c = 32) (if b then spaces else [])) by (intros [|]; [apply Forall_forall; intros c H; apply (repeat_spec _ _ _ H)|constructor]).
  split; [reflexivity|]. split; [apply F|]. split; [apply F|]. unfold isPadded. split; [intros [H|H]; [rewrite H; auto|destruct (Fmt_Model.size d =? 0); rewrite ?H; auto]|].
  split; [destruct (Fmt_Model.leftAligned d); cbn [negb]; rewrite ?andb_false_r; reflexivity|].
  rewrite !app_length. split.
  - intros P. specialize (L P). unfold spaces, maximumSize. destruct (Z.eqb_spec (Fmt_Model.size d) 0); [lia|]. destruct (Fmt_Model.padded d), (Fmt_Model.leftAligned d); cbn [andb negb length]; rewrite ?repeat_length; lia.
  - intros P Q. specialize (L P). unfold spaces, maximumSize. destruct (Z.eqb_spec (Fmt_Model.size d) 0); [lia|]. rewrite Q. destruct (Fmt_Model.leftAligned d); cbn [andb negb length]; rewrite ?repeat_length; lia.
Qed.

(** Every number of the format is printed, in every notation and with every width and precision: the text is what the notation prescribes and the
    nearest decimal number up to 250 parts in 2^prec of the value; it fits in the width, and fills it when the padding is on. *)
Theorem C62_text f x d : is_format f -> is_float f x -> valid d ->
  exists core text, float_to_stream f x d = Some (text, true) /\ in_field d core text /\ printed f d x core.
Proof.
  intros Hf Hx (Vs & Vp & Vn). set (c := the_unit f). pose proof (unit_low f : low f c) as Hl. destruct (PU_facts f c Hf Hl) as [PB PU]. destruct (low_facts f c Hf Hl) as [L1 [L2 [L3 [L4 L5]]]].
  unfold float_to_stream. rewrite (asked_eq f d Hf). set (m0 := if Fmt_Model.size d =? 0 then 1000 else Fmt_Model.size d).
  assert (M0 : m0 = 1000 /\ Fmt_Model.size d = 0 \/ 1 <= m0 <= 255 /\ m0 = Fmt_Model.size d) by (unfold m0; destruct (Z.eqb_spec (Fmt_Model.size d) 0); lia).
  assert (Ap : 0 <= asked f d <= 255) by (unfold asked; destruct (Fmt_Model.precision d =? 255); [destruct (Fmt_Model.floatNotation d =? 0); [lia|destruct (prec f =? 24); lia]|lia]).
  assert (G : forall core, (0 < Fmt_Model.size d -> Z.of_nat (length core) <= Fmt_Model.size d) -> printed f d x core -> forall size, size = Z.of_nat (length core) ->
    exists core0 text, match Some (core, true) with Some (t, ok) => Some ((if (if Fmt_Model.size d =? 0 then false else Fmt_Model.padded d) && negb (Fmt_Model.leftAligned d) then repeat 32 (Z.to_nat (m0 - size)) else []) ++ t ++ (if (if Fmt_Model.size d =? 0 then false else Fmt_Model.padded d) && Fmt_Model.leftAligned d then repeat 32 (Z.to_nat (m0 - size)) else []), ok) | None => None end = Some (text, true)
    /\ in_field d core0 text /\ printed f d x core0).
  { intros core L Pr size ->. exists core. eexists. split; [reflexivity|]. split; [|exact Pr]. apply in_field_ok; [exact L|lia]. }
  assert (Gq : printed f d x [63] -> exists core0 text, match Some ([63], true) with Some (t, ok) => Some ((if (if Fmt_Model.size d =? 0 then false else Fmt_Model.padded d) && negb (Fmt_Model.leftAligned d) then repeat 32 (Z.to_nat (m0 - 1)) else []) ++ t ++ (if (if Fmt_Model.size d =? 0 then false else Fmt_Model.padded d) && Fmt_Model.leftAligned d then repeat 32 (Z.to_nat (m0 - 1)) else []), ok) | None => None end = Some (text, true)
    /\ in_field d core0 text /\ printed f d x core0) by (intros Pr; apply (G [63]); [cbn; lia|exact Pr|reflexivity]).
  assert (Gz : printed f d x [48] -> exists core0 text, match Some ([48], true) with Some (t, ok) => Some ((if (if Fmt_Model.size d =? 0 then false else Fmt_Model.padded d) && negb (Fmt_Model.leftAligned d) then repeat 32 (Z.to_nat (m0 - 1)) else []) ++ t ++ (if (if Fmt_Model.size d =? 0 then false else Fmt_Model.padded d) && Fmt_Model.leftAligned d then repeat 32 (Z.to_nat (m0 - 1)) else []), ok) | None => None end = Some (text, true)
    /\ in_field d core0 text /\ printed f d x core0) by (intros Pr; apply (G [48]); [cbn; lia|exact Pr|reflexivity]).
  destruct x as [m e|sg0|]; unfold choose_mode.
  - destruct (Z.eqb_spec m 0) as [Em|Em]; [apply Gz; left; auto|].
    cbn [is_float] in Hx. pose proof Hx as [Fm [Fe Fb]].
    assert (Ix : isv f c (Fin m e) (at_unit c m e)) by (apply isv_fin_mk; exact Hx).
    pose proof (p2pos (e - c) ltac:(lia)) as Pe.
    assert (Sx : fgt zero (Fin m e) = (m <? 0)).
    { rewrite (fgt_isv f c zero (Fin m e) 0 (at_unit c m e) Hf Hl (zero_isv f c Hf) Ix). unfold at_unit. destruct (Z.ltb_spec m 0); [apply Z.ltb_lt; apply Z.mul_neg_pos; lia|apply Z.ltb_ge; apply Z.mul_nonneg_nonneg; lia]. }
    rewrite Sx. set (a := if m <? 0 then fneg (Fin m e) else Fin m e).
    assert (Ia : isv f c a (at_unit c (Z.abs m) e)).
    { unfold a. destruct (Z.ltb_spec m 0) as [Q|Q]; [|rewrite Z.abs_eq by lia; exact Ix]. rewrite Z.abs_neq by lia. cbn [fneg]. apply isv_fin_mk. split; [rewrite Z.abs_opp; exact Fm|]. split; [exact Fe|]. right. destruct Fb as [Fb|Fb]; [lia|]. unfold bits in *. rewrite Z.abs_opp. replace (- m =? 0) with (m =? 0); [exact Fb|]. destruct (Z.eqb_spec m 0), (Z.eqb_spec (- m) 0); lia. }
    assert (Xp : 0 < at_unit c (Z.abs m) e) by (unfold at_unit; apply Z.mul_pos_pos; lia).
    destruct (choose_ok f c Hf Hl (Fmt_Model.floatNotation d) a _ (m <? 0) (asked f d) m0 Vn Ia Xp Ap ltac:(lia)) as [md [size [E C]]]. rewrite E. destruct C as [[-> [-> C]]|[[-> [-> C]]|(y & Y & E0 & q & -> & Iy & By & Hq & HE & Sz & Sm & Acc & Q1 & Q2 & Q3)]].
    + apply Gz. right. left. split; [exact Em|]. split; [reflexivity|]. intros Ns. specialize (C ltac:(lia)). destruct (Fmt_Model.floatNotation d =? 0); [|exact C].
      unfold below_half. destruct (unit_cancel f Hf c Hl m e _ Fe eq_refl) as [g [Hg [EX EU]]]. rewrite EX, EU in C. apply Z.mul_le_mono_pos_r with g; [exact Hg|].
      replace (2 ^ prec f * (2 * (Z.abs (num m e) * 10 ^ asked f d)) * g) with (2 ^ prec f * (2 * (Z.abs (num m e) * g * 10 ^ asked f d))) by ring. replace ((2 ^ prec f + 200) * den e * g) with ((2 ^ prec f + 200) * (den e * g)) by ring. exact C.
    + apply Gq. right. right. left. split; [exact Em|]. split; [reflexivity|]. lia.
    + destruct (shown_ok f Hf c Hl (Fmt_Model.floatNotation d) m e (m <? 0) (asked f d) y Y E0 q _ Vn Fe eq_refl Iy By Hq HE (proj1 Ap) Acc Q1 Q2) as (H1 & H2 & H3 & H4 & H5). rewrite H2.
      set (v := shown_as f y (m <? 0) (Fmt_Model.floatNotation d) E0 q) in *.
      change ((if m <? 0 then [45] else []) ++ s_int v ++ match s_dec v with Some ds => 46 :: ds | None => [] end ++ s_suffix v) with (s_text v).
      apply (G (s_text v)); [clear - M0 Sz Sm H3; lia| |clear - Sz H3; lia]. right. right. right. split; [exact Em|]. exists v. split; [reflexivity|]. split; [reflexivity|]. split; [exact H1|]. split; [exact H4|]. intros Ns. apply H5, Q3. clear - M0 Ns; lia.
  - destruct (Z.ltb_spec m0 4); [apply Gq; right; split; [reflexivity|]; lia|]. destruct sg0; (apply G; [cbn [length]; lia| |reflexivity]); left; split; try reflexivity; lia.
  - destruct (Z.ltb_spec m0 3); [apply Gq; right; split; [reflexivity|]; lia|]. apply G; [cbn [length]; lia| |reflexivity]. left. split; [reflexivity|]. lia.
Qed.
Print Assumptions C62_text.
(** non-vacuity: the format %-14.3f, the exponent notation and the compact one *)
Definition mkfd (size precision : Z) (padded left : bool) (notation : Z) : Fmt_Model.fd := Fmt_Model.Fd size precision padded left notation 0 false false 0 0.
Fixpoint chars_of (s : string) : list Z := match s with EmptyString => [] | String a r => Z.of_nat (nat_of_ascii a) :: chars_of r end.
Example C62_text_example :
  let x := Fin (- 8687443681197687) (-46) in
  is_float binary64 x /\ valid (mkfd 14 3 true true 0)
  /\ float_to_stream binary64 x (mkfd 14 3 true true 0) = Some (chars_of "-123.456      ", true)
  /\ float_to_stream binary64 x (mkfd 0 4 false false 2) = Some (chars_of "-1.235E+2", true)
  /\ float_to_stream binary64 (Fin (- 8687443681197687) (-35)) (mkfd 0 5 false false 7) = Some (chars_of "-252.84K", true)
  /\ float_to_stream binary64 x (mkfd 5 9 true false 3) = Some (chars_of " -123", true)
  /\ float_to_stream binary64 x (mkfd 3 9 true false 3) = Some (chars_of "  ?", true)
  /\ float_to_stream binary32 (Inf true) (mkfd 6 9 true false 3) = Some (chars_of "  -Inf", true).
Proof.
  split; [split; [vm_compute; discriminate|split; [vm_compute; discriminate|right; vm_compute; discriminate]]|].
  split; [split; [cbn; lia|split; [cbn; lia|cbn; tauto]]|]. vm_compute. repeat split.
Qed.

(** Without a width, the fixed point, exponent and engineering notations print a text that is a number for the conversion of texts to numbers (C61). *)
Theorem C62_readable f m e d : is_format f -> finite f m e -> valid d -> Fmt_Model.size d = 0 -> Fmt_Model.floatNotation d <= 3 ->
  exists text, float_to_stream f (Fin m e) d = Some (text, true) /\ float_syntax text.
Proof.
  intros Hf Hx V S N. destruct (C62_text f (Fin m e) d Hf Hx V) as (core & text & E & (b & a & T & _ & _ & B & _) & Pr). exists text. split; [exact E|].
  destruct (B (or_introl S)) as [-> ->]. rewrite app_nil_r in T. cbn [app] in T. subst text.
  assert (Z0 : float_syntax [48]) by (exists (Parts [] [48] None None); split; [split; [left; reflexivity|]; split; [repeat constructor; lia|]; split; [intros ? A; discriminate A|intros ? ? ? A; discriminate A]|reflexivity]).
  destruct Pr as [[_ ->]|[[_ [-> _]]|[[_ [_ Q]]|[_ (v & -> & Sv & Sh & _)]]]]; [exact Z0|exact Z0|contradiction|].
  destruct Sh as (D1 & D2 & D3 & Sh).
  assert (Sf : exponent_suffix (s_power v) (s_suffix v)).
  { destruct V as (_ & _ & Vn). revert Sh N. cbn [In] in Vn. destruct Vn as [<-|[<-|[<-|[<-|[<-|[<-|[]]]]]]]; intros Sh N; try lia; [left; tauto|left; tauto|tauto|tauto]. }
  destruct Sf as [[_ Sf]|(ds & Ds & _ & _ & Sf)].
  - exists (Parts (if s_neg v then [45] else []) (s_int v) (s_dec v) None). split; [|unfold written, s_text; rewrite Sf; reflexivity].
    split; [cbn [p_sign]; destruct (s_neg v); unfold sign; tauto|]. split; [exact D1|]. split; [intros x A; apply (D3 x A)|intros ? ? ? A; discriminate A].
  - assert (exists sgn, sign sgn /\ s_suffix v = 69 :: sgn ++ ds) as [sgn [Hs Es]] by (destruct Sf as [[_ ->]|[_ ->]]; [exists [43]|exists [45]]; (split; [unfold sign; tauto|reflexivity])).
    exists (Parts (if s_neg v then [45] else []) (s_int v) (s_dec v) (Some (69, sgn, ds))). split; [|unfold written, s_text; rewrite Es; reflexivity].
    split; [cbn [p_sign]; destruct (s_neg v); unfold sign; tauto|]. split; [exact D1|]. split; [intros x A; apply (D3 x A)|]. intros l s0 ds0 A. cbn [p_exp] in A. injection A as <- <- <-. split; [left; reflexivity|]. split; assumption.
Qed.
Print Assumptions C62_readable.
Example C62_readable_example : finite binary32 13176795 (-22) /\ valid (mkfd 0 255 false false 2) /\ float_to_stream binary32 (Fin 13176795 (-22)) (mkfd 0 255 false false 2) = Some (chars_of "3.141593", true).
Proof. split; [split; [vm_compute; discriminate|split; [vm_compute; discriminate|right; vm_compute; discriminate]]|]. split; [split; [cbn; lia|split; [cbn; lia|cbn; tauto]]|]. vm_compute. reflexivity. Qed.

(** ** What does not hold *)
(** Without a width a number that is not small is never printed as zero: false with precision 0, except in fixed point. *)
Theorem C62_zero_refuted : ~ (forall f m e d, is_format f -> finite f m e -> valid d -> Fmt_Model.size d = 0 -> 1 <= m -> 0 <= e -> float_to_stream f (Fin m e) d <> Some (chars_of "0", true)).
Proof.
  intros H. apply (H binary64 7 10 (mkfd 0 0 false false 2)); try lia; [right; reflexivity| | |reflexivity|vm_compute; reflexivity].
  - split; [vm_compute; discriminate|split; [vm_compute; discriminate|right; vm_compute; discriminate]].
  - split; [cbn; lia|split; [cbn; lia|cbn; tauto]].
Qed.
Print Assumptions C62_zero_refuted.
