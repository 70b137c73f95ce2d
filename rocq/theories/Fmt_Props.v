(** C46: Printf writes its format with every conversion replaced by the text of its argument. *)
From Coq Require Import String.
From Verif Require Import Base IntText_Spec Fmt_Model Txt_Model Fmt_Spec Fmt_Proofs.
Open Scope string_scope. Open Scope Z_scope. Open Scope list_scope.

(** Any format, any arguments that fit it (Fmt_Spec): Printf returns true and has written exactly what the format says. [literal]: where the program has its literals. *)
Theorem C46_printf_partial : forall literal pieces args, Forall good_piece pieces -> fit pieces args ->
  match printf literal (format_text pieces) args with Some (out, r) => r = true /\ says pieces args out | None => False end.
Proof.
  intros literal l args G F. unfold printf. pose proof (formatted literal [] true) as X. specialize (X ltac:(intros [|k] pars B; [cbn in B; lia|reflexivity]) l (S (length (format_text l))) args G F).
  rewrite app_nil_r in X. apply X. lia.
Qed.
Print Assumptions C46_printf_partial.

(** A percent sign that is followed by no conversion: what is before it is written, nothing after it, and Printf returns false. *)
Definition no_conversion (t : list Z) : Prop :=
  match t with [] => True | x :: _ => (forall y, flag_char y <> x) /\ ~ (48 <= x <= 57) /\ x <> 46 /\ (forall k, letter_char k <> x) end.
Theorem C46_bad_conversion_partial : forall literal pieces args c t, Forall good_piece pieces -> fit pieces args -> good_conversion c -> no_conversion t ->
  match printf literal (format_text pieces ++ 37 :: before_letter c ++ t) args with Some (out, r) => r = false /\ says pieces args out | None => False end.
Proof.
  intros literal l args c t G F GC N. unfold printf. apply formatted; try assumption; [|lia]. intros [|k] pars B; [cbn in B; lia|]. cbn [print_formatted]. change (37 =? 37) with true. cbn iota.
  rewrite not_parsed; [reflexivity|exact GC| | | |]; destruct t as [|x t]; try exact I; cbn [not_flag not_digit not_letter hd no_conversion] in *; try destruct N as (N1 & N2 & N3 & N4).
  - apply lookup_none. cbn. intros H. repeat (destruct H as [H|H]; [|]); try contradiction; [apply (N1 Space)|apply (N1 Minus)|apply (N1 Zero)|apply (N1 Hash)|apply (N1 InStandard)|apply (N1 InJson)|apply (N1 InXml)]; exact H.
  - unfold get_digit. cbn zeta. destruct (Z.leb_spec (x - 48) 9), (Z.leb_spec 0 (x - 48)); cbn [andb]; try reflexivity. lia.
  - discriminate.
  - exact N3.
  - apply lookup_none. cbn. intros H. repeat (destruct H as [H|H]; [|]); try contradiction; first [apply (N4 L_any); exact H|apply (N4 L_info); exact H|apply (N4 L_struct); exact H|apply (N4 L_d); exact H|apply (N4 L_i); exact H|apply (N4 L_u); exact H
      |apply (N4 L_s); exact H|apply (N4 L_c); exact H|apply (N4 L_f); exact H|apply (N4 L_F); exact H|apply (N4 L_e); exact H|apply (N4 L_E); exact H|apply (N4 L_g); exact H|apply (N4 L_G); exact H|apply (N4 L_x); exact H
      |apply (N4 L_p); exact H|apply (N4 L_o); exact H|apply (N4 L_b); exact H].
Qed.
Print Assumptions C46_bad_conversion_partial.

(** Cases that meet the hypotheses *)
Example C46_example :
  let pieces := map Literal (chars "n=") ++ [Convert (Conversion [Space] (chars "5") None L_d); Literal 44; Convert (Conversion [Hash; Minus] (chars "7") None L_s); Convert (Conversion [Hash; Zero] [] None L_x); Literal 32;
                  Convert (Conversion [InJson] [] None L_any)] in
  let args := [AScalar (SInt (ITy 32 true) (-42)); AScalar (SString 0 (chars "abc")); AScalar (SInt (ITy 16 false) 255); AVector [SInt (ITy 8 false) 1; SInt (ITy 8 false) 20]] in
  Forall good_piece pieces /\ fit pieces args /\ format_text pieces = chars "n=% 5d,%#-7s%#0x %J!" /\ printf 0 (format_text pieces) args = Some (chars "n=  -42,""abc""  0x00FF [ 1, 20 ] ", true).
Proof.
  cbn zeta. split; [|split; [|split; vm_compute; reflexivity]].
  - repeat constructor; vm_compute; try discriminate; auto.
  - assert (W : width_of (Conversion [Hash; Minus] (chars "7") None L_s) = 7) by reflexivity.
    assert (B : forall c t z, std_ty t -> (imin t <=? z) && (z <=? imax t) = true -> z <> imin t \/ isgn t = false -> integer_fits c (base_of c) t z).
    { intros c t z A R K. apply andb_true_iff in R. destruct R as [R1 R2]. apply Z.leb_le in R1, R2. split; [exact A|]. split; [split; assumption|]. intros _ (X & Y & _). destruct K; congruence. }
    assert (S8 : std_ty (ITy 8 false)) by (left; reflexivity). assert (S16 : std_ty (ITy 16 false)) by (right; left; reflexivity). assert (S32 : std_ty (ITy 32 true)) by (right; right; left; reflexivity).
    split; [apply B; [exact S32|reflexivity|left; discriminate]|]. split; [split; [reflexivity|intros _; right; rewrite W; split; [discriminate|left; reflexivity]]|].
    split; [apply B; [exact S16|reflexivity|right; reflexivity]|]. split; [|exact I]. split; [reflexivity|]. constructor; [apply B; [exact S8|reflexivity|right; reflexivity]|].
    constructor; [apply B; [exact S8|reflexivity|right; reflexivity]|constructor].
Qed.
Example C46_bad_example : no_conversion (chars "%") /\ printf 0 (chars "50%% of") [] = Some (chars "50", false).
Proof. split; [|vm_compute; reflexivity]. vm_compute. repeat split; try (intros []; discriminate); intuition discriminate. Qed.

(** ** What is not so *)
(** %% is no percent sign: see C46_bad_example. *)
Theorem C46_percent_refuted : ~ (forall literal args, printf literal (chars "%%") args = Some (chars "%", true)).
Proof. intros H. specialize (H 0 []). vm_compute in H. discriminate. Qed.
(** A string in quotes in a field that has room for it, without padding, loses its last two characters, *)
Theorem C46_quotes_cut_refuted : printf 0 (chars "%#9s") [AScalar (SString 0 (chars "abcd"))] = Some (chars """ab""", true).
Proof. vm_compute. reflexivity. Qed.
(** and if it has less than two, what is after it in memory is written. *)
Theorem C46_quotes_overrun_refuted : printf 0 (chars "%#9s") [AScalar (SString 0 (chars "a"))] = None /\ printf 0 (chars "%#9s") [AScalar (SStream [])] = None.
Proof. split; vm_compute; reflexivity. Qed.
(** A stream of more than 10000 characters is replaced by a message, and true is returned. *)
Theorem C46_big_stream_refuted : printf 0 (chars "%s") [AScalar (SStream (repeat 65 (Z.to_nat 10001)))] = Some (chars "!! too big > 10000 characters!!", true).
Proof. vm_compute. reflexivity. Qed.
(** A boolean in hexadecimal is the address of the word true. *)
Theorem C46_bool_hex_refuted : ~ (forall a b, printf a (chars "%x") [AScalar (SBool true)] = printf b (chars "%x") [AScalar (SBool true)]).
Proof. intros H. specialize (H 1 2). vm_compute in H. discriminate. Qed.
(** A conversion without an argument is dropped, and true is returned. *)
Theorem C46_missing_argument_refuted : printf 0 (chars "a%db") [] = Some (chars "ab", true).
Proof. vm_compute. reflexivity. Qed.
