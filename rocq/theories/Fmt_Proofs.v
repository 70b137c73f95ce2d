(** Proofs for C46. *)
From Coq Require Import String.
From Verif Require Import Base IntText_Model IntText_Spec IntText_Props Fmt_Model Txt_Model Fmt_Spec.
Open Scope string_scope. Open Scope Z_scope. Open Scope list_scope.

(** ** The conversions *)
Definition not_flag (r : list Z) : Prop := match r with [] => True | c :: _ => lookup c flagsLookup = None end.
Definition fhas (x : flag) (l : list flag) : bool := existsb (fun y => flag_char y =? flag_char x) l.
Definition grammar_bits (l : list flag) : Z := Z.lor (if fhas InJson l then 1 else 0) (if fhas InXml l then 2 else 0).
Lemma parse_flags_spec l : forall r f, not_flag r ->
  parse_flags (map flag_char l ++ r) f =
  (Fd (size f) (precision f) (padded f || (fhas Space l || fhas Minus l)) (leftAligned f || fhas Minus l) (floatNotation f) (binaryNotation f) (binaryPadded f || fhas Zero l) (fullNotation f || fhas Hash l)
      (desiredAction f) (Z.lor (desiredGrammar f) (grammar_bits l)), r).
Proof.
  induction l as [|x l IH]; intros r f N.
  - cbn [map app fhas existsb]. rewrite !orb_false_r. change (grammar_bits []) with 0. rewrite Z.lor_0_r. destruct f. destruct r as [|c r]; [reflexivity|]. cbn [parse_flags]. unfold parse_character. rewrite N. reflexivity.
  - cbn [map app parse_flags]. unfold parse_character.
    assert (X : exists g, lookup (flag_char x) flagsLookup = Some g /\ g = Fd 0 0 (fhas Space [x] || fhas Minus [x]) (fhas Minus [x]) 0 0 (fhas Zero [x]) (fhas Hash [x]) 0 (grammar_bits [x])) by (destruct x; eexists; split; reflexivity).
    destruct X as (g & -> & ->). rewrite IH by exact N. unfold fd_or. cbn [size precision padded leftAligned floatNotation binaryNotation binaryPadded fullNotation desiredAction desiredGrammar]. rewrite !Z.lor_0_r.
    assert (G : forall y, fhas y (x :: l) = fhas y [x] || fhas y l) by (intros y; unfold fhas; cbn [existsb]; rewrite orb_false_r; reflexivity).
    f_equal. f_equal.
    + rewrite !G. destruct (padded f), (fhas Space [x]), (fhas Minus [x]), (fhas Space l), (fhas Minus l); reflexivity.
    + rewrite G. apply eq_sym, orb_assoc.
    + rewrite G. apply eq_sym, orb_assoc.
    + rewrite G. apply eq_sym, orb_assoc.
    + unfold grammar_bits. rewrite (G InJson), (G InXml). destruct x; cbn; destruct (fhas InJson l), (fhas InXml l); cbn; rewrite <- ?Z.lor_assoc, ?Z.lor_0_r; reflexivity.
Qed.
Lemma digit_of c : 48 <= c <= 57 -> get_digit c = c - 48 /\ digit_val c = c - 48.
Proof.
  intros H. unfold get_digit, digit_val. cbn zeta. rewrite (proj2 (Z.leb_le (c - 48) 9)), (proj2 (Z.leb_le 0 (c - 48))), (proj2 (Z.leb_le 48 c)), (proj2 (Z.leb_le c 57)) by lia. split; reflexivity.
Qed.
Definition accumulate (l : list Z) (n : Z) : Z := fold_left (fun acc c => acc * 10 + digit_val c) l n.
Lemma accumulate_grows l : forall n, digits l -> 0 <= n -> n <= accumulate l n.
Proof.
  induction l as [|c l IH]; intros n D P; [cbn; lia|]. inversion D as [|? ? C D']; subst. cbn [accumulate fold_left]. specialize (IH (n * 10 + digit_val c) D'). rewrite (proj2 (digit_of c C)) in *. unfold accumulate in IH. lia.
Qed.
Definition not_digit (r : list Z) : Prop := match r with [] => True | c :: _ => get_digit c = -1 end.
Lemma get_integer_spec l : forall n r, digits l -> 0 <= n -> not_digit r -> accumulate l n < 2 ^ 32 -> get_integer (l ++ r) n = (accumulate l n, r).
Proof.
  induction l as [|c l IH]; intros n r D P N B.
  - cbn [app accumulate fold_left]. destruct r as [|c r]; [reflexivity|]. cbn [get_integer]. cbn in N. rewrite N. reflexivity.
  - inversion D as [|? ? C D']; subst. cbn [app get_integer]. destruct (digit_of c C) as [E E']. rewrite E. rewrite (proj2 (Z.leb_le 0 (c - 48))) by lia.
    cbn [accumulate fold_left] in B. fold (accumulate l (n * 10 + digit_val c)) in B. pose proof (accumulate_grows l (n * 10 + digit_val c) D') as G. rewrite E' in *.
    assert (K : n * 10 + (c - 48) < 2 ^ 32) by lia. rewrite (uwrap_id 32 (n * 10)) by lia. rewrite uwrap_id by lia. rewrite IH by (auto; lia). cbn [accumulate fold_left]. rewrite E'. reflexivity.
Qed.
Lemma get_integer_rest l : forall n r, digits l -> not_digit r -> exists p, get_integer (l ++ r) n = (p, r).
Proof.
  induction l as [|c l IH]; intros n r D N.
  - exists n. cbn [app]. destruct r as [|c r]; [reflexivity|]. cbn [get_integer]. cbn in N. rewrite N. reflexivity.
  - inversion D as [|? ? C D']; subst. cbn [app get_integer]. destruct (digit_of c C) as [E _]. rewrite E. rewrite (proj2 (Z.leb_le 0 (c - 48))) by lia. apply IH; auto.
Qed.
Lemma letter_plain k : lookup (letter_char k) flagsLookup = None /\ get_digit (letter_char k) = -1 /\ letter_char k <> 46.
Proof. destruct k; repeat split; discriminate. Qed.
(** What the conversion says is in the format descriptor. *)
Record describes (f : fd) (c : conversion) : Prop := Describes {
  d_size : size f = width_of c; d_padded : padded f = is_padded c; d_left : leftAligned f = to_left c; d_zeros : binaryPadded f = zeros c; d_full : fullNotation f = full c;
  d_hex : (binaryNotation f =? 1) = is_hex c; d_base : f_not (to_fmt f) = match base_of c with Decimal => DecN | Power k _ => if k =? 4 then HexN else if k =? 3 then OctN else BinN end;
  d_info : (desiredAction f =? 5) = is_info c; d_grammar : desiredGrammar f = grammar_bits (flags c) }.
Lemma before_split c t : good_conversion c -> not_flag t -> not_digit t -> hd 0 t <> 46 -> exists p,
  (let '(f, l) := parse_flags (before_letter c ++ t) fd_default in
   let '(n, l) := get_integer l 0 in
   parse_precision (with_size f n) l) = (Fd (width_of c) p (is_padded c) (to_left c) 0 0 (has Zero c) (has Hash c) 0 (grammar_bits (flags c)), t).
Proof.
  intros (DW & WB & WZ & DP) XF XD XP. unfold before_letter. set (P := match prec c with Some p => 46 :: p | None => [] end). rewrite <- !app_assoc.
  rewrite parse_flags_spec.
  2:{ destruct (width c) as [|d w] eqn:Ew; cbn [app not_flag]; [|inversion DW as [|? ? D _]; subst; cbn in WZ; unfold lookup, flagsLookup;
        repeat match goal with |- (if ?k =? d then _ else _) = None => destruct (Z.eqb_spec k d); [lia|] end; reflexivity].
      subst P. destruct (prec c); [reflexivity|exact XF]. }
  assert (NP : not_digit (P ++ t)) by (subst P; destruct (prec c); [reflexivity|exact XD]).
  rewrite (get_integer_spec (width c) 0 (P ++ t)); [|exact DW|lia|exact NP|exact WB].
  cbn [fd_default size precision padded leftAligned floatNotation binaryNotation binaryPadded fullNotation desiredAction desiredGrammar orb]. rewrite Z.lor_0_l.
  change (accumulate (width c) 0) with (value 10 (width c)). unfold with_size, to_8_bits. cbn [size precision padded leftAligned floatNotation binaryNotation binaryPadded fullNotation desiredAction desiredGrammar].
  fold (width_of c). subst P. unfold parse_precision. destruct (prec c) as [p|] eqn:EP; cbn [app].
  - change (46 =? 46) with true. cbn iota. destruct p as [|d p]; cbn [app].
    + exists 255. destruct t as [|x t]; [reflexivity|]. cbn in XD. rewrite XD. reflexivity.
    + inversion DP as [|? ? D _]; subst. rewrite (proj1 (digit_of d D)). rewrite (proj2 (Z.ltb_ge (d - 48) 0)) by lia.
      destruct (get_integer_rest (d :: p) 0 t DP XD) as [q Q]. change (d :: p ++ t) with ((d :: p) ++ t). rewrite Q. exists (to_8_bits q). reflexivity.
  - exists 255. destruct t as [|x t]; [reflexivity|]. rewrite (proj2 (Z.eqb_neq x 46)) by exact XP. reflexivity.
Qed.
Lemma parsed c r : good_conversion c -> exists f, initialise_from_string (before_letter c ++ letter_char (kind c) :: r) = Some (f, r) /\ describes f c.
Proof.
  intros G. destruct (letter_plain (kind c)) as (A & B & C). destruct (before_split c (letter_char (kind c) :: r) G A B C) as [p E]. unfold initialise_from_string.
  destruct (before_letter c ++ letter_char (kind c) :: r) as [|y l] eqn:X; [destruct (before_letter c); discriminate|].
  destruct (parse_flags (y :: l) fd_default) as [f1 l1]. destruct (get_integer l1 0) as [n l2]. rewrite E. unfold parse_character.
  assert (Y : exists g, lookup (letter_char (kind c)) typesLookup = Some g /\ g = Fd 0 0 false false (floatNotation g) (match kind c with L_x | L_p => 1 | L_o => 3 | L_b => 2 | _ => 0 end) (is_p c) (is_p c) (desiredAction g) 0 /\
               (desiredAction g =? 5) = is_info c) by (unfold is_p, is_info; destruct (kind c); eexists; repeat split; reflexivity).
  destruct Y as (g & -> & Y & Z). eexists. split; [reflexivity|]. rewrite Y. unfold fd_or.
  constructor; cbn [size precision padded leftAligned floatNotation binaryNotation binaryPadded fullNotation desiredAction desiredGrammar to_fmt f_not]; rewrite ?Z.lor_0_r, ?Z.lor_0_l, ?orb_false_r; try reflexivity.
  - unfold is_hex. destruct (kind c); reflexivity.
  - unfold base_of. destruct (kind c); reflexivity.
  - exact Z.
Qed.
Definition not_letter (t : list Z) : Prop := match t with [] => True | x :: _ => lookup x typesLookup = None end.
Lemma not_parsed c t : good_conversion c -> not_flag t -> not_digit t -> hd 0 t <> 46 -> not_letter t -> initialise_from_string (before_letter c ++ t) = None.
Proof.
  intros G A B C D. destruct (before_split c t G A B C) as [p E]. unfold initialise_from_string. destruct (before_letter c ++ t) as [|y l] eqn:X; [reflexivity|].
  destruct (parse_flags (y :: l) fd_default) as [f1 l1]. destruct (get_integer l1 0) as [n l2]. rewrite E. destruct t as [|x t]; [reflexivity|]. unfold parse_character. unfold not_letter in D. rewrite D. reflexivity.
Qed.
Lemma lookup_none x l : ~ In x (map fst l) -> lookup x l = None.
Proof. induction l as [|[k f] l IH]; cbn; [reflexivity|]. intros N. destruct (Z.eqb_spec k x); [tauto|apply IH; tauto]. Qed.

(** ** Texts *)
Definition shows (a : outcome) (P : list Z -> Prop) : Prop := match a with Some (out, r) => r = true /\ P out | None => False end.
Lemma width_pos c : digits (width c) -> 0 <= width_of c <= 255.
Proof. intros D. unfold width_of. pose proof (accumulate_grows (width c) 0 D ltac:(lia)) as H. change (accumulate (width c) 0) with (value 10 (width c)) in H. lia. Qed.
Lemma laid_out s f (q : bool) n padding gap : gap = (if q then 2 else 0) -> 0 <= padding -> (gap < padding \/ gap - padding <= n) -> 0 <= n -> n < 2 ^ 32 ->
  let m := if gap <? padding then n else n - (gap - padding) in
  m <= Z.of_nat (length s) ->
  lay_out s f q n padding gap = put ((if negb (leftAligned f) && (gap <? padding) then spaces (padding - gap) else []) ++ (if q then [34] else []) ++ firstn (Z.to_nat m) s ++ (if q then [34] else [])
     ++ (if leftAligned f && (gap <? padding) then spaces (padding - gap) else [])).
Proof.
  intros -> P K N B m L. subst m. unfold lay_out. cbn zeta. destruct (Z.ltb_spec (if q then 2 else 0) padding) as [X|X].
  - rewrite (proj2 (Z.ltb_ge _ _)) by exact L. rewrite !andb_true_r. reflexivity.
  - rewrite uwrap_id by (destruct q; lia). rewrite (proj2 (Z.ltb_ge _ _)) by exact L. rewrite !andb_false_r. reflexivity.
Qed.
Lemma sizes_spec len f c (q : bool) : describes f c -> good_conversion c -> 0 <= len < 2 ^ 32 - 2 ->
  sizes len f (if q then 2 else 0) =
  (if width_of c =? 0 then len + (if q then 2 else 0) else Z.min len (width_of c), if width_of c =? 0 then 0 else if is_padded c then width_of c - Z.min len (width_of c) else 0,
   if width_of c =? 0 then len + (if q then 2 else 0) else width_of c).
Proof.
  intros D (G & _) B. pose proof (width_pos c G) as W. unfold sizes. rewrite (d_size f c D), (d_padded f c D). destruct (Z.eqb_spec (width_of c) 0) as [E|E].
  - rewrite (proj2 (Z.ltb_ge _ _)) by lia. rewrite uwrap_id by (destruct q; lia). reflexivity.
  - rewrite (proj2 (Z.ltb_lt _ _)) by lia. destruct (Z.ltb_spec (width_of c) len) as [X|X].
    + rewrite Z.min_r by lia. rewrite (Z.ltb_irrefl (width_of c)), andb_false_r. f_equal. f_equal. destruct (is_padded c); lia.
    + rewrite Z.min_l by lia. f_equal. f_equal. destruct (is_padded c); [|reflexivity]. cbn [andb]. destruct (Z.ltb_spec len (width_of c)); [apply uwrap_id; lia|lia].
Qed.
Lemma firstn_z {A} (s : list A) (n : Z) : Z.of_nat (length (firstn (Z.to_nat n) s)) = Z.min (Z.max 0 n) (Z.of_nat (length s)).
Proof. rewrite firstn_length. lia. Qed.
Lemma firstn_past {A} (s : list A) (n m : Z) : (Z.of_nat (length s) <= n)%Z -> (Z.of_nat (length s) <= m)%Z -> firstn (Z.to_nat n) s = firstn (Z.to_nat m) s.
Proof. intros. rewrite !firstn_all2 by lia. reflexivity. Qed.
Lemma minus_padded c : to_left c = true -> is_padded c = true.
Proof. unfold to_left, is_padded. intros ->. apply orb_true_r. Qed.
Lemma laid_out_shown s f c q : describes f c -> good_conversion c -> text_fits c q s ->
  let gap := if q then 2 else 0 in
  let '(n, padding, desSize) := sizes (Z.of_nat (length s)) f gap in
  gap <= desSize /\ shows (lay_out s f q n padding gap) (text_shown c q s) /\ n <= (if width_of c =? 0 then Z.of_nat (length s) + gap else width_of c).
Proof.
  intros D G (B & F). cbn zeta. rewrite (sizes_spec _ f c q D G) by lia. pose proof (width_pos c (proj1 G)) as W. pose proof (minus_padded c) as ML. unfold text_shown. cbn zeta.
  destruct (Z.eqb_spec (width_of c) 0) as [E|E].
  - split; [destruct q; lia|]. split; [|lia]. rewrite laid_out; try reflexivity; try (destruct q; lia).
    + unfold put, shows. split; [reflexivity|]. replace ((if q then 2 else 0) <? 0) with false by (destruct q; reflexivity). rewrite !andb_false_r. cbn [app]. rewrite app_nil_r.
      rewrite firstn_all2 by (destruct q; lia). reflexivity.
    + destruct ((if q then 2 else 0) <? 0) eqn:X; destruct q; cbn in X; try discriminate; lia.
  - assert (Q : (if q then 2 else 0) <= width_of c) by (destruct q; [destruct (F eq_refl) as [H|[H _]]; lia|lia]). split; [exact Q|]. split; [|lia].
    set (len := Z.of_nat (length s)) in *. set (w := width_of c) in *. set (gap := if q then 2 else 0) in *. assert (GP : gap = 0 \/ (gap = 2 /\ q = true)) by (subst gap; destruct q; auto).
    rewrite laid_out; [|reflexivity| | | | |].
    + unfold put, shows. split; [reflexivity|]. rewrite (d_left f c D).
      assert (LT : Z.of_nat (length ((if q then [34] else []) ++ firstn (Z.to_nat (w - gap)) s ++ (if q then [34] else []))) = Z.min (w - gap) len + gap).
      { rewrite !app_length, !Nat2Z.inj_add, firstn_z. fold len. subst gap. destruct q; cbn [length]; lia. }
      rewrite LT. destruct (is_padded c) eqn:P.
      * destruct (Z.ltb_spec gap (w - Z.min len w)) as [X|X].
        { rewrite !andb_true_r. assert (FE : firstn (Z.to_nat (Z.min len w)) s = firstn (Z.to_nat (w - gap)) s) by (apply firstn_past; fold len; lia). rewrite FE.
          unfold spaces. replace (w - (Z.min (w - gap) len + gap)) with (w - Z.min len w - gap) by lia. destruct (to_left c); cbn [negb app]; rewrite ?app_nil_r, <- ?app_assoc; reflexivity. }
        { rewrite !andb_false_r. cbn [app]. rewrite app_nil_r. replace (w - (Z.min (w - gap) len + gap)) with 0 by lia. cbn [Z.to_nat repeat app].
          replace (Z.min len w - (gap - (w - Z.min len w))) with (w - gap) by lia. destruct (to_left c); rewrite ?app_nil_r; reflexivity. }
      * assert (TL : to_left c = false) by (apply not_true_is_false; intros X; apply ML in X; congruence). replace (gap <? 0) with false by (symmetry; apply Z.ltb_ge; destruct GP; lia).
        rewrite !andb_false_r. cbn [app]. rewrite app_nil_r. destruct GP as [GZ|[GZ Q1]].
        { f_equal. f_equal. rewrite GZ. rewrite Z.sub_0_r. destruct (Z.leb_spec len w); [apply firstn_past; fold len; lia|f_equal; lia]. }
        { destruct (F Q1) as [H|[_ [H|H]]]; [lia|discriminate|]. f_equal. f_equal. f_equal. lia. }
    + destruct (is_padded c); lia.
    + destruct (Z.ltb_spec gap (if is_padded c then w - Z.min len w else 0)); [left; assumption|right]. destruct (is_padded c); [lia|]. destruct GP as [->|[GZ Q1]]; [lia|]. destruct (F Q1) as [X|[_ [X|X]]]; [lia|discriminate|lia].
    + lia.
    + lia.
    + fold len. destruct (gap <? (if is_padded c then w - Z.min len w else 0)) eqn:X; [lia|]. apply Z.ltb_ge in X. destruct (is_padded c); [|destruct GP; lia]. lia.
Qed.
Lemma ccstring_shown s f c q : describes f c -> good_conversion c -> text_fits c q s -> shows (print_ccstring s f q) (text_shown c q s).
Proof.
  intros D G F. pose proof (laid_out_shown s f c q D G F) as L. unfold print_ccstring. cbn zeta in *. destruct F as [B _]. rewrite uwrap_id by lia.
  destruct (sizes (Z.of_nat (length s)) f (if q then 2 else 0)) as [[n p] d]. destruct L as (A & L & _). rewrite (proj2 (Z.leb_le _ _)) by exact A. exact L.
Qed.
Lemma stream_shown s f c q : describes f c -> good_conversion c -> text_fits c q s -> (0 < width_of c \/ Z.of_nat (length s) + (if q then 2 else 0) <= 10000) -> shows (print_stream s f q) (text_shown c q s).
Proof.
  intros D G F K. pose proof (laid_out_shown s f c q D G F) as L. unfold print_stream. cbn zeta in *. destruct F as [B _]. rewrite uwrap_id by lia. pose proof (width_pos c (proj1 G)) as W.
  destruct (sizes (Z.of_nat (length s)) f (if q then 2 else 0)) as [[n p] d]. destruct L as (A & L & M). rewrite (proj2 (Z.leb_le _ _)) by exact A.
  rewrite (proj2 (Z.ltb_ge _ _)); [exact L|]. destruct (Z.eqb_spec (width_of c) 0); lia.
Qed.

(** ** Integers *)
Lemma integer_shown_ok t z f c b : good_conversion c -> size f = width_of c -> padded f = is_padded c -> leftAligned f = to_left c -> binaryPadded f = zeros c -> fullNotation f = full c ->
  match b with Decimal => f_not (to_fmt f) = DecN | Power k m => (k = 4 /\ m = 120 /\ f_not (to_fmt f) = HexN) \/ (k = 3 /\ m = 111 /\ f_not (to_fmt f) = OctN) \/ (k = 1 /\ m = 98 /\ f_not (to_fmt f) = BinN) end ->
  integer_fits c b t z -> shows (print_integer t z f) (integer_shown c b t z).
Proof.
  intros (G & _) E1 E2 E3 E4 E5 N (ST & IT & NM). pose proof (width_pos c G) as W. unfold print_integer, integer_to_stream, integer_shown. cbn zeta.
  assert (ZP : 0 <= (if zeros c then ibits t else 0) <= 64) by (clear - ST; unfold std_ty in ST; destruct (zeros c); lia).
  assert (W0 : 0 <= width_of c) by apply W. assert (Z0 : 0 <= (if zeros c then ibits t else 0)) by apply ZP. assert (Z9 : width_of c = 0 -> (if zeros c then ibits t else 0) <= 900) by (intros _; apply (Z.le_trans _ 64 _ (proj2 ZP)); discriminate).
  destruct b as [|k m].
  - rewrite N. cbn [to_fmt f_size f_padded f_left f_binpad]. rewrite E1, E2, E3, E4.
    destruct (C01_decimal_print_field t z (width_of c) (is_padded c) (to_left c) (zeros c) ST IT W0) as (text & out & A & B & C).
    { intros (X & Y & Z). apply (NM eq_refl). repeat split; auto; destruct (Z.eqb_spec (width_of c) 0); congruence. }
    rewrite B. split; [reflexivity|]. exists text. split; assumption.
  - destruct N as [(-> & -> & ->)|[(-> & -> & ->)|(-> & -> & ->)]]; cbn [to_fmt f_size f_padded f_left f_binpad f_full]; rewrite E1, E2, E3, E4, E5; (split; [reflexivity|]).
    + destruct (C01_hex_print_field t z (width_of c) (is_padded c) (to_left c) (if zeros c then ibits t else 0) (full c) ST IT W0 Z0 Z9) as (d & A & B).
      exists d. split; [exact A|]. cbn zeta in B. replace (if zeros c then (ibits t + (4 - 1)) / 4 else 0) with (((if zeros c then ibits t else 0) + 3) / 4) by (destruct (zeros c); reflexivity). exact B.
    + destruct (C01_oct_print_field t z (width_of c) (is_padded c) (to_left c) (if zeros c then ibits t else 0) (full c) ST IT W0 Z0 Z9) as (d & A & B).
      exists d. split; [exact A|]. cbn zeta in B. replace (if zeros c then (ibits t + (3 - 1)) / 3 else 0) with (((if zeros c then ibits t else 0) + 2) / 3) by (destruct (zeros c); reflexivity). exact B.
    + destruct (C01_bin_print_field t z (width_of c) (is_padded c) (to_left c) (if zeros c then ibits t else 0) (full c) ST IT W0 Z0 Z9) as (d & A & B).
      exists d. split; [exact A|]. cbn zeta in B. replace (if zeros c then (ibits t + (1 - 1)) / 1 else 0) with (((if zeros c then ibits t else 0) + 0) / 1) by (destruct (zeros c); reflexivity). exact B.
Qed.
Lemma integer_described t z f c : describes f c -> good_conversion c -> integer_fits c (base_of c) t z -> shows (print_integer t z f) (integer_shown c (base_of c) t z).
Proof.
  intros D G F. apply integer_shown_ok; auto; try apply D. pose proof (d_base f c D) as B. unfold base_of in *. destruct (kind c); auto.
Qed.
Lemma hex_described t z f c : describes f c -> good_conversion c -> integer_fits c hexadecimal t z -> f_not (to_fmt f) = HexN -> shows (print_integer t z f) (integer_shown c hexadecimal t z).
Proof. intros D G F N. apply integer_shown_ok; auto; try apply D. left. auto. Qed.

(** ** Arguments *)
Lemma shows_mono a (P Q : list Z -> Prop) : (forall x, P x -> Q x) -> shows a P -> shows a Q.
Proof. intros H. destruct a as [[o r]|]; [|auto]. intros [A B]. split; auto. Qed.
Lemma print_string_shown literal s f c : describes f c -> good_conversion c -> is_hex c = false -> text_fits c (full c) s -> shows (print_string literal s f) (text_shown c (full c) s).
Proof. intros D G N F. unfold print_string. rewrite (d_hex f c D), N, (d_full f c D). apply ccstring_shown; assumption. Qed.
Lemma info_not_hex c : is_info c = true -> is_hex c = false.
Proof. unfold is_info, is_hex. destruct (kind c); congruence. Qed.
Lemma hex_base f c : describes f c -> is_hex c = true -> f_not (to_fmt f) = HexN.
Proof. intros D H. rewrite (d_base f c D). unfold is_hex, base_of in *. destruct (kind c); try discriminate; reflexivity. Qed.
Lemma scalar_shown_ok literal s f c : describes f c -> good_conversion c -> scalar_fits c s -> shows (print_scalar literal s f) (scalar_shown c s).
Proof.
  intros D G F. unfold print_scalar, scalar_shown, scalar_fits in *. rewrite (d_info f c D). destruct (is_info c) eqn:I.
  - pose proof (info_not_hex c I) as H. destruct F as [N F]. destruct s as [t z|b|p|p x|x|x|]; try congruence; unfold info_text in *; apply print_string_shown; assumption.
  - destruct s as [t z|b|p|p x|x|x|].
    + apply integer_described; assumption.
    + destruct F as [H F]. destruct b; apply print_string_shown; assumption.
    + apply (integer_shown_ok uint64 p (with_hex f) c hexadecimal); auto; try apply D. left. auto.
    + unfold print_string. rewrite (d_hex f c D). destruct (is_hex c) eqn:H; [apply hex_described; eauto using hex_base|]. rewrite (d_full f c D). apply ccstring_shown; assumption.
    + rewrite (d_full f c D). apply ccstring_shown; assumption.
    + destruct F as [F K]. rewrite (d_full f c D). apply stream_shown; assumption.
    + destruct F.
Qed.
Lemma shows_put l (P : list Z -> Prop) : P l -> shows (put l) P.
Proof. split; [reflexivity|assumption]. Qed.
Lemma shows_then a b (P Q R : list Z -> Prop) : shows a P -> shows b Q -> (forall x y, P x -> Q y -> R (x ++ y)) -> shows (andthen a b) R.
Proof. destruct a as [[x r]|]; [|intros []]. intros [-> A] B H. destruct b as [[y r]|]; [|destruct B]. destruct B as [-> B]. split; [reflexivity|auto]. Qed.
Lemma grammar_chosen f c s j : describes f c -> has InJson c && has InXml c = false -> by_grammar f s j j = put (if bracketed c then j else s).
Proof.
  intros D N. unfold by_grammar. rewrite (d_grammar f c D). unfold grammar_bits, bracketed. change (fhas InJson (flags c)) with (has InJson c). change (fhas InXml (flags c)) with (has InXml c).
  destruct (has InJson c), (has InXml c); try discriminate; reflexivity.
Qed.
Section Args.
Context (literal : Z) (f : fd) (c : conversion) (D : describes f c) (G : good_conversion c) (N : has InJson c && has InXml c = false).
Lemma comma_ok {X} (l : list X) : match l with [] => put [] | _ => separator f end = put (comma c (more l)).
Proof. unfold separator. rewrite (grammar_chosen f c _ _ D N). unfold comma. destruct l; [reflexivity|]. cbn [more andb]. destruct (bracketed c); reflexivity. Qed.
Lemma elements_ok l : Forall (scalar_fits c) l -> shows (elements literal l f) (elements_shown c l).
Proof.
  induction 1 as [|s l F FL IH]; [apply shows_put; constructor|]. cbn [elements].
  apply (shows_then _ _ (scalar_shown c s) (fun y => exists out, elements_shown c l out /\ y = comma c (more l) ++ [32] ++ out)).
  - apply scalar_shown_ok; assumption.
  - rewrite comma_ok. apply (shows_then _ _ (eq (comma c (more l))) (fun y => exists out, elements_shown c l out /\ y = [32] ++ out)); [apply shows_put; reflexivity| |].
    + apply (shows_then _ _ (eq [32]) (elements_shown c l)); [apply shows_put; reflexivity|exact IH|]. intros x y <- H. eauto.
    + intros x y <- (o & H & ->). exists o. split; [exact H|]. reflexivity.
  - intros x y A (o & B & ->). constructor; assumption.
Qed.
Lemma brackets_ok a (P : list Z -> Prop) : shows a P -> shows (andthen (open_ f) (andthen (put [32]) (andthen a (andthen (close_ f) (put [32]))))) (fun out => exists o, P o /\ out = opens c ++ o ++ closes c).
Proof.
  intros A. unfold open_, close_. rewrite !(grammar_chosen f c _ _ D N).
  apply (shows_then _ _ (eq (if bracketed c then [91] else [123])) (fun y => exists o, P o /\ y = [32] ++ o ++ closes c)); [apply shows_put; reflexivity| |].
  - apply (shows_then _ _ (eq [32]) (fun y => exists o, P o /\ y = o ++ closes c)); [apply shows_put; reflexivity| |intros x y <- (o & H & ->); eauto].
    apply (shows_then _ _ P (eq (closes c))); [exact A| |intros x y H <-; eauto]. unfold closes. destruct (bracketed c); apply shows_put; reflexivity.
  - intros x y <- (o & H & ->). exists o. split; [exact H|]. unfold opens. destruct (bracketed c); reflexivity.
Qed.
Lemma vector_ok l : Forall (scalar_fits c) l -> shows (print_vector literal l f) (vector_shown c l).
Proof. intros F. eapply shows_mono; [|apply brackets_ok, elements_ok, F]. intros x (o & H & ->). constructor. exact H. Qed.
Lemma rows_ok l : Forall (Forall (scalar_fits c)) l -> shows (rows literal l f) (rows_shown c l).
Proof.
  induction 1 as [|v l F FL IH]; [apply shows_put; constructor|]. cbn [rows].
  apply (shows_then _ _ (vector_shown c v) (fun y => exists out, rows_shown c l out /\ y = comma c (more l) ++ out)).
  - apply vector_ok; assumption.
  - rewrite comma_ok. apply (shows_then _ _ (eq (comma c (more l))) (rows_shown c l)); [apply shows_put; reflexivity|exact IH|]. intros x y <- H. eauto.
  - intros x y A (o & B & ->). constructor; assumption.
Qed.
End Args.
Lemma arg_ok literal f c a : describes f c -> good_conversion c -> arg_fits c a -> shows (print_to_stream literal a f) (arg_shown c a).
Proof.
  intros D G F. destruct a as [s|l|l]; cbn [arg_fits print_to_stream arg_shown] in *.
  - apply scalar_shown_ok; assumption.
  - apply vector_ok; tauto.
  - destruct F as [N F]. apply brackets_ok; auto. apply rows_ok; assumption.
Qed.

(** ** Formats *)
Lemma conversion_split c r : conversion_text c ++ r = 37 :: before_letter c ++ letter_char (kind c) :: r.
Proof. unfold conversion_text. cbn [app]. rewrite <- app_assoc. reflexivity. Qed.
Lemma formatted literal tail x : (forall fuel pars, (length tail < fuel)%nat -> print_formatted literal fuel tail pars = Some ([], x)) ->
  forall l fuel pars, Forall good_piece l -> fit l pars -> (length (format_text l ++ tail) < fuel)%nat ->
  match print_formatted literal fuel (format_text l ++ tail) pars with Some (out, r) => r = x /\ says l pars out | None => False end.
Proof.
  intros T. induction l as [|p l IH]; intros fuel pars GP F B.
  - cbn [format_text flat_map app] in *. rewrite T by exact B. split; [reflexivity|constructor].
  - inversion GP as [|? ? G1 G2]; subst. destruct fuel as [|k]; [lia|]. destruct p as [ch|c].
    + cbn [format_text flat_map piece_text app length] in *. fold (format_text l) in *. cbn [print_formatted]. cbn in G1. rewrite (proj2 (Z.eqb_neq ch 37)) by exact G1.
      assert (FL : fit l pars) by (destruct pars; exact F). specialize (IH k pars G2 FL ltac:(lia)). unfold put, andthen. destruct (print_formatted literal k (format_text l ++ tail) pars) as [[o r]|]; [|exact IH].
      destruct IH as [-> IH]. split; [reflexivity|]. apply YLiteral. exact IH.
    + cbn [format_text flat_map piece_text] in *. fold (format_text l) in *. rewrite <- app_assoc in *. rewrite conversion_split in *. cbn [print_formatted]. change (37 =? 37) with true. cbn iota.
      destruct (parsed c (format_text l ++ tail) G1) as (f & E & D). rewrite E. cbn [length] in B. rewrite app_length in B. cbn [length] in B.
      destruct pars as [|a pars].
      * assert (FL : fit l []) by (clear; induction l as [|[|] l IH]; cbn; auto).
        specialize (IH k [] G2 FL ltac:(lia)). destruct (print_formatted literal k (format_text l ++ tail) []) as [[o r]|]; [|exact IH]. destruct IH as [-> IH]. split; [reflexivity|]. constructor. exact IH.
      * destruct F as [FA FL]. pose proof (arg_ok literal f c a D G1 FA) as A. specialize (IH k pars G2 FL ltac:(lia)). unfold andthen. destruct (print_to_stream literal a f) as [[o r]|]; [|exact A].
        destruct A as [-> A]. destruct (print_formatted literal k (format_text l ++ tail) pars) as [[o' r]|]; [|exact IH]. destruct IH as [-> IH]. split; [reflexivity|]. constructor; assumption.
Qed.
