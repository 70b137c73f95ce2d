(** C46: what a formatted print should write. A format is made of literal characters and conversions; every conversion stands for the text of the next argument. *)
From Coq Require Import String.
From Verif Require Import Base IntText_Spec Fmt_Model Txt_Model.
Open Scope string_scope. Open Scope Z_scope. Open Scope list_scope.

(** ** Formats *)
Inductive flag := Space | Minus | Zero | Hash | InStandard | InJson | InXml.
Definition flag_char (x : flag) : Z := match x with Space => 32 | Minus => 45 | Zero => 48 | Hash => 35 | InStandard => 83 | InJson => 74 | InXml => 88 end.
Inductive letter := L_any | L_info | L_struct | L_d | L_i | L_u | L_s | L_c | L_f | L_F | L_e | L_E | L_g | L_G | L_x | L_p | L_o | L_b.
Definition letter_char (x : letter) : Z :=
  match x with L_any => 33 | L_info => 63 | L_struct => 64 | L_d => 100 | L_i => 105 | L_u => 117 | L_s => 115 | L_c => 99 | L_f => 102 | L_F => 70 | L_e => 101 | L_E => 69 | L_g => 103 | L_G => 71
             | L_x => 120 | L_p => 112 | L_o => 111 | L_b => 98 end.
(** Flags, width (the empty text, or a numeral), precision (None: there is no dot), letter *)
Record conversion := Conversion { flags : list flag; width : list Z; prec : option (list Z); kind : letter }.
Definition digits (l : list Z) : Prop := Forall (fun c => 48 <= c <= 57) l.
(** The width is below 2^32 and does not begin with 0 (that is a flag). *)
Definition good_conversion (c : conversion) : Prop :=
  digits (width c) /\ value 10 (width c) < 2 ^ 32 /\ hd 0 (width c) <> 48 /\ match prec c with Some p => digits p | None => True end.
Definition before_letter (c : conversion) : list Z := map flag_char (flags c) ++ width c ++ match prec c with Some p => 46 :: p | None => [] end.
Definition conversion_text (c : conversion) : list Z := 37 :: before_letter c ++ [letter_char (kind c)].
Inductive piece := Literal (c : Z) | Convert (c : conversion).
Definition piece_text (p : piece) : list Z := match p with Literal c => [c] | Convert c => conversion_text c end.
Definition format_text (l : list piece) : list Z := flat_map piece_text l.
Definition good_piece (p : piece) : Prop := match p with Literal c => c <> 37 | Convert c => good_conversion c end.

(** ** What a conversion asks for *)
Definition has (x : flag) (c : conversion) : bool := existsb (fun y => flag_char y =? flag_char x) (flags c).
(** The width, of at most 255 characters; 0: no width *)
Definition width_of (c : conversion) : Z := Z.min (value 10 (width c)) 255.
Definition is_padded (c : conversion) : bool := has Space c || has Minus c.
Definition to_left (c : conversion) : bool := has Minus c.
Definition is_p (c : conversion) : bool := match kind c with L_p => true | _ => false end.
Definition zeros (c : conversion) : bool := has Zero c || is_p c.
Definition full (c : conversion) : bool := has Hash c || is_p c.
Definition is_info (c : conversion) : bool := match kind c with L_info => true | _ => false end.
(** The base, with its mark: 10 unless the letter is x, p, o or b *)
Inductive base := Decimal | Power (k : Z) (mark : Z).
Definition base_of (c : conversion) : base := match kind c with L_x | L_p => Power 4 120 | L_o => Power 3 111 | L_b => Power 1 98 | _ => Decimal end.
Definition hexadecimal : base := Power 4 120.
Definition is_hex (c : conversion) : bool := match kind c with L_x | L_p => true | _ => false end.

(** ** The text of an argument *)
Definition integer_shown (c : conversion) (b : base) (t : ity) (z : Z) (out : list Z) : Prop :=
  let w := width_of c in
  match b with
  | Decimal => exists text, decimal_text text z /\ field (if w =? 0 then 20 else w) (if w =? 0 then false else is_padded c || zeros c) (to_left c) (if zeros c then 48 else 32) text out
  | Power k mark =>
      exists d, canonical (2 ^ k) d (uwrap (ibits t) z) /\
      let W := if w =? 0 then 1000 else w in
      let needed := if zeros c then (ibits t + (k - 1)) / k else 0 in
      let wanted := Z.max (Z.of_nat (length d)) (Z.min needed (W - (if full c then 2 else 0))) in
      field W (if w =? 0 then false else is_padded c) (to_left c) 32 ((if full c then [48; mark] else []) ++ repeat 48 (Z.to_nat (wanted - Z.of_nat (length d))) ++ d) out
  end.
(** A text in a field of [w] characters: cut if it is too long, padded with spaces if that is asked for; in quotes, which are part of the field. *)
Definition text_shown (c : conversion) (quotes : bool) (text out : list Z) : Prop :=
  let w := width_of c in
  let q := if quotes then [34] else [] in
  if w =? 0 then out = q ++ text ++ q else
  let t := q ++ firstn (Z.to_nat (w - (if quotes then 2 else 0))) text ++ q in
  let pad := repeat 32 (Z.to_nat (w - Z.of_nat (length t))) in
  out = if is_padded c then if to_left c then t ++ pad else pad ++ t else t.
Definition info_text (s : scalar) : list Z :=
  match s with
  | SInt t _ => if isgn t then chars "Signed Integer" else chars "Unsigned Integer"
  | SBool _ => chars "BooleanType" | SPointer _ => chars "Pointer" | SString _ _ => chars "Char String" | SArray _ => chars "Char Array" | SStream _ => chars "Stream" | SNull => []
  end.
Definition scalar_shown (c : conversion) (s : scalar) (out : list Z) : Prop :=
  if is_info c then text_shown c (full c) (info_text s) out else
  match s with
  | SInt t z => integer_shown c (base_of c) t z out
  | SBool b => text_shown c (full c) (chars (if b then "true" else "false")) out
  | SPointer p => integer_shown c hexadecimal uint64 p out
  | SString p x => if is_hex c then integer_shown c hexadecimal uint64 p out else text_shown c (full c) x out
  | SArray x | SStream x => text_shown c (full c) x out
  | SNull => False
  end.
(** Vectors and matrices: { a b c }, or [ a, b, c ] in JSON and XML *)
Definition bracketed (c : conversion) : bool := has InJson c || has InXml c.
Definition opens (c : conversion) : list Z := chars (if bracketed c then "[ " else "{ ").
Definition closes (c : conversion) : list Z := chars (if bracketed c then "] " else "} ").
Definition comma (c : conversion) (more : bool) : list Z := if more && bracketed c then [44] else [].
Definition more {X} (l : list X) : bool := match l with [] => false | _ => true end.
Inductive elements_shown (c : conversion) : list scalar -> list Z -> Prop :=
| ENil : elements_shown c [] []
| ECons s l o out : scalar_shown c s o -> elements_shown c l out -> elements_shown c (s :: l) (o ++ comma c (more l) ++ [32] ++ out).
Inductive vector_shown (c : conversion) (l : list scalar) : list Z -> Prop :=
| Vshown out : elements_shown c l out -> vector_shown c l (opens c ++ out ++ closes c).
Inductive rows_shown (c : conversion) : list (list scalar) -> list Z -> Prop :=
| RNil : rows_shown c [] []
| RCons v l o out : vector_shown c v o -> rows_shown c l out -> rows_shown c (v :: l) (o ++ comma c (more l) ++ out).
Definition arg_shown (c : conversion) (a : arg) (out : list Z) : Prop :=
  match a with
  | AScalar s => scalar_shown c s out
  | AVector l => vector_shown c l out
  | AMatrix l => exists o, rows_shown c l o /\ out = opens c ++ o ++ closes c
  end.
(** ** The text of a format: literals, and the arguments in order; a conversion after the last argument stands for nothing. *)
Inductive says : list piece -> list arg -> list Z -> Prop :=
| YEnd args : says [] args []
| YLiteral c l args out : says l args out -> says (Literal c :: l) args (c :: out)
| YConvert c l a args o out : arg_shown c a o -> says l args out -> says (Convert c :: l) (a :: args) (o ++ out)
| YMissing c l out : says l [] out -> says (Convert c :: l) [] out.

(** ** The arguments that fit the conversions *)
Definition text_fits (c : conversion) (quotes : bool) (text : list Z) : Prop :=
  Z.of_nat (length text) < 2 ^ 32 - 2 /\ (quotes = true -> width_of c = 0 \/ (2 <= width_of c /\ (is_padded c = true \/ width_of c <= Z.of_nat (length text)))).
Definition integer_fits (c : conversion) (b : base) (t : ity) (z : Z) : Prop :=
  std_ty t /\ in_ty t z /\ (b = Decimal -> ~ (isgn t = true /\ z = imin t /\ width_of c <> 0 /\ is_padded c || zeros c = true)).
Definition scalar_fits (c : conversion) (s : scalar) : Prop :=
  if is_info c then s <> SNull /\ text_fits c (full c) (info_text s) else
  match s with
  | SInt t z => integer_fits c (base_of c) t z
  | SBool b => is_hex c = false /\ text_fits c (full c) (chars (if b then "true" else "false"))
  | SPointer p => integer_fits c hexadecimal uint64 p
  | SString p x => if is_hex c then integer_fits c hexadecimal uint64 p else text_fits c (full c) x
  | SArray x => text_fits c (full c) x
  | SStream x => text_fits c (full c) x /\ ((0 < width_of c) \/ Z.of_nat (length x) + (if full c then 2 else 0) <= 10000)
  | SNull => False
  end.
Definition arg_fits (c : conversion) (a : arg) : Prop :=
  match a with
  | AScalar s => scalar_fits c s
  | AVector l => has InJson c && has InXml c = false /\ Forall (scalar_fits c) l
  | AMatrix l => has InJson c && has InXml c = false /\ Forall (Forall (scalar_fits c)) l
  end.
Fixpoint fit (l : list piece) (args : list arg) : Prop :=
  match l, args with
  | Literal _ :: l, _ => fit l args
  | Convert c :: l, a :: args => arg_fits c a /\ fit l args
  | _, _ => True
  end.
