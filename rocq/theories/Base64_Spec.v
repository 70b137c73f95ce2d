(** RFC 4648 section 4: input is taken in 24 bit groups of three bytes, each giving four characters for
    its four 6 bit groups; a final group of 8 bits gives two characters and "==", of 16 bits three
    characters and "=", missing bits being zero. *)
From Verif Require Import Base.

(** Table 1 of the RFC: value -> character. *)
Definition rfc_char (v : Z) : Z :=
  if v <? 26 then 65 + v else if v <? 52 then 97 + (v - 26) else if v <? 62 then 48 + (v - 52)
  else if v =? 62 then 43 else 47.

Definition sextet (n : Z) (k : Z) : Z := n / 64 ^ k mod 64.

Fixpoint rfc4648 (x : list Z) : list Z :=
  match x with
  | a :: b :: c :: r =>
    let n := a * 65536 + b * 256 + c in
    rfc_char (sextet n 3) :: rfc_char (sextet n 2) :: rfc_char (sextet n 1) :: rfc_char (sextet n 0) :: rfc4648 r
  | [a; b] =>
    let n := a * 65536 + b * 256 in
    [rfc_char (sextet n 3); rfc_char (sextet n 2); rfc_char (sextet n 1); 61]
  | [a] =>
    let n := a * 65536 in
    [rfc_char (sextet n 3); rfc_char (sextet n 2); 61; 61]
  | [] => []
  end.

Definition bytes (x : list Z) : Prop := Forall (fun b => 0 <= b < 256) x.
Definition b64_char (c : Z) : Prop := exists v, 0 <= v < 64 /\ c = rfc_char v.
