(** What a client writes in a request, independently of the code: percent encoding (RFC 3986) and the text of a request
    (RFC 7230). Texts are lists of bytes. *)
From Verif Require Import Base.
Open Scope Z_scope.

(** A hexadecimal digit and its value. *)
Definition hex_digit (d v : Z) : Prop := (48 <= d <= 57 /\ v = d - 48) \/ (65 <= d <= 70 /\ v = d - 55) \/ (97 <= d <= 102 /\ v = d - 87).

(** The bytes that cannot be written as themselves: NUL, tab, LF, CR, space, percent, and the ones that separate: & / = ? *)
Definition special (c : Z) : Prop := In c [0; 9; 10; 13; 32; 37; 38; 47; 61; 63].
Definition byte (c : Z) : Prop := 0 <= c < 256.
(** [escaped e t]: [e] is a percent encoding of [t]; any byte may be written as % and two digits. *)
Inductive escaped : list Z -> list Z -> Prop :=
| ENil : escaped [] []
| EPlain c e t : byte c -> ~ special c -> escaped e t -> escaped (c :: e) (c :: t)
| EHex a b x y e t : hex_digit a x -> hex_digit b y -> escaped e t -> escaped (37 :: a :: b :: e) (16 * x + y :: t).

(** A text of C: it holds no NUL. *)
Definition no_nul (t : list Z) : Prop := ~ In 0 t.

Fixpoint joined (sep : list Z) (l : list (list Z)) : list Z :=
  match l with [] => [] | [x] => x | x :: r => x ++ sep ++ joined sep r end.

(** The texts of an address: the parts of the path, each after a slash (one slash when there is none), and the query
    name=value&name=value. *)
Definition path_text (parts : list (list Z)) : list Z :=
  match parts with [] => [47] | _ => concat (map (fun p => 47 :: p) parts) end.
Definition query_text (query : list (list Z * list Z)) : list Z := joined [38] (map (fun q => fst q ++ 61 :: snd q) query).
(** A line of the header: name, colon, space, value, CR, LF. *)
Definition option_text (o : list Z * list Z) : list Z := fst o ++ [58; 32] ++ snd o ++ [13; 10].

(** A token: not empty, with no NUL, tab, LF, CR or space. *)
Definition word (t : list Z) : Prop := t <> [] /\ (forall c, In c t -> ~ In c [0; 9; 10; 13; 32]).
(** A name of an option: a word with no colon. A value: no control character, no space at the ends. *)
Definition option_name (t : list Z) : Prop := word t /\ ~ In 58 t.
Definition option_value (t : list Z) : Prop :=
  (forall c, In c t -> ~ In c [0; 9; 10; 13]) /\ hd 0 t <> 32 /\ last t 0 <> 32.

(** A whole request. *)
Definition request_text (command path : list Z) (query : option (list Z)) (version : list Z) (options : list (list Z * list Z)) : list Z :=
  command ++ [32] ++ path ++ (match query with None => [] | Some q => 63 :: q end) ++ [32] ++ version ++ [13; 10]
    ++ concat (map option_text options) ++ [13; 10].

(** A part of a path that the server can tell from its neighbours: not empty, no NUL, slash or backslash. *)
Definition good_part (p : list Z) : Prop := p <> [] /\ ~ In 0 p /\ ~ In 47 p /\ ~ In 92 p.
(** [e] is the encoding of the name and value [q]; the name is not empty, and what is written is longer than 3 characters. *)
Definition good_pair (e q : list Z * list Z) : Prop :=
  escaped (fst e) (fst q) /\ escaped (snd e) (snd q) /\ fst q <> [] /\ ~ In 0 (fst q) /\ ~ In 0 (snd q) /\
  3 < Z.of_nat (length (fst e)) + 1 + Z.of_nat (length (snd e)).
