(** C47: the specification. Which databases can be printed, and what the parsers make of the text: the same tree, every element as its text. *)
From Coq Require Import String.
From Verif Require Import Base Paths IntText_Spec Lex_Model Lex_Spec Reads Slk_Model Txt_Model Fmt_Model ConfigDB_Spec Cfg_Model.
Open Scope string_scope. Open Scope nat_scope. Open Scope list_scope.

(** ** What can be printed *)
(** The text of an element; a number is written as it is, anything else in quotes. *)
Definition element_text (s : scalar) (text : list Z) : Prop :=
  match s with SInt _ z => decimal_text text z | SBool b => text = chars (if b then "true" else "false") | SString _ x | SArray x => text = x | _ => False end.
Definition is_number (s : scalar) : bool := match s with SInt _ _ => true | _ => false end.
Definition printable_scalar (s : scalar) : Prop :=
  match s with SInt t z => std_ty t /\ in_ty t z | SBool _ => True | SString _ x | SArray x => Forall plain x /\ (Z.of_nat (List.length x) < 2 ^ 32 - 2)%Z | _ => False end.
(** The dimensions are those of the elements, which are all numbers or all texts. *)
Definition printable_value (v : value scalar) : Prop :=
  vdims v <= 2 /\ 1 <= vcols v /\ 1 <= vrows v /\ List.length (velems v) = vrows v * vcols v /\ (vdims v = 0 -> vcols v = 1) /\ (vdims v <= 1 -> vrows v = 1) /\
  Forall printable_scalar (velems v) /\ (forallb is_number (velems v) || forallb (fun s => negb (is_number s)) (velems v)) = true.
(** Names that are written without quotes, names that are written in quotes *)
Definition short (n : string) : Prop := (Z.of_nat (List.length (chars n)) < 2 ^ 32 - 2)%Z.
Definition word_name (G : grammar) (n : string) : Prop := good_name n /\ short n /\ Forall (ordinary G) (chars n) /\ ~ numeric G (chars n).
Definition quoted_name (n : string) : Prop := good_name n /\ short n /\ Forall plain (chars n).
(** Below the current node no directory is empty, none is deeper than [deepest], and names and values are good. *)
Definition printable_tree (name : string -> Prop) (val : value scalar -> Prop) (deepest : nat) (t : tree (value scalar)) : Prop :=
  forall q, match ent t (at_ t ++ q) with
            | Some Dir => (q <> [] -> names t (at_ t ++ q) <> []) /\ List.length q <= deepest /\ Forall name (names t (at_ t ++ q))
            | Some (Val v) => val v
            | None => True
            end.

(** ** What the text means *)
Section Written.
Context {E : Type} (conv : string -> string -> option E).
Definition written_value (v : value scalar) (v' : value E) : Prop :=
  vtype v' = "string" /\ vdims v' = vdims v /\ vcols v' = vcols v /\ vrows v' = vrows v /\
  Forall2 (fun s e => exists text, element_text s text /\ conv "string" (text_of text) = Some e) (velems v) (velems v').
(** [t'], seen from its root, is [t], seen from its current node. *)
Definition written (t : tree (value scalar)) (t' : tree (value E)) : Prop :=
  at_ t' = [] /\
  forall q, match ent t (at_ t ++ q), ent t' q with
            | Some Dir, Some Dir => names t' q = names t (at_ t ++ q)
            | Some (Val v), Some (Val v') => written_value v v'
            | None, None => True
            | _, _ => False
            end.
End Written.
