(** Tokens of a byte sequence. *)
From Verif Require Import Base.

(** A character that ends a token / that is dropped.  The NUL character always is both. *)
Definition ends_token (term : list Z) (c : Z) : Prop := c = 0 \/ In c term.
Definition skippable (skip : list Z) (c : Z) : Prop := c = 0 \/ In c skip.
Definition kept (term skip : list Z) (c : Z) : Prop := ~ ends_token term c /\ ~ skippable skip c.

(** [sub l k]: [k] is the sequence of the kept characters of [l], in order. *)
Inductive keeps (term skip : list Z) : list Z -> list Z -> Prop :=
| KNil : keeps term skip [] []
| KKeep c l k : kept term skip c -> keeps term skip l k -> keeps term skip (c :: l) (c :: k)
| KDrop c l k : ~ kept term skip c -> keeps term skip l k -> keeps term skip (c :: l) k.

(** The character [c] after the prefix [p] terminates a token: it is a terminator, and either the token is not empty or
    the terminator is not skippable (then it delimits an empty token). *)
Definition stops (term skip p : list Z) (c : Z) : Prop :=
  ends_token term c /\ (~ keeps term skip p [] \/ ~ skippable skip c).

(** One extraction from the input [l]: result, token, terminator, and what remains to be read. *)
Inductive token_of (term skip l : list Z) : bool -> list Z -> Z -> list Z -> Prop :=
| TStop p c rest tok : l = p ++ c :: rest -> stops term skip p c ->
    (forall p' c' q, p = p' ++ c' :: q -> ~ stops term skip p' c') ->
    keeps term skip p tok -> token_of term skip l true tok c rest
| TEnd tok ok : (forall p' c' q, l = p' ++ c' :: q -> ~ stops term skip p' c') ->
    keeps term skip l tok -> (ok = true <-> tok <> []) -> token_of term skip l ok tok 0 [].

(** Extractions until one fails: the tokens with their terminators. *)
Inductive tokens_of (term skip : list Z) : list Z -> list (list Z * Z) -> Prop :=
| CEnd l tok c rest : token_of term skip l false tok c rest -> tokens_of term skip l []
| CMore l tok c rest toks : token_of term skip l true tok c rest -> tokens_of term skip rest toks ->
    tokens_of term skip l ((tok, c) :: toks).

(** The maximal runs of characters that are not separators, each with the separator that follows it (0 for none). *)
Definition run_of (P : Z -> Prop) (l : list Z) : Prop := l <> [] /\ Forall (fun c => ~ P c) l.
Inductive runs (P : Z -> Prop) : list Z -> list (list Z * Z) -> Prop :=
| RNone s : Forall P s -> runs P s []
| RLast s r : Forall P s -> run_of P r -> runs P (s ++ r) [(r, 0)]
| RMore s r c l rs : Forall P s -> run_of P r -> P c -> runs P l rs -> runs P (s ++ r ++ c :: l) ((r, c) :: rs).

(** Skipping [n] tokens of [l]: each is a run with its separator; without enough of them everything is consumed. *)
Inductive skipped (P : Z -> Prop) : nat -> list Z -> bool -> list Z -> Prop :=
| SDone l : skipped P 0 l true l
| SOne n s r c l ok rest : Forall P s -> run_of P r -> P c -> skipped P n l ok rest -> skipped P (S n) (s ++ r ++ c :: l) ok rest
| SFail n s r : Forall P s -> Forall (fun c => ~ P c) r -> skipped P (S n) (s ++ r) false [].

(** One extraction into an array of [n] bytes: the token if it fits with its NUL; otherwise its first n - 1 characters,
    reported as terminated by the last of them, everything after it still to be read. *)
Inductive token_buf (term skip l : list Z) (n : nat) : bool -> list Z -> Z -> list Z -> Prop :=
| BFits ok tok c rest : token_of term skip l ok tok c rest -> (length tok < n - 1)%nat -> token_buf term skip l n ok tok c rest
| BFull p c rest tok : l = p ++ c :: rest -> kept term skip c ->
    (forall p' c' q, p = p' ++ c' :: q -> ~ stops term skip p' c') ->
    keeps term skip (p ++ [c]) tok -> length tok = (n - 1)%nat -> token_buf term skip l n true tok c rest.

(** A stream from which [l] can be read, and one to which up to [cap] characters can be appended. *)
Definition source {S} (getc : S -> option (option Z * S)) (R : S -> list Z -> Prop) : Prop :=
  (forall s, R s [] -> exists s', getc s = Some (None, s') /\ R s' []) /\
  (forall s c l, R s (c :: l) -> exists s', getc s = Some (Some c, s') /\ R s' l).
Definition sink {T} (putc : T -> Z -> option (bool * T)) (Q : T -> list Z -> Prop) (cap : nat) : Prop :=
  forall t o c, Q t o -> (length o < cap)%nat -> exists t', putc t c = Some (true, t') /\ Q t' (o ++ [c]).
