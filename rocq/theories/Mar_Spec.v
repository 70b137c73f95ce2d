(** What a program that uses a growing memory expects: the blocks it was given and what each of them holds. *)
From Verif Require Import Base Mar_Model.
From Coq Require Import List ZArith.
Import ListNotations.
Open Scope Z_scope.

(** A block that the program was given: its offset and the bytes that the program last stored in it (None: nothing yet) *)
Record block := Block { at_ : Z; bytes : list byte }.
Definition length_of (b : block) : Z := Z.of_nat (length (bytes b)).

(** A history of calls, with the blocks that the program holds. The heap grants the requests (it may refuse the first of an empty area), a request is for one byte
    at least, and the area stays under 2^32 bytes. The offset of a block is the one that the call gave. *)
Inductive history : area -> list block -> Prop :=
| H_start : history empty []
| H_reserve a bs n offset a' : history a bs -> 0 < n -> size a + n < 2 ^ 32 ->
    step true a (AddNew n) = Some (true, Some offset, a') -> history a' (bs ++ [Block offset (repeat None (Z.to_nat n))])
| H_store a bs s more offset a' : history a bs -> s <> [] -> size a + Z.of_nat (length s) < 2 ^ 32 ->
    step true a (AddCopy (Some (s ++ more)) (Z.of_nat (length s))) = Some (true, Some offset, a') -> history a' (bs ++ [Block offset s])
| H_refused a n a' : history a [] -> step false a (AddNew n) = Some (false, None, a') -> history a' []
| H_no_source a bs n offset a' : history a bs -> 0 < n -> size a + n < 2 ^ 32 ->
    step true a (AddCopy None n) = Some (false, Some offset, a') -> history a' (bs ++ [Block offset (repeat None (Z.to_nat n))])
| H_write a before offset p old r after new a' : history a (before ++ Block offset (p ++ old ++ r) :: after) ->
    length new = length old -> new <> [] ->
    step true a (Write (offset + Z.of_nat (length p)) new) = Some (true, None, a') ->
    history a' (before ++ Block offset (p ++ new ++ r) :: after)
| H_free a bs a' : history a bs -> step true a Free = Some (true, None, a') -> history a' [].

(** The sum of the lengths of the blocks *)
Definition total (bs : list block) : Z := fold_right (fun b t => length_of b + t) 0 bs.
