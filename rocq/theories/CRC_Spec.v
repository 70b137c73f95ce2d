(** Cyclic redundancy code as polynomial division over GF(2).  A natural number is the polynomial whose
    coefficients are its bits; Z.lxor is the sum, [clmul] the product. *)
From Verif Require Import Base.

Fixpoint clmul_pos (q : positive) (g : Z) : Z :=
  match q with
  | xH => g
  | xO q' => 2 * clmul_pos q' g
  | xI q' => Z.lxor (2 * clmul_pos q' g) g
  end.
Definition clmul (q : Z) (g : Z) : Z := match q with Zpos p => clmul_pos p g | _ => 0 end.

(** The generator x^w + pol. *)
Definition gen (w pol : Z) : Z := 2 ^ w + pol.

(** r is the remainder of m divided by g = gen w pol. *)
Definition is_remainder (w pol m r : Z) : Prop :=
  0 <= r < 2 ^ w /\ exists q, 0 <= q /\ m = Z.lxor (clmul q (gen w pol)) r.

(** The message as a polynomial: first byte first, most significant bit first. *)
Definition message (l : list Z) : Z := fold_left (fun a b => a * 256 + b) l 0.

Definition bytes (l : list Z) : Prop := Forall (fun b => 0 <= b < 256) l.
Definition crc_width (w : Z) : Prop := w = 8 \/ w = 16 \/ w = 32.

(** The bytes found at offsets 0, d, 2d, ... of a memory. *)
Definition read_bytes (data : Z -> Z) (d : Z) (n : nat) : list Z := map (fun i => data (d * Z.of_nat i)) (seq 0 n).

(** A memory holding the bytes of [l] from offset 0. *)
Definition buffer (l : list Z) (i : Z) : Z := nth (Z.to_nat i) l 0.
