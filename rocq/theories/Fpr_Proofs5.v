(** The notations: how the exponent is divided, and the sizes. *)
From Verif Require Import Base Flt_Model Flt_Spec Flt_Proofs Flt_Proofs2 Ftx_Model Ftx_Spec Ftx_Proofs Ftx_Proofs2 Fpr_Model Fpr_Spec Fpr_Proofs4.
From Verif Require IntText_Spec.
From Coq Require Import Lia ZArith Bool List.
Import ListNotations.
Open Scope Z_scope.

Definition notations : list Z := [0; 1; 2; 3; 6; 7].
(** the exponent that places the point, the power of ten that is written, and how *)
Definition part (n E : Z) : Z * Z * list Z :=
  let (g, r) := to_engineering E in
  if n =? 0 then (E, 0, []) else if n =? 1 then (E, 0, []) else if n =? 2 then (0, E, exponent_text E)
  else if n =? 3 then (r, g, exponent_text g)
  else if n =? 6 then (r, g, if negb (g =? 0) && (g <=? 24) && (-24 <=? g) then symbol g else exponent_text g)
  else if (g <=? 24) && (-24 <=? g) then (r, g, if negb (g =? 0) then symbol g else []) else (0, g + r, exponent_text (g + r)).
Definition part_r n E := fst (fst (part n E)).
Definition part_k n E := snd (fst (part n E)).
Definition part_s n E := snd (part n E).
Lemma to_notation_eq f n x E p : In n notations -> to_notation f n x E p = followed (to_fixed f x (part_r n E) p) (part_s n E).
Proof.
  assert (A : forall a, followed a [] = a). { intros [[t ok]|]; [|reflexivity]. cbn [followed]. rewrite app_nil_r. reflexivity. }
  intros H. unfold to_notation, part_r, part_s, part. destruct (to_engineering E) as [g r]. cbn [In notations] in H. destruct H as [<-|[<-|[<-|[<-|[<-|[<-|[]]]]]]]; cbn [Z.eqb orb FixedPoint FixedPointR Exponent Engineering Smart Compact Pos.eqb fst snd]; rewrite ?A; try reflexivity.
  destruct ((g <=? 24) && (-24 <=? g)); reflexivity.
Qed.
(** ** All the exponents *)
Definition range : list Z := map (fun k => Z.of_nat k - 400) (seq 0 801).
Lemma in_range_400 e : Z.abs e <= 400 -> In e range.
Proof. intros H. unfold range. apply in_map_iff. exists (Z.to_nat (e + 400)). split; [lia|]. apply in_seq. lia. Qed.
Definition expo_ok (e : Z) : bool :=
  (Z.of_nat (length (exponent_text e)) =? digits_of_exponent e) && (digits_of_exponent e <=? 5) &&
  ((e =? 0) || (forallb (fun c => (48 <=? c) && (c <=? 57)) (decimal_loop 5 (Z.abs e) []) && (number (decimal_loop 5 (Z.abs e) []) =? Z.abs e) && negb (match decimal_loop 5 (Z.abs e) [] with [] => true | _ => false end))).
Lemma all_expo : forallb expo_ok range = true.
Proof. vm_compute. reflexivity. Qed.
Lemma expo_len e : Z.abs e <= 400 -> Z.of_nat (length (exponent_text e)) = digits_of_exponent e /\ digits_of_exponent e <= 5 /\ exponent_suffix e (exponent_text e).
Proof.
  intros H. pose proof (proj1 (forallb_forall _ _) all_expo e (in_range_400 e H)) as A. unfold expo_ok in A. apply andb_true_iff in A. destruct A as [A B]. apply andb_true_iff in A. destruct A as [A C]. split; [lia|]. split; [lia|].
  unfold exponent_text, exponent_suffix. destruct (Z.eqb_spec e 0) as [E|E]; [left; tauto|]. right. cbn [orb] in B. apply andb_true_iff in B. destruct B as [B B3]. apply andb_true_iff in B. destruct B as [B1 B2].
  exists (decimal_loop 5 (Z.abs e) []). split; [|split; [|split]].
  - apply Forall_forall. intros d Hd. pose proof (proj1 (forallb_forall _ _) B1 d Hd) as Q. cbv beta in Q. lia.
  - intros Q. rewrite Q in B3. discriminate.
  - lia.
  - destruct (Z.ltb_spec 0 e); [left|right]; split; try lia; reflexivity.
Qed.
Definition eng_ok (e : Z) : bool := let (g, r) := to_engineering e in (0 <=? r) && (r <=? 2) && (g + r =? e) && (g mod 3 =? 0) && (Z.abs g <=? 402) &&
  (let (g', r') := to_engineering (e + 1) in if r =? 2 then (r' =? 0) && (g' =? g + 3) else (r' =? r + 1) && (g' =? g)) &&
  ((g =? 0) || (24 <? Z.abs g) || existsb (fun a => (fst a =? g) && (snd a =? nth (Z.to_nat (Z.quot g 3 + 8)) symbols 0)) letters).
Lemma all_eng : forallb eng_ok range = true.
Proof. vm_compute. reflexivity. Qed.
Lemma engineering e : Z.abs e <= 400 -> exists g r g' r', to_engineering e = (g, r) /\ to_engineering (e + 1) = (g', r') /\ 0 <= r <= 2 /\ e = g + r /\ (3 | g) /\ (r = 2 /\ r' = 0 /\ g' = g + 3 \/ r < 2 /\ r' = r + 1 /\ g' = g)
  /\ (Z.abs g <= 24 -> letter_suffix g (if negb (g =? 0) then symbol g else [])).
Proof.
  intros H. pose proof (proj1 (forallb_forall _ _) all_eng e (in_range_400 e H)) as A. unfold eng_ok in A. destruct (to_engineering e) as [g r] eqn:E1. destruct (to_engineering (e + 1)) as [g' r'] eqn:E2.
  exists g, r, g', r'. apply andb_true_iff in A. destruct A as [A L]. apply andb_true_iff in A. destruct A as [A N]. repeat rewrite andb_true_iff in A. destruct A as [[[[A1 A2] A3] A4] A5].
  split; [reflexivity|]. split; [reflexivity|]. split; [lia|]. split; [lia|]. split; [apply Z.mod_divide; lia|]. split.
  - destruct (Z.eqb_spec r 2); apply andb_true_iff in N; destruct N; [left|right]; lia.
  - intros G. unfold letter_suffix. destruct (Z.eqb_spec g 0) as [Q|Q]; [left; split; [exact Q|reflexivity]|]. right. cbn [negb orb] in *. destruct (Z.ltb_spec 24 (Z.abs g)); [lia|]. cbn [orb] in L.
    apply existsb_exists in L. destruct L as [[a b] [I J]]. cbn [fst snd] in J. apply andb_true_iff in J. destruct J as [J1 J2]. apply Z.eqb_eq in J1. apply Z.eqb_eq in J2. subst. exists (nth (Z.to_nat (Z.quot g 3 + 8)) symbols 0). split; [exact I|reflexivity].
Qed.
(** what is written after the digits *)
Lemma part_suffix n E : In n notations -> Z.abs E <= 300 \/ Z.abs E <= 390 -> E = part_r n E + part_k n E /\ (n <> 0 -> n <> 1 -> 0 <= part_r n E <= 2) /\ Z.of_nat (length (part_s n E)) <= 5 /\
  match n with
  | 0 | 1 => part_k n E = 0 /\ part_s n E = []
  | 2 => part_r n E = 0 /\ exponent_suffix (part_k n E) (part_s n E)
  | 3 => (3 | part_k n E) /\ exponent_suffix (part_k n E) (part_s n E)
  | 6 => (3 | part_k n E) /\ (if Z.abs (part_k n E) <=? 24 then letter_suffix (part_k n E) (part_s n E) else exponent_suffix (part_k n E) (part_s n E))
  | 7 => letter_suffix (part_k n E) (part_s n E) \/ part_r n E = 0 /\ exponent_suffix (part_k n E) (part_s n E)
  | _ => False
  end.
Proof.
  intros H HE. unfold part_r, part_k, part_s, part. destruct (engineering E ltac:(lia)) as (g & r & g' & r' & E1 & E2 & R & S & D & _ & L). rewrite E1. clear E1 E2.
  assert (LG : Z.abs g <= 24 -> Z.of_nat (length (if negb (g =? 0) then symbol g else [])) <= 5) by (destruct (negb (g =? 0)); cbn [length symbol]; lia).
  pose proof (expo_len E ltac:(lia)) as [XE [YE ZE]]. pose proof (expo_len g ltac:(lia)) as [XG [YG ZG]].
  cbn [In notations] in H. destruct H as [<-|[<-|[<-|[<-|[<-|[<-|[]]]]]]]; try tauto; cbn [Z.eqb Pos.eqb fst snd].
  - cbn [length]. repeat split; try lia.
  - cbn [length]. repeat split; try lia.
  - repeat split; try lia; assumption.
  - repeat split; try lia; assumption.
  - split; [lia|]. split; [lia|]. destruct (Z.leb_spec (Z.abs g) 24) as [Q|Q].
    + specialize (L Q). specialize (LG Q). destruct (Z.leb_spec g 24); [|lia]. destruct (Z.leb_spec (-24) g); [|lia]. rewrite !andb_true_r. destruct (Z.eqb_spec g 0) as [Q0|Q0]; [|split; [exact LG|split; [exact D|exact L]]].
      cbn [negb] in *. subst g. cbn [exponent_text Z.eqb length]. split; [lia|]. split; [exact D|left; tauto].
    + replace (negb (g =? 0) && (g <=? 24) && (-24 <=? g)) with false by (symmetry; destruct (Z.leb_spec g 24), (Z.leb_spec (-24) g); try lia; rewrite ?andb_false_r; reflexivity). split; [lia|]. split; assumption.
  - destruct (Z.leb_spec g 24), (Z.leb_spec (-24) g); cbn [andb fst snd]; try (rewrite <- S; split; [lia|]; split; [lia|]; split; [lia|]; right; split; [reflexivity|exact ZE]).
    split; [lia|]. split; [lia|]. split; [apply LG; lia|]. left. apply L. lia.
Qed.
(** ** Sizes *)
Lemma size_eq n E s p m : In n notations -> n <> 0 -> Z.abs E <= 390 ->
  size_notation n E s p m = if (n =? 1) then size_relative E s p m else if 0 <? p then
    let k := Z.of_nat (length (part_s n E)) in (k + fst (size_relative (part_r n E) s p (m - k)), snd (size_relative (part_r n E) s p (m - k))) else (1, p).
Proof.
  intros H H0 HE. unfold size_notation, part_r, part_s, part, size_exponential, size_engineering, size_smart, size_compact. destruct (engineering E ltac:(lia)) as (g & r & g' & r' & E1 & E2 & R & S & D & _ & L). rewrite E1. clear E1 E2.
  pose proof (expo_len E ltac:(lia)) as [XE _]. pose proof (expo_len g ltac:(lia)) as [XG _].
  cbn [In notations] in H. destruct H as [<-|[<-|[<-|[<-|[<-|[<-|[]]]]]]]; try tauto; cbn [Z.eqb Pos.eqb fst snd FixedPoint FixedPointR Exponent Engineering Smart Compact]; destruct (0 <? p); try reflexivity; cbv zeta.
  - rewrite XE. destruct (size_relative 0 s p _); reflexivity.
  - rewrite XG. destruct (size_relative r s p _); reflexivity.
  - destruct (negb (g =? 0) && (g <=? 24) && (-24 <=? g)); [|rewrite XG]; cbn [length symbol Z.of_nat]; destruct (size_relative r s p _); reflexivity.
  - destruct ((g <=? 24) && (-24 <=? g)); cbn [fst snd]; [|rewrite <- S, XE; destruct (size_relative 0 s p _); reflexivity].
    destruct (negb (g =? 0)); cbn [length symbol Z.of_nat]; destruct (size_relative r s p _); reflexivity.
Qed.
Ltac fin := repeat match goal with |- _ /\ _ => split | |- _ -> _ => intro end; try lia.
Lemma size_ok n E s p m size q : In n notations -> Z.abs E <= 390 -> 0 <= p -> size_notation n E s p m = (size, q) -> 0 < q ->
  size = sg s + len_fixed (part_r n E) q + Z.of_nat (length (part_s n E)) /\ size <= m
  /\ (n = 0 -> (0 <= E -> E + 1 <= q <= E + 1 + p) /\ (E < 0 -> q <= p + E + 1))
  /\ (n <> 0 -> q <= p /\ (0 <= part_r n E -> Z.min (part_r n E + 1) p <= q))
  /\ (Z.abs E + 14 + p <= m -> q = if n =? 0 then E + 1 + p else p).
Proof.
  intros H HE Hp A Hq. destruct (Z.eq_dec n 0) as [N|N].
  - subst n. unfold part_r, part_s, part. destruct (to_engineering E). cbn [Z.eqb fst snd length Z.of_nat] in *. change (size_fixed E s p m = (size, q)) in A. destruct (fixed_ok _ _ _ _ _ _ Hp A Hq) as (B1 & B2 & B3 & B4 & B5). fin.
  - rewrite (size_eq n E s p m H N HE) in A. destruct (part_suffix n E H ltac:(lia)) as (PE & PR & PL & _). destruct (Z.eqb_spec n 0); [lia|]. destruct (Z.eqb_spec n 1) as [N1|N1].
    + subst n. replace (part_r 1 E) with E by (unfold part_r, part; destruct (to_engineering E); reflexivity). replace (part_s 1 E) with (@nil Z) by (unfold part_s, part; destruct (to_engineering E); reflexivity).
      destruct (relative_ok _ _ _ _ _ _ Hp A Hq) as (B1 & B2 & B3 & B4 & B5). cbn [length Z.of_nat]. fin.
    + destruct (Z.ltb_spec 0 p) as [Q|Q]; [|injection A as _ <-; lia]. cbv zeta in A. destruct (size_relative (part_r n E) s p (m - Z.of_nat (length (part_s n E)))) as [a b] eqn:B. cbn [fst snd] in A. injection A as <- <-.
      destruct (relative_ok _ _ _ _ _ _ Hp B Hq) as (B1 & B2 & B3 & B4 & B5). specialize (PR N N1). fin.
Qed.
Lemma size_zero n E s p m size q : In n notations -> Z.abs E <= 390 -> 0 <= p -> size_notation n E s p m = (size, q) -> q <= 0 -> Z.abs E + 14 + p <= m ->
  q = 0 /\ (if n =? 0 then p + E + 1 <= 0 else p = 0).
Proof.
  intros H HE Hp A Hq Hm. destruct (Z.eqb_spec n 0) as [N|N].
  - subst n. change (size_fixed E s p m = (size, q)) in A. destruct (fixed_zero _ _ _ _ _ _ Hp A Hq ltac:(lia)). lia.
  - rewrite (size_eq n E s p m H N HE) in A. destruct (part_suffix n E H ltac:(lia)) as (PE & PR & PL & _). destruct (Z.eqb_spec n 1) as [N1|N1].
    + pose proof (relative_zero _ _ _ _ _ _ Hp A Hq ltac:(lia)). lia.
    + destruct (Z.ltb_spec 0 p) as [Q|Q]; [|injection A as _ <-; lia]. cbv zeta in A. destruct (size_relative (part_r n E) s p (m - Z.of_nat (length (part_s n E)))) as [a b] eqn:B. cbn [fst snd] in A. injection A as <- <-.
      specialize (PR N N1). pose proof (relative_zero _ _ _ _ _ _ Hp B Hq ltac:(lia)). lia.
Qed.
(** one more digit before the point after the rounding *)
Lemma fixed_size_next n E s p m size q size' q' : n = 0 \/ n = 1 -> 0 <= p -> size_notation n E s p m = (size, q) -> size_notation n (E + 1) s p m = (size', q') -> 0 < q' -> 0 <= q /\ q' <= q + 1.
Proof. intros [-> | ->] Hp A B Hq; [apply (fixed_next E s p m size q size' q' Hp A B Hq)|apply (relative_next E s p m size q size' q' Hp A B Hq)]. Qed.
Definition most (p q : Z) : Z := let a := if 0 <=? q then q + 1 else 2 in if p <? a then p else a.
Lemma other_size_next n E s p m size q size' q' : In n notations -> n <> 0 -> n <> 1 -> Z.abs E <= 380 -> 0 <= p -> size_notation n E s p m = (size, q) -> size_notation n (E + 1) s (most p q) m = (size', q') -> 0 < q' ->
  q' <= (if 0 <=? q then q else 1) + 1 /\ Z.min (part_r n (E + 1) + 1) p <= q'.
Proof.
  intros H N0 N1 HE Hp A B Hq. assert (M : 0 <= most p q) by (unfold most; destruct (Z.leb_spec 0 q); destruct (Z.ltb_spec p (if 0 <=? q then q + 1 else 2)); cmp; lia).
  destruct (size_ok n (E + 1) s (most p q) m size' q' H ltac:(lia) M B Hq) as (_ & _ & _ & C & _). specialize (C N0). destruct C as [C1 C2].
  destruct (part_suffix n (E + 1) H ltac:(lia)) as (_ & PR' & _). specialize (PR' N0 N1). specialize (C2 ltac:(lia)).
  split; [unfold most in C1; cmp; lia|].
  destruct (Z.eq_dec (part_r n (E + 1)) 0) as [R0|R0]; [lia|].
  (* the same power of ten *)
  assert (S : part_r n (E + 1) = part_r n E + 1 /\ part_s n (E + 1) = part_s n E).
  { clear - H R0 HE N0 N1. unfold part_r, part_s, part in *. destruct (engineering E ltac:(lia)) as (g & r & g' & r' & E1 & E2 & R & S & D & T & L). rewrite E1, E2 in *. cbn [In notations] in H. destruct H as [<-|[<-|[<-|[<-|[<-|[<-|[]]]]]]]; try tauto; cbn [Z.eqb Pos.eqb fst snd] in *; try lia.
    - destruct T as [T|[T1 [-> ->]]]; [lia|]. split; reflexivity.
    - destruct T as [T|[T1 [-> ->]]]; [lia|]. split; reflexivity.
    - destruct T as [T|[T1 [-> ->]]]; [destruct ((g' <=? 24) && (-24 <=? g')); cbn [fst snd] in R0; lia|]. destruct ((g <=? 24) && (-24 <=? g)); cbn [fst snd] in *; [split; reflexivity|lia]. }
  destruct S as [S1 S2]. destruct (part_suffix n E H ltac:(lia)) as (_ & PR & _). specialize (PR N0 N1).
  rewrite (size_eq n (E + 1) s (most p q) m H N0 ltac:(lia)) in B. rewrite (size_eq n E s p m H N0 ltac:(lia)) in A. rewrite S1, S2 in *. destruct (Z.eqb_spec n 1); [lia|]. cbv zeta in A, B.
  destruct (Z.ltb_spec 0 p) as [Q|Q]; [|lia]. destruct (Z.ltb_spec 0 (most p q)) as [Q1|Q1]; [|lia].
  destruct (size_relative (part_r n E) s p (m - Z.of_nat (length (part_s n E)))) as [a b] eqn:A'. destruct (size_relative (part_r n E + 1) s (most p q) (m - Z.of_nat (length (part_s n E)))) as [a' b'] eqn:B'. cbn [fst snd] in A, B. injection A as <- <-. injection B as <- <-.
  destruct (Z.lt_ge_cases b 0) as [L|L]; [pose proof (relative_room _ _ _ _ _ _ _ _ _ (proj1 PR) Hp A' L B'); lia|].
  assert (L' : Z.min (part_r n E + 1) p <= b).
  { destruct (Z.eq_dec b 0) as [Z0|Z0]; [|destruct (relative_ok _ _ _ _ _ _ Hp A' ltac:(lia)) as (_ & _ & _ & G & _); apply G; lia].
    exfalso. subst b. clear - A' Q PR. unfold size_relative in A'. cbv beta zeta in A'. destruct s; cmp; cbn [andb] in *; try lia; prs; lia. }
  unfold most in *. cmp; lia.
Qed.
