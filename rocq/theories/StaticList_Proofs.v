From Verif Require Import Base StaticList_Model StaticList_Spec.

(** The block holds the concatenation of the values, then unused bytes. *)
Record Rep (e g : Z) (s : slist) (l : list (list Z)) (cap : Z) : Prop := {
  rep_e : sl_esz s = e; rep_g : sl_gran s = g; rep_cap : sl_cap s = cap; rep_size : sl_size s = Z.of_nat (length l);
  rep_vals : Forall (fun v => Z.of_nat (length v) = e) l;
  rep_mem : exists rest, sl_mem s = concat l ++ rest;
  rep_len : Z.of_nat (length (sl_mem s)) = cap * e;
  rep_le : Z.of_nat (length l) <= cap;
  rep_max : cap <= max_elements e g }.

Definition sizes_ok (e g : Z) : Prop := 1 <= e /\ 1 <= g /\ g * e < 2 ^ 32.

Lemma max_bound e g : sizes_ok e g -> 0 <= max_elements e g /\ max_elements e g * e <= 2 ^ 32 - 1.
Proof.
  intros (He & Hg & H). unfold max_elements.
  pose proof (Z.mul_div_le (2 ^ 32 - 1) (g * e) ltac:(nia)). pose proof (Z.div_pos (2 ^ 32 - 1) (g * e) ltac:(lia) ltac:(nia)).
  split; [nia|]. nia.
Qed.

Lemma sl_max_eq e g s : sizes_ok e g -> sl_esz s = e -> sl_gran s = g -> sl_max s = max_elements e g.
Proof.
  intros OK <- <-. destruct OK as (He & Hg & H). unfold sl_max, max_elements.
  rewrite (uwrap_id 32 (sl_gran s * sl_esz s)) by nia.
  set (b := sl_gran s * sl_esz s) in *. assert (0 < b) by (unfold b; nia).
  pose proof (Z.mul_div_le (2 ^ 32 - 1) b ltac:(lia)). pose proof (Z.div_pos (2 ^ 32 - 1) b ltac:(lia) ltac:(lia)).
  rewrite uwrap_id by nia.
  replace ((2 ^ 32 - 1) / b * b) with (sl_gran s * ((2 ^ 32 - 1) / b) * sl_esz s) by (unfold b; nia).
  apply Z.div_mul. lia.
Qed.

Lemma concat_len e (l : list (list Z)) : Forall (fun v => Z.of_nat (length v) = e) l -> Z.of_nat (length (concat l)) = Z.of_nat (length l) * e.
Proof. induction 1; cbn [concat length]; [lia|]. rewrite app_length. nia. Qed.

Lemma wr_mid a b c v : length v = length b -> wr (a ++ b ++ c) (Z.of_nat (length a)) v = Some (a ++ v ++ c).
Proof.
  intros L. unfold wr. rewrite !app_length.
  replace ((0 <=? Z.of_nat (length a)) && _) with true by lia.
  rewrite Nat2Z.id. f_equal. rewrite firstn_app, Nat.sub_diag, firstn_all2 by lia. cbn [firstn]. rewrite app_nil_r.
  do 2 f_equal. rewrite L, skipn_app. replace (length a + length b - length a)%nat with (length b) by lia.
  rewrite skipn_all2 by lia. rewrite skipn_app, Nat.sub_diag, skipn_all2 by lia. reflexivity.
Qed.
Lemma rd_mid a b c : rd (a ++ b ++ c) (Z.of_nat (length a)) (Z.of_nat (length b)) = Some b.
Proof.
  unfold rd. rewrite !app_length. replace (_ && _) with true by lia. rewrite !Nat2Z.id. f_equal.
  rewrite skipn_app, Nat.sub_diag, skipn_all2 by lia. cbn [skipn app].
  rewrite firstn_app, Nat.sub_diag, firstn_all2 by lia. cbn. apply app_nil_r.
Qed.

(** memmove up by k bytes: [b] moves over [b ++ gap]. *)
Lemma app_split_len (b c : list Z) k : (k <= length (b ++ c))%nat -> exists x y, b ++ c = x ++ y /\ length x = k.
Proof. intros H. exists (firstn k (b ++ c)), (skipn k (b ++ c)). split; [symmetry; apply firstn_skipn|]. rewrite firstn_length. lia. Qed.

Lemma mv_up a b gap c : exists x, length x = length gap /\
  mv (a ++ b ++ gap ++ c) (Z.of_nat (length a) + Z.of_nat (length gap)) (Z.of_nat (length a)) (Z.of_nat (length b)) = Some (a ++ x ++ b ++ c).
Proof.
  unfold mv. rewrite rd_mid.
  destruct (app_split_len b gap (length gap)) as (x & y & E & Lx); [rewrite app_length; lia|].
  exists x. split; [exact Lx|].
  assert (Ly : length y = length b). { apply (f_equal (@length Z)) in E. rewrite !app_length in E. lia. }
  replace (a ++ b ++ gap ++ c) with ((a ++ x) ++ y ++ c) by (rewrite <- !app_assoc; do 1 f_equal; rewrite !app_assoc, E; reflexivity).
  replace (Z.of_nat (length a) + Z.of_nat (length gap)) with (Z.of_nat (length (a ++ x))) by (rewrite app_length; lia).
  rewrite wr_mid by lia. rewrite <- !app_assoc. reflexivity.
Qed.
Lemma mv_down a gap b c : exists x, length x = length gap /\
  mv (a ++ gap ++ b ++ c) (Z.of_nat (length a)) (Z.of_nat (length a) + Z.of_nat (length gap)) (Z.of_nat (length b)) = Some (a ++ b ++ x ++ c).
Proof.
  unfold mv. replace (a ++ gap ++ b ++ c) with ((a ++ gap) ++ b ++ c) by (rewrite <- !app_assoc; reflexivity).
  replace (Z.of_nat (length a) + Z.of_nat (length gap)) with (Z.of_nat (length (a ++ gap))) by (rewrite app_length; lia).
  rewrite rd_mid.
  destruct (app_split_len gap b (length b)) as (y & x & E & Ly); [rewrite app_length; lia|].
  exists x. assert (Lx : length x = length gap). { apply (f_equal (@length Z)) in E. rewrite !app_length in E. lia. }
  split; [exact Lx|].
  replace ((a ++ gap) ++ b ++ c) with (a ++ y ++ x ++ c) by (rewrite <- !app_assoc; do 1 f_equal; rewrite !app_assoc, E; reflexivity).
  rewrite wr_mid by lia. reflexivity.
Qed.

Lemma split_at (l : list (list Z)) n : (n < length l)%nat -> exists a v b, l = a ++ v :: b /\ length a = n /\ nth n l [] = v.
Proof.
  intros H. exists (firstn n l), (nth n l []), (skipn (S n) l). split; [|split; [rewrite firstn_length; lia|reflexivity]].
  revert n H. induction l as [|x l IH]; intros [|n] H; cbn [length] in *; try lia; cbn; [reflexivity|]. f_equal. apply IH. lia.
Qed.

Lemma firstn_exact {A} (a b : list A) n : length a = n -> firstn n (a ++ b) = a.
Proof. intros <-. rewrite firstn_app, Nat.sub_diag, firstn_all. cbn. apply app_nil_r. Qed.
Lemma skipn_exact {A} (a b : list A) n : length a = n -> skipn n (a ++ b) = b.
Proof. intros <-. rewrite skipn_app, Nat.sub_diag, skipn_all. reflexivity. Qed.
Lemma skipn_exact1 {A} (a b : list A) v n : length a = n -> skipn (S n) (a ++ v :: b) = b.
Proof. intros H. change (a ++ v :: b) with (a ++ [v] ++ b). rewrite app_assoc. apply skipn_exact. rewrite app_length. cbn. lia. Qed.

(** ** Making room *)
Lemma room_ok e g s l cap a : sizes_ok e g -> Rep e g s l cap -> (2 <= e \/ cap + g < 2 ^ 32 /\ cap + 1 < 2 ^ 32) ->
  match grow e g l cap a with
  | Some c => exists s', room s a = (true, s') /\ Rep e g s' l c /\ Z.of_nat (length l) < c
  | None => room s a = (false, s)
  end.
Proof.
  intros OK R HW. pose proof (max_bound e g OK) as [MB0 MB]. destruct R. destruct OK as (He & Hg & Hb).
  assert (Hc : cap + g < 2 ^ 32 /\ cap + 1 < 2 ^ 32).
  { destruct HW as [HW|HW]; [|lia]. assert (cap * e <= 2 ^ 32 - 1) by nia. nia. }
  unfold grow, room. rewrite rep_size0, rep_cap0, rep_g0, (uwrap_id 32 (Z.of_nat (length l) + 1)), (uwrap_id 32 (cap + g)) by lia.
  rewrite (sl_max_eq e g) by (try split; auto).
  destruct (Z.of_nat (length l) <? cap) eqn:E1.
  - replace (Z.of_nat (length l) + 1 >? cap) with false by lia. exists s. split; [auto|]. split; [constructor; auto|lia].
  - replace (Z.of_nat (length l) + 1 >? cap) with true by lia.
    destruct (cap + g <=? max_elements e g) eqn:E2; cbn [andb]; [|reflexivity].
    unfold increase_capacity. rewrite rep_cap0, rep_g0, (uwrap_id 32 (cap + g)), (sl_max_eq e g) by (try split; auto; lia).
    replace (cap + g >? max_elements e g) with false by lia.
    destruct a as [f|]; [|reflexivity]. eexists. split; [reflexivity|]. split; [|lia].
    rewrite rep_e0. rewrite uwrap_id by nia.
    assert (LM : length (resize (sl_mem s) ((cap + g) * e) f) = Z.to_nat ((cap + g) * e)).
    { unfold resize, junk_bytes. rewrite app_length, firstn_length, map_length, seq_length.
      assert (Z.of_nat (length (sl_mem s)) <= (cap + g) * e) by nia. lia. }
    constructor; cbn [sl_esz sl_gran sl_cap sl_size sl_mem]; auto; try lia.
    + destruct rep_mem0 as (rest & EM). unfold resize. rewrite firstn_all2.
      * rewrite EM. exists (rest ++ junk_bytes f ((cap + g) * e - Z.of_nat (length (concat l ++ rest)))). rewrite app_assoc. reflexivity.
      * assert (Z.of_nat (length (sl_mem s)) <= (cap + g) * e) by nia. lia.
Qed.

(** Two's offsets that fit. *)
Lemma off_fit e g cap n : sizes_ok e g -> 0 <= n <= cap -> cap <= max_elements e g -> 0 <= e * n < 2 ^ 32.
Proof. intros OK Hn Hc. pose proof (max_bound e g OK). destruct OK. nia. Qed.

Lemma len_fit e g cap n : sizes_ok e g -> 0 <= n <= cap -> cap <= max_elements e g -> 0 <= n < 2 ^ 32.
Proof. intros OK Hn Hc. pose proof (max_bound e g OK). destruct OK. nia. Qed.

Lemma add_ok e g s l cap v a : sizes_ok e g -> Rep e g s l cap -> (2 <= e \/ cap + g < 2 ^ 32 /\ cap + 1 < 2 ^ 32) -> Z.of_nat (length v) = e ->
  exists s', code_step s (OAdd v a) = Some (s', snd (seq_step e g l cap (OAdd v a))) /\
    Rep e g s' (fst (fst (seq_step e g l cap (OAdd v a)))) (snd (fst (seq_step e g l cap (OAdd v a)))).
Proof.
  intros OK R HW Hv. cbn [code_step seq_step]. unfold sl_add.
  pose proof (room_ok e g s l cap a OK R HW) as RO. destruct (grow e g l cap a) as [c|].
  - destruct RO as (s1 & E & R1 & Hc). rewrite E. destruct R1.
    destruct rep_mem0 as (rest & EM). rewrite rep_e0, rep_size0.
    rewrite uwrap_id by (apply (off_fit e g c); auto; lia).
    assert (LC := concat_len e l rep_vals0).
    destruct (app_split_len [] rest (length v)) as (x & y & Ex & Lx).
    { rewrite EM, app_length in rep_len0. cbn. nia. }
    cbn in Ex. subst rest. rewrite EM.
    replace (e * Z.of_nat (length l)) with (Z.of_nat (length (concat l))) by lia.
    rewrite wr_mid by lia. eexists. split; [reflexivity|]. cbn [fst snd]. unfold with_mem.
    pose proof (max_bound e g OK). destruct OK.
    constructor; cbn [sl_esz sl_gran sl_cap sl_size sl_mem]; auto.
    + rewrite app_length. cbn [length]. rewrite uwrap_id by (apply (len_fit e g c); [split; auto|lia|auto]). lia.
    + apply Forall_app. split; auto.
    + exists y. rewrite concat_app. cbn. rewrite app_nil_r, <- app_assoc. reflexivity.
    + rewrite EM in rep_len0. rewrite !app_length in *. lia.
    + rewrite app_length. cbn. lia.
  - rewrite RO. exists s. split; [reflexivity|]. exact R.
Qed.

Lemma insert_ok e g s l cap p v a : sizes_ok e g -> Rep e g s l cap -> (2 <= e \/ cap + g < 2 ^ 32 /\ cap + 1 < 2 ^ 32) ->
  Z.of_nat (length v) = e /\ 0 <= p < 2 ^ 32 ->
  exists s', code_step s (OInsert p v a) = Some (s', snd (seq_step e g l cap (OInsert p v a))) /\
    Rep e g s' (fst (fst (seq_step e g l cap (OInsert p v a)))) (snd (fst (seq_step e g l cap (OInsert p v a)))).
Proof.
  intros OK R HW [Hv Hp]. cbn [code_step seq_step]. unfold sl_insert. rewrite (rep_size _ _ _ _ _ R).
  destruct (p <=? Z.of_nat (length l)) eqn:Ep.
  2:{ replace (p >? Z.of_nat (length l)) with true by lia. exists s. split; [reflexivity|exact R]. }
  replace (p >? Z.of_nat (length l)) with false by lia.
  pose proof (room_ok e g s l cap a OK R HW) as RO. destruct (grow e g l cap a) as [c|].
  - destruct RO as (s1 & E & R1 & Hc). rewrite E. destruct R1.
    destruct rep_mem0 as (rest & EM). rewrite rep_e0, rep_size0.
    rewrite (uwrap_id 32 (e * p)) by (apply (off_fit e g c); auto; lia).
    rewrite (uwrap_id 32 (e * (Z.of_nat (length l) - p))) by (apply (off_fit e g c); auto; lia).
    set (n := Z.to_nat p). assert (En : p = Z.of_nat n) by lia.
    set (a1 := firstn n l). set (b1 := skipn n l).
    assert (El : l = a1 ++ b1) by (symmetry; apply firstn_skipn).
    assert (La : length a1 = n) by (unfold a1; rewrite firstn_length; lia).
    assert (Va : Forall (fun v => Z.of_nat (length v) = e) a1 /\ Forall (fun v => Z.of_nat (length v) = e) b1) by (apply Forall_app; rewrite <- El; auto).
    destruct Va as [Va Vb]. assert (LCa := concat_len e a1 Va). assert (LCb := concat_len e b1 Vb).
    assert (Ll : length l = (length a1 + length b1)%nat) by (rewrite El at 1; apply app_length).
    assert (EC : concat l = concat a1 ++ concat b1) by (rewrite El at 1; apply concat_app).
    assert (LC := concat_len e l rep_vals0).
    destruct (app_split_len [] rest (length v)) as (gap & y & Ex & Lx).
    { rewrite EM, app_length in rep_len0. cbn. nia. }
    cbn in Ex. subst rest. rewrite EM, EC, <- app_assoc.
    replace (e * p) with (Z.of_nat (length (concat a1))) by nia.
    replace (e * (Z.of_nat (length l) - p)) with (Z.of_nat (length (concat b1))) by nia.
    assert (MV : exists x, length x = length v /\
       (if p <? Z.of_nat (length l) then mv (concat a1 ++ concat b1 ++ gap ++ y) (Z.of_nat (length (concat a1)) + e) (Z.of_nat (length (concat a1))) (Z.of_nat (length (concat b1)))
        else Some (concat a1 ++ concat b1 ++ gap ++ y)) = Some (concat a1 ++ x ++ concat b1 ++ y)).
    { destruct (p <? Z.of_nat (length l)) eqn:E2.
      - destruct (mv_up (concat a1) (concat b1) gap y) as (x & Lx2 & EX). exists x. split; [lia|].
        replace e with (Z.of_nat (length gap)) by lia. exact EX.
      - exists gap. split; [auto|]. assert (Hb0 : length b1 = 0%nat) by lia. destruct b1; [|discriminate]. reflexivity. }
    destruct MV as (x & Lx2 & EX). rewrite EX. rewrite wr_mid by lia.
    eexists. split; [reflexivity|]. cbn [fst snd]. unfold with_mem, insert_at. fold a1 b1.
    pose proof (max_bound e g OK). destruct OK.
    constructor; cbn [sl_esz sl_gran sl_cap sl_size sl_mem]; auto.
    + rewrite app_length. cbn [length]. rewrite uwrap_id by (apply (len_fit e g c); [split; auto|lia|auto]). lia.
    + apply Forall_app. split; auto.
    + exists y. rewrite concat_app. cbn. rewrite <- !app_assoc. reflexivity.
    + rewrite EM, EC in rep_len0. rewrite !app_length in *. lia.
    + rewrite app_length. cbn [length]. lia.
  - rewrite RO. exists s. split; [reflexivity|]. exact R.
Qed.

Lemma close_gap_ok e g s l cap p : sizes_ok e g -> Rep e g s l cap -> 0 <= p < Z.of_nat (length l) ->
  exists s', close_gap s p = Some (true, s') /\ Rep e g s' (remove_at (Z.to_nat p) l) cap.
Proof.
  intros OK R Hp. destruct R. destruct rep_mem0 as (rest & EM). unfold close_gap. rewrite rep_e0, rep_size0.
  destruct (split_at l (Z.to_nat p)) as (a1 & v & b1 & El & La & _); [lia|].
  assert (Va : Forall (fun v => Z.of_nat (length v) = e) a1 /\ Forall (fun v => Z.of_nat (length v) = e) (v :: b1)) by (apply Forall_app; rewrite <- El; auto).
  destruct Va as [Va Vb]. inversion Vb; subst x l0. assert (LCa := concat_len e a1 Va). assert (LCb := concat_len e b1 H2).
  assert (Ll : length l = (length a1 + S (length b1))%nat) by (rewrite El at 1; apply app_length).
  assert (EC : concat l = concat a1 ++ v ++ concat b1) by (rewrite El at 1; rewrite concat_app; reflexivity).
  pose proof (max_bound e g OK) as MB. assert (OK' := OK). destruct OK'.
  rewrite (uwrap_id 32 (e * p)) by (apply (off_fit e g cap); auto; lia).
  rewrite (uwrap_id 32 (Z.of_nat (length l) - 1)) by (apply (len_fit e g cap); auto; lia).
  rewrite (uwrap_id 32 (e * (Z.of_nat (length l) - 1 - p))) by (apply (off_fit e g cap); auto; lia).
  assert (MV : exists x, length x = length v /\
     (if p <? Z.of_nat (length l) - 1 then mv (sl_mem s) (e * p) (e * p + e) (e * (Z.of_nat (length l) - 1 - p)) else Some (sl_mem s)) =
     Some (concat a1 ++ concat b1 ++ x ++ rest)).
  { rewrite EM, EC, <- !app_assoc.
    replace (e * p) with (Z.of_nat (length (concat a1))) by nia.
    replace (e * (Z.of_nat (length l) - 1 - p)) with (Z.of_nat (length (concat b1))) by nia.
    destruct (p <? Z.of_nat (length l) - 1) eqn:E2.
    - destruct (mv_down (concat a1) v (concat b1) rest) as (x & Lx & EX). exists x. split; [auto|].
      replace e with (Z.of_nat (length v)) by lia. exact EX.
    - exists v. split; [auto|]. destruct b1; [|cbn [length] in *; lia]. reflexivity. }
  destruct MV as (x & Lx & EX). rewrite EX. eexists. split; [reflexivity|].
  unfold with_mem, remove_at. rewrite El, firstn_exact, skipn_exact1 by auto.
  constructor; cbn [sl_esz sl_gran sl_cap sl_size sl_mem]; auto.
  - rewrite <- El, app_length. rewrite uwrap_id by (apply (len_fit e g cap); auto; lia). lia.
  - apply Forall_app. split; auto.
  - exists (x ++ rest). rewrite concat_app, <- !app_assoc. reflexivity.
  - rewrite EM, EC in rep_len0. rewrite !app_length in *. lia.
  - rewrite app_length. lia.
Qed.

Lemma read_ok e g s l cap p : sizes_ok e g -> Rep e g s l cap -> 0 <= p < Z.of_nat (length l) ->
  rd (sl_mem s) (uwrap 32 (sl_esz s * p)) (sl_esz s) = Some (nth (Z.to_nat p) l []).
Proof.
  intros OK R Hp. destruct R. destruct rep_mem0 as (rest & EM). rewrite rep_e0.
  destruct (split_at l (Z.to_nat p)) as (a1 & v & b1 & El & La & ->); [lia|].
  assert (Va : Forall (fun v => Z.of_nat (length v) = e) a1 /\ Forall (fun v => Z.of_nat (length v) = e) (v :: b1)) by (apply Forall_app; rewrite <- El; auto).
  destruct Va as [Va Vb]. inversion Vb; subst x l0. assert (LCa := concat_len e a1 Va).
  rewrite (uwrap_id 32 (e * p)) by (apply (off_fit e g cap); auto; lia).
  rewrite EM, El, concat_app. cbn [concat]. rewrite <- !app_assoc.
  replace (e * p) with (Z.of_nat (length (concat a1))) by nia. replace e with (Z.of_nat (length v)) by lia. apply rd_mid.
Qed.

Lemma set_ok e g s l cap p v : sizes_ok e g -> Rep e g s l cap -> Z.of_nat (length v) = e -> 0 <= p < Z.of_nat (length l) ->
  exists s', sl_set s p v = Some (true, s') /\ Rep e g s' (set_at (Z.to_nat p) v l) cap.
Proof.
  intros OK R Hv Hp. unfold sl_set. destruct R. destruct rep_mem0 as (rest & EM). rewrite rep_e0, rep_size0.
  replace (p <? Z.of_nat (length l)) with true by lia.
  destruct (split_at l (Z.to_nat p)) as (a1 & w & b1 & El & La & _); [lia|].
  assert (Va : Forall (fun v => Z.of_nat (length v) = e) a1 /\ Forall (fun v => Z.of_nat (length v) = e) (w :: b1)) by (apply Forall_app; rewrite <- El; auto).
  destruct Va as [Va Vb]. inversion Vb; subst x l0. assert (LCa := concat_len e a1 Va).
  rewrite (Z.mul_comm p e), (uwrap_id 32 (e * p)) by (apply (off_fit e g cap); auto; lia).
  assert (EC : concat l = concat a1 ++ w ++ concat b1) by (rewrite El at 1; rewrite concat_app; reflexivity).
  rewrite EM, EC, <- !app_assoc. replace (e * p) with (Z.of_nat (length (concat a1))) by nia.
  rewrite wr_mid by lia. eexists. split; [reflexivity|].
  unfold set_at. rewrite El, firstn_exact, skipn_exact1 by auto.
  constructor; cbn [sl_esz sl_gran sl_cap sl_size sl_mem]; auto.
  - rewrite ?El, !app_length. reflexivity.
  - apply Forall_app. split; auto.
  - exists rest. rewrite concat_app. cbn. rewrite <- !app_assoc. reflexivity.
  - rewrite EM, EC in rep_len0. rewrite !app_length in *. lia.
  - rewrite El in rep_le0. rewrite app_length in *. cbn [length] in *. lia.
Qed.

Theorem step_ok e g s l cap o : sizes_ok e g -> Rep e g s l cap -> (2 <= e \/ cap + g < 2 ^ 32 /\ cap + 1 < 2 ^ 32) -> good_op e o ->
  exists s', code_step s o = Some (s', snd (seq_step e g l cap o)) /\
    Rep e g s' (fst (fst (seq_step e g l cap o))) (snd (fst (seq_step e g l cap o))).
Proof.
  intros OK R HW G. assert (RS := rep_size _ _ _ _ _ R). destruct o; cbn [good_op] in G.
  - apply add_ok; auto.
  - apply insert_ok; auto.
  - exists s. split; [reflexivity|exact R].
  - cbn [code_step seq_step]. unfold sl_remove. rewrite RS. destruct (pos <? Z.of_nat (length l)) eqn:E.
    + replace (pos >=? Z.of_nat (length l)) with false by lia.
      destruct (close_gap_ok e g s l cap pos OK R ltac:(lia)) as (s' & -> & R'). exists s'. split; [reflexivity|exact R'].
    + replace (pos >=? Z.of_nat (length l)) with true by lia. exists s. split; [reflexivity|exact R].
  - cbn [code_step seq_step]. unfold sl_extract. rewrite RS. destruct (pos <? Z.of_nat (length l)) eqn:E.
    + replace (pos >=? Z.of_nat (length l)) with false by lia. rewrite (read_ok e g s l cap pos OK R ltac:(lia)).
      destruct (close_gap_ok e g s l cap pos OK R ltac:(lia)) as (s' & -> & R'). exists s'. split; [reflexivity|exact R'].
    + replace (pos >=? Z.of_nat (length l)) with true by lia. exists s. split; [reflexivity|exact R].
  - cbn [code_step seq_step]. unfold sl_peek. rewrite RS. destruct (pos <? Z.of_nat (length l)) eqn:E.
    + replace (pos >=? Z.of_nat (length l)) with false by lia. rewrite (read_ok e g s l cap pos OK R ltac:(lia)).
      exists s. split; [reflexivity|exact R].
    + replace (pos >=? Z.of_nat (length l)) with true by lia. exists s. split; [reflexivity|exact R].
  - cbn [code_step seq_step]. destruct (pos <? Z.of_nat (length l)) eqn:E.
    + destruct (set_ok e g s l cap pos v OK R ltac:(tauto) ltac:(lia)) as (s' & -> & R'). exists s'. split; [reflexivity|exact R'].
    + unfold sl_set. rewrite RS, E. exists s. split; [reflexivity|exact R].
  - cbn [code_step seq_step]. eexists. split; [reflexivity|]. cbn [fst snd]. destruct R. destruct rep_mem0 as (rest & EM).
    unfold sl_clean. constructor; cbn [sl_esz sl_gran sl_cap sl_size sl_mem length]; auto; [exists (sl_mem s); reflexivity|lia].
  - cbn [code_step seq_step]. rewrite RS. exists s. split; [reflexivity|exact R].
  - cbn [code_step seq_step]. rewrite (rep_cap _ _ _ _ _ R). exists s. split; [reflexivity|exact R].
Qed.

(** The capacity only grows by one granule per operation, and only when the list is full. *)
Lemma cap_bound e g l cap o : 1 <= g -> Z.of_nat (length l) <= cap -> snd (fst (seq_step e g l cap o)) <= Z.max cap (Z.of_nat (length l) + g) /\
  Z.of_nat (length (fst (fst (seq_step e g l cap o)))) <= Z.of_nat (length l) + 1.
Proof.
  intros Hg H. assert (G : forall a c, grow e g l cap a = Some c -> c <= Z.max cap (Z.of_nat (length l) + g)).
  { intros a c. unfold grow. destruct (_ <? _) eqn:E1; [intros [= <-]; lia|]. destruct (_ && _); [|discriminate]. intros [= <-]. lia. }
  destruct o; cbn [seq_step];
    repeat match goal with
    | |- context [grow e g l cap ?al] => let E := fresh in destruct (grow e g l cap al) eqn:E; [apply G in E|]
    | |- context [if ?b then _ else _] => destruct b eqn:?
    end; cbn [fst snd]; unfold insert_at, remove_at, set_at; rewrite ?app_length; cbn [length]; rewrite ?firstn_length, ?skipn_length; lia.
Qed.

Lemma run_ok e g : sizes_ok e g -> forall ops s l cap n, Rep e g s l cap ->
  (2 <= e \/ n + Z.of_nat (length ops) + 2 * g < 2 ^ 32) -> Z.of_nat (length l) <= n -> cap <= n + g ->
  Forall (good_op e) ops -> code_run s ops = Some (seq_run e g l cap ops).
Proof.
  intros OK ops. induction ops as [|o ops IH]; intros s l cap n R HW Hl Hc G; [reflexivity|].
  inversion G; subst. cbn [code_run seq_run length] in *.
  assert (OK' := OK). destruct OK' as (He & Hg & _).
  destruct (step_ok e g s l cap o OK R) as (s' & E & R'); auto; [destruct HW; [auto|right; lia]|].
  pose proof (cap_bound e g l cap o Hg (rep_le _ _ _ _ _ R)) as [CB1 CB2].
  rewrite E. destruct (seq_step e g l cap o) as [[l' c] x]. cbn [fst snd] in *.
  rewrite (IH s' l' c (n + 1)); auto; [destruct HW; [auto|right; lia]|lia|lia].
Qed.

Lemma Rep_new e g s : sizes_ok e g -> sl_new e g = Some s -> Rep e g s [] 0.
Proof.
  intros OK. pose proof (max_bound e g OK). unfold sl_new. destruct (_ || _); [discriminate|]. intros [= <-].
  constructor; cbn; auto; try lia. exists []. reflexivity.
Qed.
Lemma new_ok e g : sizes_ok e g -> exists s, sl_new e g = Some s.
Proof.
  intros (He & Hg & H). unfold sl_new. rewrite uwrap_id by nia. replace (_ || _) with false; [eauto|].
  symmetry. apply orb_false_iff. split; apply Z.eqb_neq; nia.
Qed.
