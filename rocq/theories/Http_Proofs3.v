From Verif Require Import Base BitsBase Token_Model Http_Model Http_Spec Http_Proofs.
From Coq Require Import Lia.
Open Scope Z_scope.

(** ** Tokens of any list *)
Lemma gt_any term skip : forall l fuel out size, (length l < fuel)%nat ->
  match gt_loop next_char add_char fuel term skip l out size with
  | None => False
  | Some (r, c, rest, o) => (length rest <= length l)%nat /\ (r = true -> (length rest < length l)%nat \/ size <> 0) /\ (forall x, In x rest -> In x l) /\ (forall x, In x o -> In x out \/ In x l)
  end.
Proof.
  induction l as [|c l IH]; intros fuel out size Fu; (destruct fuel as [|fuel]; [cbn in Fu; lia|]); cbn [gt_loop next_char].
  - split; [lia|]. split; [|split; tauto]. intros H. right. destruct (size =? 0) eqn:E; [discriminate|lia].
  - cbn [length] in Fu.
    assert (X : forall out2 size2, (forall x, In x out2 -> In x out \/ In x (c :: l)) ->
      match gt_loop next_char add_char fuel term skip l out2 size2 with
      | None => False
      | Some (r, c', rest, o) => (length rest <= length (c :: l))%nat /\ (r = true -> (length rest < length (c :: l))%nat \/ size <> 0) /\ (forall x, In x rest -> In x (c :: l)) /\ (forall x, In x o -> In x out \/ In x (c :: l))
      end).
    { intros out2 size2 S2. specialize (IH fuel out2 size2 ltac:(lia)). destruct (gt_loop next_char add_char fuel term skip l out2 size2) as [(((r, c'), rest), o)|]; [|contradiction].
      destruct IH as (A & _ & B & C). cbn [length]. split; [lia|]. split; [intros _; left; lia|]. split; [intros x I; right; exact (B x I)|]. intros x I. destruct (C x I) as [D|D]; [exact (S2 x D)|right; right; exact D]. }
    destruct (in_set term c || (c =? 0)) eqn:T.
    + destruct (negb (size =? 0) || negb (in_set skip c)).
      * cbn [length]. split; [lia|]. split; [intros _; left; lia|]. split; [intros x I; right; exact I|tauto].
      * apply X. tauto.
    + destruct (negb (in_set skip c)).
      * unfold add_char at 1. apply X. intros x I. apply in_app_or in I. cbn in I |- *. tauto.
      * apply X. tauto.
Qed.
Lemma tok_any term skip l out :
  match token term skip l out with
  | None => False
  | Some (r, c, rest, o) => (length rest <= length l)%nat /\ (r = true -> (length rest < length l)%nat) /\ (forall x, In x rest -> In x l) /\ (forall x, In x o -> In x out \/ In x l)
  end.
Proof.
  unfold token, get_token. pose proof (gt_any term (match skip with None => term | Some k => k end) l (S (length l)) out 0 ltac:(lia)) as H.
  destruct (gt_loop _ _ _ _ _ _ _ _) as [(((r, c), rest), o)|]; [|exact H]. destruct H as (A & B & C & D). split; [exact A|]. split; [|split; assumption]. intros E. destruct (B E); [assumption|lia].
Qed.
Lemma decode_any l : ~ In 37 l -> decode l = Some l.
Proof.
  induction l as [|c l IH]; intros N; [reflexivity|]. cbn [decode]. replace (c =? 37) with false. 2: { symmetry. apply Z.eqb_neq. intros ->. apply N. left. reflexivity. }
  rewrite IH; [reflexivity|]. intros H. apply N. right. exact H.
Qed.
Lemma parts_any : forall fuel l path, (length l < fuel)%nat -> parts_loop fuel l path <> None.
Proof.
  induction fuel as [|fuel IH]; intros l path Fu; [lia|]. cbn [parts_loop]. pose proof (tok_any [92; 47] None l []) as H. destruct (token [92; 47] None l []) as [(((r, c), rest), o)|]; [|contradiction].
  destruct r; [|discriminate]. destruct H as (_ & B & _). specialize (B eq_refl). apply IH. lia.
Qed.
Lemma build_any l : ~ In 37 l -> build_url l <> None.
Proof.
  intros N. unfold build_url. pose proof (tok_any [32; 13; 10; 63] (Some [32; 13; 10; 63]) l []) as H. destruct (token _ _ l []) as [(((r, c), rest), o)|]; [|contradiction]. destruct H as (_ & _ & _ & D).
  rewrite decode_any by (intros I; destruct (D 37 I) as [[]|I2]; contradiction). pose proof (parts_any (S (length o)) o [] ltac:(lia)) as P. destruct (parts_loop (S (length o)) o []); [discriminate|contradiction].
Qed.
Lemma command_any ve l : ~ In 37 l -> store_command ve l <> None.
Proof.
  intros N. unfold store_command. destruct (3 <? zl l); [|discriminate]. pose proof (tok_any [61] None l []) as H. destruct (token [61] None l []) as [(((r, c), rest), o)|]; [|contradiction].
  destruct r; [|discriminate]. destruct H as (_ & _ & R & D). pose proof (tok_any ve None rest []) as H. destruct (token ve None rest []) as [(((r2, c2), rest2), o2)|]; [|contradiction]. destruct H as (_ & _ & _ & D2).
  rewrite (decode_any o2) by (intros I; destruct (D2 37 I) as [[]|I2]; apply N, R, I2). rewrite (decode_any o) by (intros I; destruct (D 37 I) as [[]|I2]; contradiction). discriminate.
Qed.
Lemma commands_any : forall fuel l, ~ In 37 l -> (length l < fuel)%nat -> commands_loop fuel l <> None.
Proof.
  induction fuel as [|fuel IH]; intros l N Fu; [lia|]. cbn [commands_loop]. pose proof (tok_any [38] None l []) as H. destruct (token [38] None l []) as [(((r, c), rest), o)|]; [|contradiction].
  destruct r; [|discriminate]. destruct H as (_ & B & R & D). specialize (B eq_refl).
  pose proof (command_any [] o ltac:(intros I; destruct (D 37 I) as [[]|I2]; contradiction)) as S. destruct (store_command [] o) as [([|], w)|]; [|discriminate|contradiction].
  specialize (IH rest ltac:(intros I; apply N, R, I) ltac:(lia)). destruct (commands_loop fuel rest) as [(r2, ws)|]; [discriminate|contradiction].
Qed.
Lemma store_any l : ~ In 37 l -> store_commands l <> None.
Proof.
  intros N. unfold store_commands. pose proof (tok_any [32; 9] None l []) as H. destruct (token [32; 9] None l []) as [(((r, c), rest), o)|]; [|contradiction]. destruct H as (_ & _ & R & D).
  pose proof (commands_any (S (length o)) o ltac:(intros I; destruct (D 37 I) as [[]|I2]; contradiction) ltac:(lia)) as C. destruct (commands_loop (S (length o)) o) as [(r2, w)|]; [discriminate|contradiction].
Qed.
Lemma form_any : forall fuel l cmd ret, ~ In 37 l -> ~ In 37 cmd -> (length l < fuel)%nat -> form_loop fuel l cmd ret <> None.
Proof.
  induction fuel as [|fuel IH]; intros l cmd ret N N2 Fu; [lia|]. cbn [form_loop]. pose proof (tok_any [38] None l cmd) as H. destruct (token [38] None l cmd) as [(((r, c), rest), o)|]; [|contradiction].
  destruct r; [|discriminate]. destruct H as (_ & B & R & D). specialize (B eq_refl). assert (NO : ~ In 37 o) by (intros I; destruct (D 37 I); contradiction).
  pose proof (command_any [59] o NO) as S. destruct (store_command [59] o) as [(r2, w)|]; [|contradiction].
  specialize (IH rest (if r2 then [] else o) r2 ltac:(intros I; apply N, R, I) ltac:(destruct r2; [intros []|exact NO]) ltac:(lia)). destruct (form_loop fuel rest _ r2) as [(r3, ws)|]; [discriminate|contradiction].
Qed.
Lemma post_any l : ~ In 37 l -> post_form l <> None.
Proof.
  intros N. unfold post_form, get_line. pose proof (tok_any [10] (Some [13]) l []) as H. destruct (token [10] (Some [13]) l []) as [(((r, c), rest), o)|]; [|contradiction].
  destruct r; [|discriminate]. destruct H as (_ & _ & _ & D). apply form_any; [intros I; destruct (D 37 I) as [[]|I2]; contradiction|intros []|lia].
Qed.
Lemma option_any l : store_option l <> None.
Proof.
  unfold store_option. pose proof (tok_any [32; 9; 58] None l []) as H. destruct (token [32; 9; 58] None l []) as [(((r, c), rest), o)|]; [|contradiction]. destruct r; [|discriminate].
  pose proof (tok_any [32; 9] None rest []) as H2. destruct (token [32; 9] None rest []) as [(((r2, c2), rest2), o2)|]; [|contradiction]. cbn zeta.
  match goal with |- context [token [] None rest2 ?v] => pose proof (tok_any [] None rest2 v) as H3; destruct (token [] None rest2 v) as [(((r3, c3), rest3), o3)|]; [discriminate|contradiction] end.
Qed.
Lemma options_any : forall fuel l, (length l < fuel)%nat -> options_loop fuel l <> None.
Proof.
  induction fuel as [|fuel IH]; intros l Fu; [lia|]. cbn [options_loop]. unfold get_line. pose proof (tok_any [10] (Some [13]) l []) as H. destruct (token [10] (Some [13]) l []) as [(((r, c), rest), o)|]; [|contradiction].
  destruct r; [|discriminate]. destruct H as (_ & B & _). specialize (B eq_refl). destruct (0 <? zl o); [|discriminate]. pose proof (option_any o) as S. destruct (store_option o) as [w|]; [|contradiction].
  specialize (IH rest ltac:(lia)). destruct (options_loop fuel rest) as [((r2, st), ws)|]; [discriminate|contradiction].
Qed.
