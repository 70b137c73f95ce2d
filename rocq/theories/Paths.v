(** Paths: lists of names separated by dots in text. *)
From Coq Require Import String Ascii.
From Verif Require Import Base.
Open Scope string_scope. Open Scope nat_scope. Open Scope list_scope.
Definition dot : ascii := "."%char.
(** A path is a list of names: not empty, without dots. *)
Definition no_dot (t : string) : Prop := forall a b, t <> (a ++ "." ++ b)%string.
Definition good_name (t : string) : Prop := t <> "" /\ no_dot t.
Fixpoint join (p : list string) : string := match p with [] => "" | [t] => t | t :: r => (t ++ "." ++ join r)%string end.
Lemma no_dot_cons c r : no_dot (String c r) -> c <> dot /\ no_dot r.
Proof. intro H. split; [intros ->; exact (H "" r eq_refl)|]. intros a b E. apply (H (String c a) b). cbn. rewrite E. reflexivity. Qed.
Lemma neq_dot c : c <> dot -> Ascii.eqb c dot = false.
Proof. intro H. apply Ascii.eqb_neq. exact H. Qed.
Lemma join_cons t p : p <> [] -> join (t :: p) = (t ++ "." ++ join p)%string.
Proof. destruct p; [congruence|reflexivity]. Qed.
Lemma app_empty_r s : (s ++ "")%string = s.
Proof. induction s as [|c s IH]; [reflexivity|]. cbn. rewrite IH. reflexivity. Qed.
Lemma join_nonempty p : Forall good_name p -> p <> [] -> join p <> "".
Proof.
  destruct p as [|t p]; [congruence|]. intros H _. inversion H as [|? ? [G1 G2] G3]; subst. destruct p; [exact G1|]. rewrite join_cons by discriminate. destruct t; [congruence|discriminate].
Qed.
Lemma join_head p : Forall good_name p -> p <> [] -> exists c r, join p = String c r /\ c <> dot.
Proof.
  destruct p as [|t p]; [congruence|]. intros H _. inversion H as [|? ? [G1 G2] G3]; subst. destruct t as [|c t]; [congruence|]. apply no_dot_cons in G2.
  destruct p; eexists; eexists; (split; [reflexivity|tauto]).
Qed.
Lemma length_app a : forall b, String.length (a ++ b) = String.length a + String.length b.
Proof. induction a as [|c a IH]; intro b; [reflexivity|]. cbn. rewrite IH. reflexivity. Qed.
Lemma no_dot_b t : (fix f s := match s with EmptyString => true | String c r => negb (Ascii.eqb c dot) && f r end) t = true -> no_dot t.
Proof.
  intros H a b ->. induction a as [|c a IH]; [discriminate H|]. cbn in H. apply andb_true_iff in H. apply IH. exact (proj2 H).
Qed.
Ltac good := repeat constructor; try discriminate; apply no_dot_b; reflexivity.
