(** C30: search, insertion and removal by path. *)
From Coq Require Import String Ascii.
From Verif Require Import Base Paths Container_Model.
Open Scope string_scope. Open Scope nat_scope. Open Scope list_scope.

(** ** Specification *)
(** [x] is at path [p] in the container [l]. *)
Inductive at_path : list obj -> list string -> obj -> Prop :=
| at_here l o t : In o l -> oname o = Some t -> at_path l [t] o
| at_in l o t k p x : In o l -> oname o = Some t -> okids o = Some k -> at_path k p x -> at_path l (t :: p) x.
(** The first object at a path, in the order of the containers. *)
Fixpoint first_of {A B} (f : A -> option B) (l : list A) : option B := match l with [] => None | x :: r => match f x with Some y => Some y | None => first_of f r end end.
Fixpoint lookup (p : list string) (l : list obj) {struct p} : option obj :=
  match p with
  | [] => None
  | [t] => List.find (named t) l
  | t :: r => first_of (fun o => if named t o then match okids o with Some k => lookup r k | None => None end else None) l
  end.
(** All objects, a container before the objects in it. *)
Fixpoint pre (o : obj) : list obj := o :: match okids o with Some k => flat_map pre k | None => [] end.
Definition everywhere (l : list obj) : list obj := flat_map pre l.
(** Every object has a name; no two objects of a container have the same. *)
Definition all_named (l : list obj) : Prop := forall x, In x (everywhere l) -> oname x <> None.
Definition unique_names (l : list obj) : Prop := all_named l /\ NoDup (map oname l) /\ forall x k, In x (everywhere l) -> okids x = Some k -> NoDup (map oname k).

(** ** Text of a path *)
Lemma token_dot t s : no_dot t -> token (t ++ "." ++ s)%string = (t, s).
Proof.
  induction t as [|c t IH]; intro H; [reflexivity|]. apply no_dot_cons in H. destruct H as [H1 H2]. change ((String c t ++ "." ++ s)%string) with (String c (t ++ "." ++ s)).
  cbn [token]. rewrite (neq_dot c H1), (IH H2). reflexivity.
Qed.
Lemma token_end t : no_dot t -> token t = (t, "").
Proof. induction t as [|c t IH]; intro H; [reflexivity|]. apply no_dot_cons in H. destruct H as [H1 H2]. cbn [token]. rewrite (neq_dot c H1), (IH H2). reflexivity. Qed.
Lemma tokens_join p : Forall good_name p -> tokens (List.length p) (join p) = p.
Proof.
  induction p as [|t p IH]; intro H; [reflexivity|]. inversion H as [|? ? [G1 G2] G3]; subst. destruct p as [|u p].
  - cbn [join List.length tokens]. rewrite token_end by exact G2. reflexivity.
  - rewrite join_cons by discriminate. change (List.length (t :: u :: p)) with (S (List.length (u :: p))). cbn [tokens]. rewrite token_dot by exact G2. rewrite (IH G3). reflexivity.
Qed.
Lemma count_skip t : no_dot t -> forall s prev n, t <> "" -> count_nodes (t ++ s) prev n = count_nodes s false n.
Proof.
  induction t as [|c t IH]; intros H s prev n N; [congruence|]. apply no_dot_cons in H. destruct H as [H1 H2]. cbn [count_nodes append]. rewrite (neq_dot c H1).
  destruct t as [|d t]; [reflexivity|]. apply IH; [exact H2|discriminate].
Qed.
Lemma count_join p : Forall good_name p -> p <> [] -> forall n, count_nodes (join p) true n = n + List.length p - 1.
Proof.
  induction p as [|t p IH]; intros H N n; [congruence|]. inversion H as [|? ? [G1 G2] G3]; subst. destruct p as [|u p].
  - cbn [join List.length]. rewrite <- (app_empty_r t), count_skip by assumption. cbn. lia.
  - rewrite join_cons by discriminate. rewrite count_skip by assumption. change (count_nodes ("." ++ join (u :: p)) false n) with (count_nodes (join (u :: p)) true (S n)).
    rewrite IH by (auto; discriminate). cbn [List.length]. lia.
Qed.
Lemma ends_skip t s : s <> "" -> ends_with_dot (t ++ s) = ends_with_dot s.
Proof.
  intro N. induction t as [|c t IH]; [reflexivity|]. cbn [append]. change (ends_with_dot (String c (t ++ s))) with (match (t ++ s)%string with EmptyString => Ascii.eqb c dot | _ => ends_with_dot (t ++ s) end).
  destruct (t ++ s)%string as [|d r] eqn:E; [|rewrite <- IH; reflexivity]. destruct t; cbn in E; [congruence|discriminate].
Qed.
Lemma ends_no_dot t : no_dot t -> ends_with_dot t = false.
Proof.
  induction t as [|c t IH]; intro H; [reflexivity|]. apply no_dot_cons in H. destruct H as [H1 H2]. destruct t as [|d t]; [cbn; apply neq_dot; exact H1|]. apply IH. exact H2.
Qed.
Lemma ends_join p : Forall good_name p -> ends_with_dot (join p) = false.
Proof.
  induction p as [|t p IH]; intro H; [reflexivity|]. inversion H as [|? ? [G1 G2] G3]; subst. destruct p as [|u p]; [apply ends_no_dot; exact G2|].
  rewrite join_cons by discriminate. rewrite ends_skip by discriminate. rewrite ends_skip by (apply join_nonempty; [exact G3|discriminate]). apply IH. exact G3.
Qed.
Lemma address_join p : Forall good_name p -> p <> [] -> address (join p) = p.
Proof.
  intros H N. destruct (join_head p H N) as (c & r & E & D). unfold address. rewrite E, (neq_dot c D), <- E. rewrite (ends_join p H), (count_join p H N). replace (1 + List.length p - 1) with (List.length p) by lia.
  apply tokens_join. exact H.
Qed.
(** A dot before or after the path changes nothing. *)
Lemma address_dots p : Forall good_name p -> p <> [] -> address ("." ++ join p) = p /\ address (join p ++ ".") = p.
Proof.
  intros H N. split.
  - cbn [append address]. change (Ascii.eqb dot dot) with true. cbv iota. destruct (join_head p H N) as (c & r & E & D).
    change (ends_with_dot (String "." (join p))) with (ends_with_dot ("." ++ join p)). rewrite (ends_skip "."), (ends_join p H), (count_join p H N) by (rewrite E; discriminate).
    replace (1 + List.length p - 1) with (List.length p) by lia. apply tokens_join. exact H.
  - destruct (join_head p H N) as (c & r & E & D). unfold address. rewrite E. cbn [append]. rewrite (neq_dot c D). change (String c (r ++ ".")) with (String c r ++ ".")%string. rewrite <- E.
    rewrite ends_skip by discriminate. change (ends_with_dot ".") with true. cbv iota.
    assert (C : forall n, count_nodes (join p ++ ".") true n = n + List.length p).
    { clear - H N. induction p as [|t p IH]; intro n; [congruence|]. inversion H as [|? ? [G1 G2] G3]; subst. destruct p as [|u p].
      - cbn [join List.length]. rewrite count_skip by assumption. cbn. lia.
      - rewrite join_cons by discriminate. assert (A : forall a b c, ((a ++ b) ++ c = a ++ (b ++ c))%string) by (induction a as [|x a IHa]; intros; cbn; [reflexivity|rewrite IHa; reflexivity]).
        rewrite !A, count_skip by assumption. change (count_nodes ("." ++ join (u :: p) ++ ".") false n) with (count_nodes (join (u :: p) ++ ".") true (S n)).
        rewrite IH by (auto; discriminate). cbn [List.length]. lia. }
    rewrite C. replace (1 + List.length p - 1) with (List.length p) by lia. clear - H N.
    induction p as [|t p IH]; [congruence|]. inversion H as [|? ? [G1 G2] G3]; subst. destruct p as [|u p].
    + cbn [join List.length tokens]. change (t ++ ".")%string with (t ++ "." ++ "")%string. rewrite token_dot by exact G2. reflexivity.
    + rewrite join_cons by discriminate. assert (A : forall a b c, ((a ++ b) ++ c = a ++ (b ++ c))%string) by (induction a as [|x a IHa]; intros; cbn; [reflexivity|rewrite IHa; reflexivity]).
      rewrite !A. change (List.length (t :: u :: p)) with (S (List.length (u :: p))). cbn [tokens]. rewrite token_dot by exact G2. rewrite IH by (auto; discriminate). reflexivity.
Qed.
Lemma insert_tokens_join p : Forall good_name p -> forall fuel, String.length (join p) < fuel -> insert_path_tokens fuel (join p) = p.
Proof.
  induction p as [|t p IH]; intros H fuel L; [destruct fuel; reflexivity|]. inversion H as [|? ? [G1 G2] G3]; subst. destruct fuel as [|k]; [lia|]. cbn [insert_path_tokens]. destruct p as [|u p].
  - cbn [join]. rewrite token_end by exact G2. destruct t; [congruence|]. destruct k; reflexivity.
  - rewrite join_cons by discriminate. rewrite token_dot by exact G2. destruct t as [|c t]; [congruence|]. rewrite IH; [reflexivity|exact G3|].
    rewrite join_cons, !length_app in L by discriminate. change (String.length (String c t)) with (S (String.length t)) in L. lia.
Qed.
Theorem C30_path_names p : Forall good_name p -> p <> [] -> address (join p) = p /\ address ("." ++ join p) = p /\ address (join p ++ ".") = p /\
  insert_path_tokens (S (String.length (join p))) (join p) = p.
Proof. intros H N. destruct (address_dots p H N). split; [apply address_join; assumption|]. split; [assumption|]. split; [assumption|]. apply insert_tokens_join; [exact H|lia]. Qed.

(** ** One turn of the search *)
Lemma obj_nested (P : obj -> Prop) : (forall i n k, (forall ks, k = Some ks -> Forall P ks) -> P (Ob i n k)) -> forall o, P o.
Proof.
  intro H. fix IH 1. intros [i n k]. apply H. destruct k as [ks|]; intros l E; [|discriminate]. injection E as E. subst l.
  induction ks as [|o ks IHks]; constructor; [apply IH|exact IHks].
Qed.
Lemma visit_eq addr o f res : visit addr o f res =
  let '(found, f) := test addr f res o in
  let ins := found && (all f || finished f) in
  let res := if ins then res ++ [o] else res in
  let gone := ins && remv f in
  if finished f then Some (if gone then None else Some o, f, res)
  else if gone then None
  else match okids o with
  | Some kids =>
    if recu f then
      let res1 := if pathm f then res ++ [o] else res in
      match (if rever f then walk_back (visit addr) kids f res1 else walk (visit addr) kids f res1) with
      | None => None
      | Some (kids', f, res2) =>
        let res3 := if negb (recu f) then []
                    else if List.length res1 =? List.length res2 then if pathm f then removelast res2 else res2 else res2 in
        Some (Some (Ob (oid o) (oname o) (Some kids')), f, res3)
      end
    else Some (Some o, f, res)
  | _ => Some (Some o, f, res)
  end.
Proof. destruct o as [i n [k|]]; reflexivity. Qed.
Lemma named_spec t o : named t o = true <-> oname o = Some t.
Proof. unfold named. destruct (oname o) as [n|]; [|split; discriminate]. rewrite String.eqb_eq. split; congruence. Qed.
Lemma named_not t u o : oname o = Some u -> u <> t -> named t o = false.
Proof. intros H N. unfold named. rewrite H. apply String.eqb_neq. exact N. Qed.

Section Many.
Variable addr : list string.
Hypothesis many : 2 <= List.length addr.
Lemma many_b : (1 <? List.length addr) = true. Proof. apply Nat.ltb_lt. lia. Qed.
Lemma test_many o f res u : oname o = Some u -> test addr f res o =
  let path_ok := match nth_error addr (List.length res) with Some t => named t o | None => false end && test_path addr res in
  let found := path_ok && (List.length res =? List.length addr - 1) in
  let f := if path_ok then mode_path f else mode_flat f in (found, if found then increment_found f else f).
Proof. intro H. unfold test. rewrite H, many_b. destruct addr; [cbn in many; lia|reflexivity]. Qed.
Lemma visit_miss o f res u : oname o = Some u -> nth_error addr (List.length res) <> Some u -> occ f = 1%Z -> visit addr o f res = Some (Some o, mode_flat f, res).
Proof.
  intros H N F. rewrite visit_eq, (test_many o f res u H). assert (M : match nth_error addr (List.length res) with Some t => named t o | None => false end = false).
  { destruct (nth_error addr (List.length res)) as [t|]; [|reflexivity]. apply named_not with u; [exact H|congruence]. }
  rewrite M. cbn [andb]. unfold finished. cbn [occ mode_flat]. rewrite F. cbn. destruct (okids o); reflexivity.
Qed.
Lemma visit_last o f res u : oname o = Some u -> nth_error addr (List.length res) = Some u -> test_path addr res = true -> S (List.length res) = List.length addr -> occ f = 1%Z ->
  visit addr o f res = Some (if remv f then None else Some o, Fi 0 false true true (rever f) (remv f), res ++ [o]).
Proof.
  intros H N T L F. rewrite visit_eq, (test_many o f res u H), N, T. rewrite (proj2 (named_spec u o) H). cbn [andb]. rewrite (proj2 (Nat.eqb_eq (List.length res) (List.length addr - 1))) by lia.
  unfold increment_found, mode_path. cbn [occ all recu pathm rever remv]. rewrite F. change (0 <? 1)%Z with true. cbv iota. unfold finished. cbn [occ remv all]. change (1 - 1 =? 0)%Z with true. cbn [orb andb]. reflexivity.
Qed.
Lemma visit_mid o f res u : oname o = Some u -> nth_error addr (List.length res) = Some u -> test_path addr res = true -> S (List.length res) < List.length addr -> occ f = 1%Z -> rever f = false ->
  visit addr o f res = match okids o with
    | None => Some (Some o, mode_path f, res)
    | Some k => match walk (visit addr) k (mode_path f) (res ++ [o]) with
      | None => None
      | Some (k', f', r2) => Some (Some (Ob (oid o) (oname o) (Some k')), f',
          if negb (recu f') then [] else if List.length (res ++ [o]) =? List.length r2 then if pathm f' then removelast r2 else r2 else r2)
      end
    end.
Proof.
  intros H N T L F R. rewrite visit_eq, (test_many o f res u H), N, T. rewrite (proj2 (named_spec u o) H). cbn [andb]. rewrite (proj2 (Nat.eqb_neq (List.length res) (List.length addr - 1))) by lia.
  unfold finished. cbn [occ mode_path recu pathm rever]. rewrite F, R. cbn. reflexivity.
Qed.
Lemma visit_wrong o f res u : oname o = Some u -> test_path addr res = false -> occ f = 1%Z -> visit addr o f res = Some (Some o, mode_flat f, res).
Proof.
  intros H N F. rewrite visit_eq, (test_many o f res u H), N, andb_false_r. cbn [andb]. unfold finished. cbn [occ mode_flat]. rewrite F. cbn. destruct (okids o); reflexivity.
Qed.

Lemma walk_misses t r : forall a f res, Forall (fun o => exists u, oname o = Some u /\ u <> t) a -> nth_error addr (List.length res) = Some t -> occ f = 1%Z ->
  exists f2, (f2 = f \/ f2 = mode_flat f) /\ walk (visit addr) (a ++ r) f res = match walk (visit addr) r f2 res with None => None | Some (r', f', res') => Some (a ++ r', f', res') end.
Proof.
  induction a as [|o a IH]; intros f res H N F.
  - exists f. split; [auto|]. cbn [app]. destruct (walk (visit addr) r f res) as [[[? ?] ?]|]; reflexivity.
  - inversion H as [|? ? (u & E & D) H']; subst. destruct (IH (mode_flat f) res H' N F) as (f2 & Q & W). exists f2. split.
    + right. destruct Q as [-> | ->]; reflexivity.
    + cbn [app walk]. assert (NF : finished f = false) by (unfold finished; rewrite F; reflexivity). rewrite NF, (visit_miss o f res u E) by (auto; congruence). rewrite W.
      destruct (walk (visit addr) r f2 res) as [[[? ?] ?]|]; reflexivity.
Qed.
End Many.

(** ** The container without the object at a path *)
Fixpoint without (p : list string) (l : list obj) : list obj :=
  match p with
  | [] => l
  | t :: r => match split_at t l with
    | None => l
    | Some (a, x, b) => match r with
      | [] => a ++ b
      | _ => match okids x with Some k => a ++ Ob (oid x) (oname x) (Some (without r k)) :: b | None => l end
      end
    end
  end.
Lemma pre_kids o k : okids o = Some k -> forall x, In x (everywhere k) -> In x (pre o).
Proof. destruct o as [i n k']. cbn [okids]. intros -> x H. right. exact H. Qed.
Lemma pre_self o : In o (pre o). Proof. destruct o; left; reflexivity. Qed.
Lemma in_everywhere l o x : In o l -> In x (pre o) -> In x (everywhere l).
Proof. intros H1 H2. apply in_flat_map. exists o. auto. Qed.
Lemma unique_kids l o k : unique_names l -> In o l -> okids o = Some k -> unique_names k.
Proof.
  intros (U1 & U2 & U3) I E. split; [|split].
  - intros x X. apply U1. apply (in_everywhere l o x I). exact (pre_kids o k E x X).
  - apply (U3 o k); [|exact E]. apply (in_everywhere l o o I). apply pre_self.
  - intros x k' X. apply U3. apply (in_everywhere l o x I). exact (pre_kids o k E x X).
Qed.
Lemma split_at_spec t l : match split_at t l with
  | Some (a, x, b) => l = a ++ x :: b /\ oname x = Some t /\ Forall (fun o => named t o = false) a
  | None => Forall (fun o => named t o = false) l end.
Proof.
  induction l as [|o l IH]; [constructor|]. cbn [split_at]. destruct (named t o) eqn:E; [split; [reflexivity|split; [apply named_spec; exact E|constructor]]|].
  destruct (split_at t l) as [[[a x] b]|]; [|constructor; assumption]. destruct IH as (-> & Q & F). split; [reflexivity|]. split; [exact Q|]. constructor; assumption.
Qed.
Lemma nodup_app_r {A} (a b : list A) : NoDup (a ++ b) -> NoDup b.
Proof. induction a as [|x a IH]; intro H; [exact H|]. inversion H; auto. Qed.
Lemma split_at_unique t l o : NoDup (map oname l) -> In o l -> oname o = Some t -> exists a b, split_at t l = Some (a, o, b) /\ l = a ++ o :: b.
Proof.
  intros U I E. pose proof (split_at_spec t l) as S. destruct (split_at t l) as [[[a x] b]|].
  - destruct S as (-> & Q & F). exists a, b. assert (x = o); [|subst; split; reflexivity]. apply in_app_or in I. destruct I as [I|[I|I]]; [|exact I|].
    + rewrite Forall_forall in F. specialize (F o I). apply named_spec in E. congruence.
    + exfalso. rewrite map_app in U. apply nodup_app_r in U. cbn in U. inversion U as [|? ? U1 U2]; subst. apply U1. rewrite Q, <- E. apply in_map. exact I.
  - exfalso. rewrite Forall_forall in S. specialize (S o I). apply named_spec in E. congruence.
Qed.
Lemma misses_of l a o b t : all_named l -> l = a ++ o :: b -> Forall (fun o => named t o = false) a -> Forall (fun o => exists u, oname o = Some u /\ u <> t) a.
Proof.
  intros N -> F. rewrite Forall_forall in *. intros y Y. specialize (F y Y). unfold named in F. destruct (oname y) as [u|] eqn:E.
  - exists u. split; [reflexivity|]. apply String.eqb_neq. exact F.
  - exfalso. apply (N y); [|exact E]. apply (in_everywhere _ y y); [apply in_or_app; auto|apply pre_self].
Qed.
Lemma test_path_snoc : forall addr res o u, test_path addr res = true -> nth_error addr (List.length res) = Some u -> named u o = true -> test_path addr (res ++ [o]) = true.
Proof.
  induction addr as [|t a IH]; intros res o u T N M; [destruct res; discriminate N|]. destruct res as [|r res]; cbn [app test_path List.length nth_error] in *.
  - injection N as ->. rewrite M. destruct a; reflexivity.
  - apply andb_true_iff in T. destruct T as [-> T]. cbn [andb]. apply IH with u; assumption.
Qed.
Lemma skipn_nth {A} (l : list A) : forall n x r, skipn n l = x :: r -> nth_error l n = Some x /\ skipn (S n) l = r.
Proof.
  induction l as [|y l IH]; intros n x r E; [destruct n; discriminate E|]. destruct n as [|n]; [cbn in *; injection E as -> ->; split; [reflexivity|destruct r; reflexivity]|]. exact (IH n x r E).
Qed.

(** ** An object is found at its path *)
Lemma descend addr : 2 <= List.length addr -> forall l p x, at_path l p x -> forall f res, unique_names l -> skipn (List.length res) addr = p -> test_path addr res = true -> occ f = 1%Z -> rever f = false ->
  exists f' res', walk (visit addr) l f res = Some (if remv f then without p l else l, f', res ++ res' ++ [x]) /\ occ f' = 0%Z /\ recu f' = true.
Proof.
  intros K l p x H. induction H as [l o t I E|l o t k p x I E Ek H IH]; intros f res U SK T F R.
  - destruct (skipn_nth _ _ _ _ SK) as [N SK']. assert (L : S (List.length res) = List.length addr).
    { pose proof (f_equal (@List.length string) SK) as Q. rewrite skipn_length in Q. cbn in Q. lia. }
    destruct (split_at_unique t l o (proj1 (proj2 U)) I E) as (a & b & Sp & El). pose proof (split_at_spec t l) as S. rewrite Sp in S. destruct S as (_ & _ & Fa).
    pose proof (misses_of l a o b t (proj1 U) El Fa) as M. destruct (walk_misses addr K t (o :: b) a f res M N F) as (f2 & Q & W).
    assert (F2 : occ f2 = 1%Z /\ remv f2 = remv f /\ rever f2 = rever f) by (destruct Q as [-> | ->]; auto). destruct F2 as (F2 & R2 & V2).
    exists (Fi 0 false true true (rever f2) (remv f2)), []. split; [|split; reflexivity].
    rewrite El at 1. rewrite W. cbn [walk]. assert (NF : finished f2 = false) by (unfold finished; rewrite F2; reflexivity). rewrite NF, (visit_last addr K o f2 res t E N T L F2).
    replace (walk (visit addr) b (Fi 0 false true true (rever f2) (remv f2)) (res ++ [o])) with (Some (b, Fi 0 false true true (rever f2) (remv f2), res ++ [o])) by (destruct b; reflexivity).
    cbn [without]. rewrite Sp, R2. destruct (remv f); [|rewrite El]; reflexivity.
  - destruct (skipn_nth _ _ _ _ SK) as [N SK']. assert (L : S (List.length res) < List.length addr).
    { pose proof (f_equal (@List.length string) SK) as Q. rewrite skipn_length in Q. cbn in Q. assert (p <> []) by (inversion H; discriminate). destruct p; [congruence|]. cbn in Q. lia. }
    destruct (split_at_unique t l o (proj1 (proj2 U)) I E) as (a & b & Sp & El). pose proof (split_at_spec t l) as S. rewrite Sp in S. destruct S as (_ & _ & Fa).
    pose proof (misses_of l a o b t (proj1 U) El Fa) as M. destruct (walk_misses addr K t (o :: b) a f res M N F) as (f2 & Q & W).
    assert (F2 : occ f2 = 1%Z /\ remv f2 = remv f /\ rever f2 = rever f) by (destruct Q as [-> | ->]; auto). destruct F2 as (F2 & R2 & V2).
    destruct (IH (mode_path f2) (res ++ [o])) as (f' & res' & W' & Q1 & Q2); [exact (unique_kids l o k U I Ek)|rewrite app_length; cbn [List.length]; rewrite Nat.add_1_r; exact SK'|
      apply test_path_snoc with t; [exact T|exact N|apply named_spec; exact E]|exact F2|cbn; congruence|].
    exists f', (o :: res'). split; [|split; assumption].
    rewrite El at 1. rewrite W. cbn [walk]. assert (NF : finished f2 = false) by (unfold finished; rewrite F2; reflexivity). rewrite NF, (visit_mid addr K o f2 res t E N T L F2) by congruence.
    rewrite Ek, W', Q2. cbn [negb]. rewrite (proj2 (Nat.eqb_neq _ _)) by (rewrite !app_length; cbn; lia).
    replace (walk (visit addr) b f' ((res ++ [o]) ++ res' ++ [x])) with (Some (b, f', (res ++ [o]) ++ res' ++ [x])) by (unfold walk; destruct b; [reflexivity|unfold finished; rewrite Q1; reflexivity]).
    cbn [without]. rewrite Sp, Ek. assert (p <> []) by (inversion H; discriminate). destruct p as [|u p']; [congruence|]. cbn [mode_path remv]. rewrite R2, <- !app_assoc. cbn [app cons_opt].
    destruct (remv f); [reflexivity|]. rewrite El. destruct o as [i n ko]. cbn in *. subst ko. reflexivity.
Qed.

(** ** A single name *)
Definition scope (r : bool) (o : obj) : list obj := if r then pre o else [o].
Definition scopes (r : bool) (l : list obj) : list obj := if r then everywhere l else l.
Lemma scopes_cons r o l : scopes r (o :: l) = scope r o ++ scopes r l.
Proof. destruct r; reflexivity. Qed.
Lemma test_one t f res o : test [t] f res o = (named t o, if named t o then increment_found f else f).
Proof. unfold test, named. destruct (oname o) as [n|]; cbn [List.length Nat.ltb Nat.leb nth_error]; [rewrite ?andb_true_r; reflexivity|reflexivity]. Qed.
Lemma scope_kids r o : scope r o = o :: match okids o with Some k => if r then everywhere k else [] | None => [] end.
Proof. destruct r, o as [i n [k|]]; reflexivity. Qed.
Lemma ob_eta o k : okids o = Some k -> Ob (oid o) (oname o) (Some k) = o.
Proof. destruct o as [i n kk]. cbn. congruence. Qed.

Lemma visit_all t : forall o f res, pathm f = false -> rever f = false -> all f = true -> occ f = (-1)%Z -> remv f = false ->
  visit [t] o f res = Some (Some o, f, res ++ filter (named t) (scope (recu f) o)).
Proof.
  induction o as [i n k IH] using obj_nested. intros f res P V A O R. set (o := Ob i n k). rewrite visit_eq, test_one.
  assert (IF : increment_found f = f) by (unfold increment_found; rewrite O; reflexivity). rewrite IF. replace (if named t o then f else f) with f by (destruct (named t o); reflexivity).
  rewrite A, R, P, V. unfold finished. rewrite O. change (-1 =? 0)%Z with false. cbn [orb]. rewrite andb_true_r, andb_false_r. rewrite scope_kids. cbn [filter].
  assert (W : forall ks g r0, pathm g = false -> rever g = false -> all g = true -> occ g = (-1)%Z -> remv g = false -> Forall (fun o => forall f res, pathm f = false -> rever f = false -> all f = true -> occ f = (-1)%Z -> remv f = false ->
      visit [t] o f res = Some (Some o, f, res ++ filter (named t) (scope (recu f) o))) ks -> walk (visit [t]) ks g r0 = Some (ks, g, r0 ++ filter (named t) (scopes (recu g) ks))).
  { clear. induction ks as [|o ks IHk]; intros g r0 P V A O R F; [cbn; destruct (recu g); rewrite app_nil_r; reflexivity|]. inversion F as [|? ? F1 F2]; subst. cbn [walk]. unfold finished at 1. rewrite O. change (-1 =? 0)%Z with false. cbv iota.
    rewrite F1 by assumption. rewrite IHk by assumption. rewrite scopes_cons, filter_app, app_assoc. reflexivity. }
  destruct (okids o) as [ks|] eqn:Ek.
  - destruct (recu f) eqn:Rc.
    + rewrite (W ks f _ P V A O R (IH ks Ek)). rewrite Rc. cbn [negb scopes]. rewrite P. rewrite (ob_eta o ks Ek). destruct (named t o); [rewrite <- app_assoc; cbn [app]|]; destruct (_ =? _); reflexivity.
    + destruct (named t o); rewrite ?app_nil_r; reflexivity.
  - destruct (named t o); rewrite ?app_nil_r; reflexivity.
Qed.
Lemma walk_all t : forall ks g r0, pathm g = false -> rever g = false -> all g = true -> occ g = (-1)%Z -> remv g = false -> walk (visit [t]) ks g r0 = Some (ks, g, r0 ++ filter (named t) (scopes (recu g) ks)).
Proof.
  induction ks as [|o ks IHk]; intros g r0 P V A O R; [cbn; destruct (recu g); rewrite app_nil_r; reflexivity|]. cbn [walk]. unfold finished at 1. rewrite O. change (-1 =? 0)%Z with false. cbv iota.
  rewrite visit_all by assumption. rewrite IHk by assumption. rewrite scopes_cons, filter_app, app_assoc. reflexivity.
Qed.
(** Searching all occurrences of a name (-1) returns every object with that name, once, in order, and changes nothing. *)
Theorem C30_find_all l t r : find [t] (name_filter (-1) r false false [t]) l = Some (l, name_filter (-1) r false false [t], filter (named t) (scopes r l)).
Proof. unfold find, name_filter. cbn [List.length Nat.ltb Nat.leb rever]. rewrite walk_all by reflexivity. reflexivity. Qed.

Definition nth_post (ms : list obj) (f : filt) (res : list obj) (f' : filt) (res' : list obj) : Prop :=
  recu f' = recu f /\ pathm f' = false /\ rever f' = false /\ all f' = false /\ remv f' = remv f /\
  ((exists x, nth_error ms (Z.to_nat (occ f) - 1) = Some x /\ res' = res ++ [x] /\ occ f' = 0%Z) \/
   ((Z.of_nat (List.length ms) < occ f)%Z /\ res' = res /\ occ f' = (occ f - Z.of_nat (List.length ms))%Z)).
Definition visits_nth (t : string) (o : obj) : Prop := forall f res, pathm f = false -> rever f = false -> all f = false -> (1 <= occ f)%Z ->
  exists o' f' res', visit [t] o f res = Some (o', f', res') /\ (occ f' <> 0%Z \/ remv f = false -> o' = Some o) /\ nth_post (filter (named t) (scope (recu f) o)) f res f' res'.
Lemma walk_nth t : forall ks f res, Forall (visits_nth t) ks -> pathm f = false -> rever f = false -> all f = false -> (1 <= occ f)%Z ->
  exists ks' f' res', walk (visit [t]) ks f res = Some (ks', f', res') /\ (occ f' <> 0%Z \/ remv f = false -> ks' = ks) /\ nth_post (filter (named t) (scopes (recu f) ks)) f res f' res'.
Proof.
  induction ks as [|o ks IH]; intros f res H P V A O.
  - exists [], f, res. split; [reflexivity|]. split; [reflexivity|]. replace (scopes (recu f) []) with (@nil obj) by (destruct (recu f); reflexivity). repeat (split; [assumption || reflexivity|]). right. cbn. split; [lia|]. split; [reflexivity|lia].
  - inversion H as [|? ? H1 H2]; subst. cbn [walk]. unfold finished at 1. rewrite (proj2 (Z.eqb_neq (occ f) 0)) by (clear - O; lia). destruct (H1 f res P V A O) as (o' & f1 & res1 & -> & Ho & Q1 & Q2 & Q3 & Q4 & Q5 & Q6).
    rewrite scopes_cons, filter_app. destruct Q6 as [(x & X & -> & Z0)|(Lt & -> & E1)].
    + exists (cons_opt o' ks), f1, (res ++ [x]). split; [|split].
      * unfold walk. destruct ks; [reflexivity|]. unfold finished. rewrite Z0. reflexivity.
      * intros [C|C]; [congruence|]. rewrite (Ho (or_intror C)). reflexivity.
      * repeat (split; [assumption|]). left. exists x. split; [|auto]. rewrite nth_error_app1; [exact X|]. apply nth_error_Some. congruence.
    + destruct (IH f1 res H2 Q2 Q3 Q4) as (ks' & f' & res' & -> & Hk & P1 & P2 & P3 & P4 & P5 & P6); [clear - Lt E1; lia|]. assert (NZ : occ f1 <> 0%Z) by (clear - Lt E1; lia). exists (cons_opt o' ks'), f', res'. split; [reflexivity|]. split.
      * intro C. rewrite (Ho (or_introl NZ)). cbn [cons_opt]. rewrite Hk; [reflexivity|]. rewrite Q5. exact C.
      * rewrite Q1 in P6. split; [congruence|]. split; [assumption|]. split; [assumption|]. split; [assumption|]. split; [congruence|]. destruct P6 as [(x & X & -> & Z0)|(Lt' & -> & E')].
        -- left. exists x. split; [|auto]. rewrite nth_error_app2 by (clear - Lt; lia). rewrite <- X. f_equal. rewrite E1. clear - Lt; lia.
        -- right. rewrite app_length. clear - Lt Lt' E1 E'. split; [lia|]. split; [reflexivity|lia].
Qed.
Lemma visit_nth t : forall o, visits_nth t o.
Proof.
  induction o as [i n k IH] using obj_nested. intros f res P V A O. assert (IH' : forall ks, okids (Ob i n k) = Some ks -> Forall (visits_nth t) ks) by exact IH. clear IH. generalize dependent (Ob i n k). intros o IH. rewrite visit_eq, test_one. rewrite scope_kids. cbn [filter].
  set (f1 := if named t o then increment_found f else f). assert (F1 : recu f1 = recu f /\ pathm f1 = false /\ rever f1 = false /\ all f1 = false /\ remv f1 = remv f /\ occ f1 = (occ f - (if named t o then 1 else 0))%Z).
  { unfold f1, increment_found. destruct (named t o); [rewrite (proj2 (Z.ltb_lt 0 (occ f))) by lia; cbn; auto 7|]. repeat split; auto; lia. }
  clearbody f1. destruct F1 as (R1 & P1 & V1 & A1 & M1 & O1). rewrite A1. cbn [orb]. unfold finished. destruct (occ f1 =? 0)%Z eqn:Z0.
  - apply Z.eqb_eq in Z0. destruct (named t o) eqn:N; [|exfalso; clear - O O1 Z0; lia]. cbn [andb]. eexists. eexists. eexists. split; [reflexivity|]. split; [intros [C|C]; [congruence|rewrite M1, C; reflexivity]|].
    repeat (split; [assumption|]). left. exists o. replace (Z.to_nat (occ f) - 1) with 0 by (clear - O O1 Z0; lia). split; [reflexivity|]. auto.
  - apply Z.eqb_neq in Z0. rewrite andb_false_r. cbn [andb]. rewrite R1, P1, V1. destruct (okids o) as [ks|] eqn:Ek.
    + destruct (recu f) eqn:Rc.
      * destruct (walk_nth t ks f1 res (IH ks eq_refl) P1 V1 A1) as (ks' & f' & res' & -> & Hk & Q1 & Q2 & Q3 & Q4 & Q5 & Q6); [clear - O O1 Z0; destruct (named t o); lia|]. rewrite R1 in *. rewrite Q1, Q2. cbn [negb scopes] in *.
        exists (Some (Ob (oid o) (oname o) (Some ks'))), f', res'. split; [destruct (_ =? _); reflexivity|]. split; [intro C; rewrite Hk by (rewrite M1; exact C); rewrite (ob_eta o ks Ek); reflexivity|].
        split; [congruence|]. split; [assumption|]. split; [assumption|]. split; [assumption|]. split; [congruence|]. destruct Q6 as [(x & X & -> & Y)|(Lt & -> & E1)].
        -- left. exists x. split; [|auto]. destruct (named t o); [|replace (Z.to_nat (occ f)) with (Z.to_nat (occ f1)) by (clear - O1; lia); exact X].
           replace (Z.to_nat (occ f) - 1) with (S (Z.to_nat (occ f1) - 1)) by (clear - O1 O Z0; lia). exact X.
        -- right. clear - O O1 Z0 Lt E1. destruct (named t o); cbn [List.length]; (split; [lia|]; split; [reflexivity|lia]).
      * eexists. eexists. eexists. split; [reflexivity|]. split; [reflexivity|]. split; [congruence|]. repeat (split; [assumption|]). right. clear - O O1 Z0. destruct (named t o); cbn [List.length filter]; (split; [lia|]; split; [reflexivity|lia]).
    + eexists. eexists. eexists. split; [reflexivity|]. split; [reflexivity|]. split; [congruence|]. repeat (split; [assumption|]). right. clear - O O1 Z0. destruct (named t o); cbn [List.length filter]; (split; [lia|]; split; [reflexivity|lia]).
Qed.
(** The n-th occurrence of a name is the n-th object with that name in order (a container before its content); searching changes nothing. *)
Theorem C30_find_nth l t n r : (1 <= n)%Z -> exists f', find [t] (name_filter n r false false [t]) l =
  Some (l, f', match nth_error (filter (named t) (scopes r l)) (Z.to_nat n - 1) with Some x => [x] | None => [] end).
Proof.
  intro N. unfold find, name_filter. cbn [List.length Nat.ltb Nat.leb rever]. rewrite (proj2 (Z.eqb_neq n (-1))) by lia.
  destruct (walk_nth t l (Fi n false r false false false) []) as (l' & f' & res' & -> & Hl & Q); try reflexivity; [rewrite Forall_forall; intros; apply visit_nth|exact N|].
  exists f'. rewrite (Hl (or_intror eq_refl)). destruct Q as (_ & _ & _ & _ & _ & Q). cbn [occ recu] in Q. destruct Q as [(x & X & -> & _)|(Lt & -> & _)]; [rewrite X; reflexivity|].
  rewrite (proj2 (nth_error_None _ _)) by lia. reflexivity.
Qed.
Lemma find_filter_head {A} (p : A -> bool) (l : list A) : List.find p l = nth_error (filter p l) 0.
Proof. induction l as [|x l IH]; [reflexivity|]. cbn [List.find filter]. destruct (p x); [reflexivity|exact IH]. Qed.
Theorem C30_find_name l t r : good_name t -> find_path l t r = Some (List.find (named t) (scopes r l)).
Proof.
  intro G. unfold find_path. assert (E : address t = [t]). { apply (address_join [t]); [constructor; [exact G|constructor]|discriminate]. } rewrite E.
  destruct (C30_find_nth l t 1 r) as [f' ->]; [lia|]. rewrite find_filter_head. change (Z.to_nat 1 - 1) with 0. destruct (nth_error _ 0); reflexivity.
Qed.

(** ** Two dots in a row: nothing is found and nothing is deleted. *)
Lemma count_double a : forall prev n b, count_nodes (a ++ ".." ++ b) prev n = 0.
Proof. induction a as [|c a IH]; intros prev n b; [destruct prev; reflexivity|]. cbn [append count_nodes]. destruct (Ascii.eqb c dot); [destruct prev; [reflexivity|]|]; apply IH. Qed.
Lemma address_double a b : address (a ++ ".." ++ b) = [].
Proof.
  assert (Z : forall (x : bool), (if x then 0 - 1 else 0) = 0) by (intros []; reflexivity). unfold address. destruct a as [|c a].
  - cbn [append]. change (Ascii.eqb "."%char dot) with true. cbv iota. change (count_nodes (String "." b) true 1) with 0. rewrite Z. reflexivity.
  - cbn [append]. destruct (Ascii.eqb c dot).
    + change (String "." (String "." b)) with (".." ++ b)%string. rewrite count_double, Z. reflexivity.
    + change (String c (a ++ String "." (String "." b))) with (String c a ++ ".." ++ b)%string. rewrite count_double, Z. reflexivity.
Qed.
Definition visits_none o := forall f res, pathm f = false -> rever f = false -> visit [] o f res = Some (Some o, f, res).
Lemma walk_none : forall l f res, Forall visits_none l -> pathm f = false -> rever f = false -> walk (visit []) l f res = Some (l, f, res).
Proof. induction l as [|o l IH]; intros f res F P R; [reflexivity|]. inversion F as [|? ? F1 F2]; subst. cbn [walk]. destruct (finished f); [reflexivity|]. rewrite F1, IH by assumption. reflexivity. Qed.
Lemma visit_none : forall o, visits_none o.
Proof.
  induction o as [i n k IH] using obj_nested. intros f res P R. rewrite visit_eq. unfold test. cbn [andb]. destruct (finished f); [reflexivity|]. cbn [okids]. destruct k as [ks|]; [|reflexivity]. destruct (recu f) eqn:Rc; [|reflexivity].
  rewrite P, R, (walk_none ks f res (IH ks eq_refl) P R), Rc, P. cbn [negb oid oname]. destruct (_ =? _); reflexivity.
Qed.
Theorem C30_double_dot a b l r : find_path l (a ++ ".." ++ b) r = Some None /\ delete_path l (a ++ ".." ++ b) = Some (l, false).
Proof.
  assert (F : Forall visits_none l) by (rewrite Forall_forall; intros; apply visit_none). unfold find_path, delete_path. rewrite address_double. unfold find, name_filter. cbn [List.length Nat.ltb Nat.leb rever].
  rewrite !(walk_none l _ [] F) by reflexivity. split; reflexivity.
Qed.
Print Assumptions C30_double_dot.

(** ** Searching uses no deleted node *)
Lemma test_all addr f res o : all f = false -> all (snd (test addr f res o)) = false.
Proof.
  intro A. unfold test. destruct addr as [|t a]; [exact A|]. destruct (oname o); [|exact A]. cbn [snd].
  match goal with |- all (if ?c then increment_found ?g else ?g) = false => assert (all g = false) by (destruct (1 <? _); [|exact A]; match goal with |- all (if ?d then _ else _) = false => destruct d end; [reflexivity|exact A]);
    destruct c; [unfold increment_found; match goal with |- all (if ?d then _ else _) = false => destruct d end|]; assumption end.
Qed.
Definition visits_safe addr o := forall f res, all f = false -> exists o' f' res', visit addr o f res = Some (o', f', res') /\ all f' = false.
Lemma walk_safe addr : forall l f res, Forall (visits_safe addr) l -> all f = false -> exists l' f' res', walk (visit addr) l f res = Some (l', f', res') /\ all f' = false.
Proof.
  induction l as [|o l IH]; intros f res F A; [exists [], f, res; auto|]. inversion F as [|? ? F1 F2]; subst. cbn [walk]. destruct (finished f); [eauto 6|].
  destruct (F1 f res A) as (o' & f1 & r1 & -> & A1). destruct (IH f1 r1 F2 A1) as (l' & f2 & r2 & -> & A2). eauto 6.
Qed.
Lemma walk_back_safe addr : forall l f res, Forall (visits_safe addr) l -> all f = false -> exists l' f' res', walk_back (visit addr) l f res = Some (l', f', res') /\ all f' = false.
Proof.
  induction l as [|o l IH]; intros f res F A; [exists [], f, res; auto|]. inversion F as [|? ? F1 F2]; subst. cbn [walk_back].
  destruct (IH f res F2 A) as (l' & f2 & r2 & -> & A2). destruct (finished f2); [eauto 6|]. destruct (F1 f2 r2 A2) as (o' & f1 & r1 & -> & A1). eauto 6.
Qed.
Lemma visit_safe addr : forall o, visits_safe addr o.
Proof.
  induction o as [i n k IH] using obj_nested. intros f res A. rewrite visit_eq. pose proof (test_all addr f res (Ob i n k) A) as A1. destruct (test addr f res (Ob i n k)) as [fd f1]. cbn [snd] in A1.
  cbv zeta. rewrite A1. cbn [orb]. destruct (finished f1); [eauto 6|]. rewrite andb_false_r. cbn [andb okids]. destruct k as [ks|]; [|eauto 6]. destruct (recu f1); [|eauto 6]. specialize (IH ks eq_refl).
  match goal with |- context [walk_back (visit addr) ks f1 ?r] => destruct (walk_back_safe addr ks f1 r IH A1) as (l' & f' & res' & E & A'); destruct (walk_safe addr ks f1 r IH A1) as (l2 & f2 & res2 & E2 & A2) end.
  destruct (rever f1); [rewrite E|rewrite E2]; eauto 6.
Qed.
(** Every search except "all occurrences" is free of uses after free, with or without REMOVE, in every mode and for every path, good or not. *)
Theorem C30_no_dangling addr l f : all f = false -> find addr f l <> None.
Proof.
  intro A. unfold find. assert (F : Forall (visits_safe addr) l) by (rewrite Forall_forall; intros; apply visit_safe).
  destruct (rever f); [destruct (walk_back_safe addr l f [] F A) as (? & ? & ? & -> & _)|destruct (walk_safe addr l f [] F A) as (? & ? & ? & -> & _)]; discriminate.
Qed.
Corollary C30_api_no_dangling l path : (forall r, find_path l path r <> None) /\ delete_path l path <> None.
Proof.
  assert (N : forall r m a, find a (name_filter 1 r false m a) l <> None) by (intros; apply C30_no_dangling; unfold name_filter; destruct (1 <? _); reflexivity).
  split; [intro r; unfold find_path; specialize (N r false (address path))|unfold delete_path; specialize (N false true (address path))]; destruct (find _ _ l) as [[[? ?] ?]|]; congruence.
Qed.

(** ** What is found is at the end of the path *)
Definition nm (o : obj) : string := match oname o with Some n => n | None => "" end.
Lemma nm_named o u : oname o = Some u -> nm o = u. Proof. unfold nm. intros ->. reflexivity. Qed.
Lemma test_path_names : forall addr res, test_path addr res = true -> map nm res = firstn (List.length res) addr.
Proof.
  induction addr as [|t a IH]; intros [|o res] T; try reflexivity; [discriminate|]. cbn [test_path] in T. apply andb_true_iff in T. destruct T as [T1 T2]. cbn. rewrite (IH res T2). f_equal.
  apply nm_named. apply named_spec. exact T1.
Qed.
Lemma firstn_nth {A} (l : list A) : forall n x, nth_error l n = Some x -> firstn (S n) l = firstn n l ++ [x].
Proof. induction l as [|y l IH]; intros [|n] x E; try discriminate; [cbn in *; congruence|]. cbn [firstn app]. cbn in E. rewrite <- (IH n x E). reflexivity. Qed.
Section Suffix.
Variable addr : list string.
Hypothesis many : 2 <= List.length addr.
Definition found_below (l : list obj) (anc : list obj) (f f' : filt) (res res' : list obj) (same : Prop) : Prop :=
  rever f' = false /\ recu f' = pathm f' /\ remv f' = remv f /\
  ((occ f' = 1%Z /\ same /\ (res' = res \/ res' = [])) \/
   (occ f' = 0%Z /\ recu f' = true /\ (remv f = false -> same) /\ List.length res' = List.length addr /\ exists r y c q, res' = r ++ [y] /\ at_path l c y /\ map nm anc ++ c = q ++ addr)).
Definition visits_sound (o : obj) : Prop := forall anc f res, (exists a, anc = a ++ res) -> occ f = 1%Z -> rever f = false -> recu f = pathm f ->
  exists o' f' res', visit addr o f res = Some (o', f', res') /\ found_below [o] anc f f' res res' (o' = Some o).
Lemma at_path_incl l l' p x : at_path l p x -> (forall o, In o l -> In o l') -> at_path l' p x.
Proof. intros H HI. inversion H; subst; [apply at_here|eapply at_in]; eauto. Qed.
Lemma walk_sound : forall l anc f res, Forall visits_sound l -> (exists a, anc = a ++ res) -> occ f = 1%Z -> rever f = false -> recu f = pathm f ->
  exists l' f' res', walk (visit addr) l f res = Some (l', f', res') /\ found_below l anc f f' res res' (l' = l).
Proof.
  induction l as [|o l IH]; intros anc f res F HA O V R.
  - exists [], f, res. split; [reflexivity|]. repeat (split; [assumption || reflexivity|]). left. auto.
  - inversion F as [|? ? F1 F2]; subst. cbn [walk]. assert (NF : finished f = false) by (unfold finished; rewrite O; reflexivity). rewrite NF.
    destruct (F1 anc f res HA O V R) as (o' & f1 & r1 & -> & Q1 & Q2 & Q3 & [(Q4 & Q5 & Q6)|(Q4 & Q5 & Q6 & Q7 & r & y & c & q & E1 & E2 & E3)]).
    + assert (HA' : exists a, anc = a ++ r1). { destruct Q6 as [-> | ->]; [exact HA|]. exists anc. rewrite app_nil_r. reflexivity. }
      destruct (IH anc f1 r1 F2 HA' Q4 Q1 Q2) as (l' & f2 & r2 & -> & P1 & P2 & P3 & P4). exists (cons_opt o' l'), f2, r2. split; [reflexivity|]. split; [exact P1|]. split; [exact P2|]. split; [congruence|]. subst o'.
      destruct P4 as [(P4 & P5 & P6)|(P4 & P5 & P6 & P7 & r & y & c & q & E1 & E2 & E3)].
      * left. split; [exact P4|]. split; [rewrite P5; reflexivity|]. destruct P6 as [-> | ->]; auto.
      * right. split; [exact P4|]. split; [exact P5|]. split; [intro M; rewrite P6 by congruence; reflexivity|]. split; [exact P7|]. exists r, y, c, q. split; [exact E1|]. split; [|exact E3]. apply (at_path_incl l); [exact E2|]. intros; right; assumption.
    + exists (cons_opt o' l), f1, r1. split; [unfold walk; destruct l; [reflexivity|unfold finished; rewrite Q4; reflexivity]|]. split; [exact Q1|]. split; [exact Q2|]. split; [exact Q3|].
      right. split; [exact Q4|]. split; [exact Q5|]. split; [intro M; rewrite (Q6 M); reflexivity|]. split; [exact Q7|]. exists r, y, c, q. split; [exact E1|]. split; [|exact E3]. apply (at_path_incl [o]); [exact E2|]. intros z [-> |[]]; left; reflexivity.
Qed.
Lemma visit_sound : forall o, (forall x, In x (pre o) -> oname x <> None) -> visits_sound o.
Proof.
  induction o as [i n k IH] using obj_nested. intros N anc f res HA O V R. assert (Nm : exists u, oname (Ob i n k) = Some u).
  { destruct (oname (Ob i n k)) as [u|] eqn:E; [eauto|]. exfalso. apply (N (Ob i n k)); [apply pre_self|exact E]. }
  destruct Nm as [u E].
  assert (IH' : forall ks, okids (Ob i n k) = Some ks -> Forall visits_sound ks).
  { intros ks Ek. specialize (IH ks Ek). rewrite Forall_forall in *. intros y Y. apply (IH y Y). intros x X. apply N. apply (pre_kids _ ks Ek). apply (in_everywhere ks y); assumption. }
  clear IH N. generalize dependent (Ob i n k). clear i n k. intros o E IH.
  assert (D : nth_error addr (List.length res) = Some u \/ nth_error addr (List.length res) <> Some u).
  { destruct (nth_error addr (List.length res)) as [v|]; [|right; discriminate]. destruct (string_dec v u) as [-> |C]; [left; reflexivity|right; congruence]. }
  destruct D as [D|D].
  2: { rewrite (visit_miss addr many o f res u E D O). eexists. eexists. eexists. split; [reflexivity|]. repeat (split; [assumption || reflexivity|]). left. auto. }
  destruct (test_path addr res) eqn:T.
  2: { rewrite (visit_wrong addr many o f res u E T O). eexists. eexists. eexists. split; [reflexivity|]. repeat (split; [assumption || reflexivity|]). left. auto. }
  assert (L : List.length res < List.length addr) by (apply nth_error_Some; congruence).
  destruct (Nat.eq_dec (S (List.length res)) (List.length addr)) as [C|C].
  - rewrite (visit_last addr many o f res u E D T C O). eexists. eexists. eexists. split; [reflexivity|]. split; [exact V|]. split; [reflexivity|]. split; [reflexivity|]. right. split; [reflexivity|]. split; [reflexivity|].
    split; [intros ->; reflexivity|]. split; [rewrite app_length; cbn; lia|]. destruct HA as [a ->]. exists res, o, [u], (map nm a). split; [reflexivity|]. split; [apply at_here; [left; reflexivity|exact E]|].
    rewrite map_app, <- app_assoc. f_equal. rewrite (test_path_names addr res T), <- (firstn_nth addr _ u D), C. apply firstn_all.
  - rewrite (visit_mid addr many o f res u E D T) by (auto; lia). destruct (okids o) as [ks|] eqn:Ek.
    2: { eexists. eexists. eexists. split; [reflexivity|]. repeat (split; [assumption || reflexivity|]). left. auto. }
    destruct (walk_sound ks (anc ++ [o]) (mode_path f) (res ++ [o])) as (ks' & f' & r2 & -> & P1 & P2 & P3 & P4); [apply IH; reflexivity|destruct HA as [a ->]; exists a; rewrite app_assoc; reflexivity|exact O|exact V|reflexivity|].
    eexists. eexists. eexists. split; [reflexivity|]. split; [exact P1|]. split; [exact P2|]. split; [exact P3|]. destruct P4 as [(P4 & P5 & P6)|(P4 & P5 & P6 & P7 & r & y & c & q & E1 & E2 & E3)].
    + left. split; [exact P4|]. split; [rewrite P5, (ob_eta o ks Ek); reflexivity|]. destruct (recu f') eqn:Rf; cbn [negb]; [|auto]. rewrite <- P2. destruct P6 as [-> | ->].
      * rewrite Nat.eqb_refl. left. apply removelast_last.
      * right. destruct (_ =? _); reflexivity.
    + right. split; [exact P4|]. split; [exact P5|]. split; [intro M; rewrite (P6 M), (ob_eta o ks Ek); reflexivity|]. rewrite P5. cbn [negb]. rewrite (proj2 (Nat.eqb_neq _ _)) by (rewrite app_length; cbn; clear - P7 C L; lia).
      split; [exact P7|]. exists r, y, (u :: c), q. split; [exact E1|]. split; [apply at_in with o ks; auto; left; reflexivity|]. rewrite <- E3, map_app, <- app_assoc. cbn [map app]. rewrite (nm_named o u E). reflexivity.
Qed.
Lemma find_sound l f : all_named l -> occ f = 1%Z -> rever f = false -> recu f = pathm f ->
  exists l' f' res, find addr f l = Some (l', f', res) /\ found_below l [] f f' [] res (l' = l).
Proof.
  intros N O V R. unfold find. rewrite V. apply walk_sound; auto.
  - rewrite Forall_forall. intros o Ho. apply visit_sound. intros x X. apply N. apply (in_everywhere l o); assumption.
  - exists []. reflexivity.
Qed.
End Suffix.
Lemma many_filter r m a : 2 <= List.length a -> name_filter 1 r false m a = Fi 1 false true true false m.
Proof. intro H. unfold name_filter. rewrite (proj2 (Nat.ltb_lt 1 _)) by lia. reflexivity. Qed.
Lemma rev_last {A} (l : list A) x : rev (l ++ [x]) = x :: rev l. Proof. rewrite rev_app_distr. reflexivity. Qed.
(** What a search finds is at a path that ends with the one given; a path at which nothing ends is not found. *)
Theorem C30_find_sound_partial l p r x : all_named l -> Forall good_name p -> find_path l (join p) r = Some (Some x) -> exists q, at_path l (q ++ p) x.
Proof.
  intros N G H. destruct p as [|t [|u p]].
  - cbn in H. unfold find_path, address, find, name_filter in H. cbn [join List.length Nat.ltb Nat.leb rever] in H. exfalso. pose proof (C30_no_dangling [] l (Fi 1 false r false false false) eq_refl) as D. unfold find in D. cbn [rever] in D.
    assert (W : forall o f res, occ f = 1%Z -> rever f = false -> pathm f = false -> visit [] o f res = Some (Some o, f, res)).
    { clear. induction o as [i n k IH] using obj_nested. intros f res O V P. rewrite visit_eq. cbn [test andb]. unfold finished. rewrite O. change (1 =? 0)%Z with false. cbv iota zeta. cbn [okids]. destruct k as [ks|]; [|reflexivity]. destruct (recu f) eqn:R; [|reflexivity].
      rewrite V, P. assert (Q : walk (visit []) ks f res = Some (ks, f, res)).
      { specialize (IH ks eq_refl). induction ks as [|o ks IHk]; [reflexivity|]. inversion IH as [|? ? I1 I2]; subst. cbn [walk]. unfold finished. rewrite O. change (1 =? 0)%Z with false. cbv iota. rewrite I1, IHk by assumption. reflexivity. }
      rewrite Q, R, Nat.eqb_refl, P. reflexivity. }
    assert (Q : forall ks f res, occ f = 1%Z -> rever f = false -> pathm f = false -> walk (visit []) ks f res = Some (ks, f, res)).
    { induction ks as [|o ks IHk]; intros f res O V P; [reflexivity|]. cbn [walk]. unfold finished. rewrite O. change (1 =? 0)%Z with false. cbv iota. rewrite W, IHk by assumption. reflexivity. }
    rewrite Q in H by reflexivity. discriminate.
  - inversion G as [|? ? G1 _]; subst. rewrite C30_find_name in H by exact G1. injection H as F. apply find_some in F. destruct F as [F M]. apply named_spec in M. destruct r.
    + cbn [scopes] in F. assert (B : forall o y, In y (pre o) -> oname y = Some t -> (forall z, In z (pre o) -> oname z <> None) -> exists q, at_path [o] (q ++ [t]) y).
      { clear. induction o as [i n k IH] using obj_nested. intros y Y M N. change (pre (Ob i n k)) with (Ob i n k :: match k with Some ks => flat_map pre ks | None => [] end) in *. destruct Y as [<- |Y].
        - exists []. apply at_here; [left; reflexivity|exact M].
        - destruct k as [ks|]; [|destruct Y]. apply in_flat_map in Y. destruct Y as (z & Z1 & Z2). specialize (IH ks eq_refl). rewrite Forall_forall in IH. destruct (IH z Z1 y Z2 M) as [q Q]; [intros w W; apply N; right; apply in_flat_map; eauto|].
          destruct n as [u|]; [|exfalso; apply (N (Ob i None (Some ks))); [left; reflexivity|reflexivity]]. exists (u :: q). apply at_in with (Ob i (Some u) (Some ks)) ks; [left; reflexivity|reflexivity|reflexivity|]. apply (at_path_incl [z]); [exact Q|]. intros w [-> |[]]. exact Z1. }
      apply in_flat_map in F. destruct F as (o & O1 & O2). destruct (B o x O2 M) as [q Q]; [intros z Hz; apply N; apply (in_everywhere l o); assumption|]. exists q. apply (at_path_incl [o]); [exact Q|]. intros w [-> |[]]. exact O1.
    + exists []. apply at_here; assumption.
  - set (p' := t :: u :: p) in *. assert (K : 2 <= List.length p') by (cbn; lia). unfold find_path in H. rewrite address_join in H by (auto; discriminate). rewrite many_filter in H by exact K.
    destruct (find_sound p' K l (Fi 1 false true true false false) N) as (l' & f' & res & E & _ & _ & _ & P); try reflexivity. rewrite E in H. destruct P as [(_ & _ & [-> | ->])|(_ & _ & _ & _ & r' & y & c & q & -> & P & Q)]; try discriminate.
    rewrite rev_last in H. injection H as ->. exists q. rewrite <- Q. exact P.
Qed.

(** ** The object at a path is found *)
Theorem C30_find_path l p r x : unique_names l -> Forall good_name p -> (r = false \/ 2 <= List.length p) -> at_path l p x -> find_path l (join p) r = Some (Some x).
Proof.
  intros U G D H. assert (Np : p <> []) by (inversion H; discriminate). destruct p as [|t [|u p]]; [congruence| |].
  - destruct D as [-> |D]; [|cbn in D; lia]. inversion G as [|? ? G1 _]; subst. change (join [t]) with t. rewrite C30_find_name by exact G1. cbn [scopes]. assert (I : In x l /\ oname x = Some t) by (inversion H; subst; [auto|match goal with Q : at_path _ [] _ |- _ => inversion Q end]).
    destruct I as [I E]. destruct (split_at_unique t l x (proj1 (proj2 U)) I E) as (a & b & Sp & ->). pose proof (split_at_spec t (a ++ x :: b)) as S. rewrite Sp in S. destruct S as (_ & _ & Fa). f_equal.
    clear - Fa E. induction a as [|y a IH]; cbn [app List.find]; [rewrite (proj2 (named_spec t x) E); reflexivity|]. inversion Fa as [|? ? F1 F2]; subst. rewrite F1. apply IH. exact F2.
  - set (p' := t :: u :: p) in *. assert (K : 2 <= List.length p') by (cbn; lia). unfold find_path. rewrite address_join by (auto; discriminate). rewrite many_filter by exact K. unfold find. cbn [rever].
    destruct (descend p' K l p' x H (Fi 1 false true true false false) [] U eq_refl eq_refl eq_refl eq_refl) as (f' & res' & -> & _ & _). cbn [app]. rewrite rev_last. reflexivity.
Qed.

(** ** Two names: the first object at the path, also when names repeat *)
Lemma walk_second a b o1 : named a o1 = true -> forall ks f, Forall (fun o => oname o <> None) ks -> occ f = 1%Z -> rever f = false ->
  exists ks' f' , walk (visit [a; b]) ks f [o1] = Some (ks', f', match List.find (named b) ks with Some x => [o1; x] | None => [o1] end) /\
    rever f' = false /\ match List.find (named b) ks with Some _ => occ f' = 0%Z /\ recu f' = true | None => occ f' = 1%Z /\ (recu f' = false \/ f' = f) end.
Proof.
  intros H1 ks. induction ks as [|o ks IH]; intros f N O V; [exists [], f; cbn; auto 7|]. inversion N as [|? ? N1 N2]; subst. cbn [walk List.find]. assert (NF : finished f = false) by (unfold finished; rewrite O; reflexivity). rewrite NF.
  destruct (oname o) as [u|] eqn:E; [|congruence]. assert (K : 2 <= List.length [a; b]) by (cbn; lia). assert (T : test_path [a; b] [o1] = true) by (cbn; rewrite H1; reflexivity).
  destruct (named b o) eqn:B.
  - apply named_spec in B. assert (u = b) by congruence. subst u. rewrite (visit_last [a; b] K o f [o1] b E eq_refl T eq_refl O). eexists. eexists. split; [replace (walk (visit [a;b]) ks (Fi 0 false true true (rever f) (remv f)) ([o1] ++ [o])) with (Some (ks, Fi 0 false true true (rever f) (remv f), [o1; o])) by (destruct ks; reflexivity); reflexivity|].
    cbn. auto.
  - assert (nth_error [a; b] (List.length [o1]) <> Some u). { cbn. intro Q. injection Q as Q. subst u. assert (named b o = true) by (apply named_spec; exact E). congruence. }
    rewrite (visit_miss [a; b] K o f [o1] u E H O). destruct (IH (mode_flat f) N2 O V) as (ks' & f' & -> & P1 & P2). eexists. eexists. split; [reflexivity|]. split; [exact P1|].
    destruct (List.find (named b) ks); [exact P2|]. destruct P2 as [P2 [P3| ->]]; auto.
Qed.
Lemma walk_first a b : forall l f, all_named l -> occ f = 1%Z -> rever f = false -> 
  exists l' f' res, walk (visit [a; b]) l f [] = Some (l', f', res) /\ match rev res with [] => None | x :: _ => Some x end = lookup [a; b] l.
Proof.
  induction l as [|o l IH]; intros f N O V; [eexists; eexists; eexists; split; [reflexivity|reflexivity]|]. cbn [walk]. assert (NF : finished f = false) by (unfold finished; rewrite O; reflexivity). rewrite NF.
  assert (Nl : all_named l) by (intros x X; apply N; apply in_or_app; right; exact X).
  assert (No : oname o <> None) by (apply N; apply (in_everywhere _ o o); [left; reflexivity|apply pre_self]).
  destruct (oname o) as [u|] eqn:E; [|congruence]. assert (K : 2 <= List.length [a; b]) by (cbn; lia).
  change (lookup [a; b] (o :: l)) with (match (if named a o then match okids o with Some k => List.find (named b) k | None => None end else None) with Some y => Some y | None => lookup [a; b] l end).
  destruct (named a o) eqn:A.
  - pose proof A as A'. apply named_spec in A'. assert (u = a) by congruence. subst u. rewrite (visit_mid [a; b] K o f [] a E eq_refl eq_refl) by (auto; cbn; lia). destruct (okids o) as [ks|] eqn:Ek.
    + cbn [app]. destruct (walk_second a b o A ks (mode_path f)) as (ks' & f' & -> & P1 & P2); [|exact O|exact V|].
      { rewrite Forall_forall. intros x X. apply N. apply (in_everywhere _ o); [left; reflexivity|]. apply (pre_kids o ks Ek). apply (in_everywhere ks x); [exact X|apply pre_self]. }
      destruct (List.find (named b) ks) as [x|].
      * destruct P2 as [P2 P3]. rewrite P3. cbn [negb app List.length Nat.eqb]. eexists. eexists. eexists. split; [|].
        -- replace (walk (visit [a; b]) l f' [o; x]) with (Some (l, f', [o; x])) by (unfold walk; destruct l; [reflexivity|unfold finished; rewrite P2; reflexivity]). reflexivity.
        -- reflexivity.
      * destruct P2 as [P2 P3]. assert (R : (if negb (recu f') then [] else if List.length [o] =? List.length [o] then if pathm f' then removelast [o] else [o] else [o]) = @nil obj).
        { destruct P3 as [-> | ->]; reflexivity. }
        rewrite R. destruct (IH f' Nl P2 P1) as (l' & f2 & res & -> & Q). eauto 6.
    + destruct (IH (mode_path f) Nl O V) as (l' & f2 & res & -> & Q). eauto 6.
  - assert (nth_error [a; b] (List.length (@nil obj)) <> Some u). { cbn. intro Q. injection Q as Q. subst u. assert (named a o = true) by (apply named_spec; exact E). congruence. }
    rewrite (visit_miss [a; b] K o f [] u E H O). destruct (IH (mode_flat f) Nl O V) as (l' & f2 & res & -> & Q). eauto 6.
Qed.
Theorem C30_find_two l a b r : all_named l -> good_name a -> good_name b -> find_path l (join [a; b]) r = Some (lookup [a; b] l).
Proof.
  intros N A B. unfold find_path. rewrite address_join by (solve [discriminate | constructor; [exact A|constructor; [exact B|constructor]]]). rewrite many_filter by (cbn; lia). unfold find. cbn [rever].
  destruct (walk_first a b l (Fi 1 false true true false false) N eq_refl eq_refl) as (l' & f' & res & -> & Q). rewrite Q. reflexivity.
Qed.

(** ** Insertion *)
(** [i] is the identity of the object at path [p]. *)
Definition has (l : list obj) (p : list string) (i : nat) : Prop := exists x, at_path l p x /\ oid x = i.
Lemma at_nonempty l p x : at_path l p x -> p <> []. Proof. intro H. inversion H; discriminate. Qed.
Lemma insert_at : forall p l o l', insert_tokens p l o = Some l' -> at_path l' p (rename o (last p "")).
Proof.
  induction p as [|t p IH]; intros l o l' H; [discriminate|]. cbn [insert_tokens] in H. pose proof (split_at_spec t l) as S. destruct (split_at t l) as [[[a x] b]|].
  - destruct S as (-> & E & _). destruct (okids x) as [k|]; [|discriminate]. destruct (insert_tokens p k o) as [k'|] eqn:Ei; [|discriminate]. injection H as <-. apply at_in with (Ob (oid x) (oname x) (Some k')) k'; [apply in_or_app; right; left; reflexivity|exact E|reflexivity|].
    specialize (IH k o k' Ei). destruct p; [exact (False_ind _ (at_nonempty _ _ _ IH eq_refl))|exact IH].
  - destruct p as [|u p].
    + injection H as <-. apply at_here; [apply in_or_app; right; left; reflexivity|destruct o; reflexivity].
    + destruct (insert_tokens (u :: p) [] o) as [k'|] eqn:Ei; [|discriminate]. injection H as <-. apply at_in with (Ob 0 (Some t) (Some k')) k'; [apply in_or_app; right; left; reflexivity|reflexivity|reflexivity|]. exact (IH [] o k' Ei).
Qed.
Lemma insert_keeps : forall p l o l', insert_tokens p l o = Some l' -> forall q i, has l q i -> has l' q i.
Proof.
  induction p as [|t p IH]; intros l o l' H q i (y & Y & Ey); [discriminate|]. cbn [insert_tokens] in H. pose proof (split_at_spec t l) as S. destruct (split_at t l) as [[[a x] b]|].
  - destruct S as (-> & E & _). destruct (okids x) as [k|] eqn:Ek; [|discriminate]. destruct (insert_tokens p k o) as [k'|] eqn:Ei; [|discriminate]. injection H as <-.
    assert (D : forall z, In z (a ++ x :: b) -> z = x \/ In z (a ++ Ob (oid x) (oname x) (Some k') :: b)).
    { intros z Z. apply in_app_or in Z. destruct Z as [Z|[Z|Z]]; [right; apply in_or_app; auto|left; congruence|right; apply in_or_app; right; right; exact Z]. }
    assert (X : In (Ob (oid x) (oname x) (Some k')) (a ++ Ob (oid x) (oname x) (Some k') :: b)) by (apply in_or_app; right; left; reflexivity).
    inversion Y as [l0 o0 t0 I0 E0|l0 o0 t0 k0 p0 x0 I0 E0 K0 Y0]; subst.
    + destruct (D _ I0) as [-> |D0]; [exists (Ob (oid x) (oname x) (Some k')); split; [apply at_here; assumption|reflexivity]|exists y; split; [apply at_here; assumption|reflexivity]].
    + destruct (D _ I0) as [-> |D0]; [|exists y; split; [apply at_in with o0 k0; assumption|reflexivity]]. assert (k0 = k) by congruence. subst k0. destruct (IH k o k' Ei p0 (oid y)) as (z & Z1 & Z2); [exists y; auto|].
      exists z. split; [|exact Z2]. apply at_in with (Ob (oid x) (oname x) (Some k')) k'; auto.
  - assert (D : exists z, l' = l ++ [z]) by (destruct p; [injection H as <-; eauto|destruct (insert_tokens _ [] o); [injection H as <-; eauto|discriminate]]). destruct D as [z ->]. exists y. split; [|exact Ey].
    apply (at_path_incl l); [exact Y|]. intros w W. apply in_or_app. auto.
Qed.
(** Where an object is afterwards that was not there before: the inserted object and what is in it, and the new containers on the way. *)
Definition inserted (p : list string) (o : obj) (q : list string) (i : nat) : Prop :=
  (q = p /\ i = oid o) \/ (exists r k, q = p ++ r /\ okids o = Some k /\ has k r i) \/ (exists r, r <> [] /\ p = q ++ r /\ i = 0).
Lemma insert_only : forall p l o l', insert_tokens p l o = Some l' -> forall q i, has l' q i -> has l q i \/ inserted p o q i.
Proof.
  induction p as [|t p IH]; intros l o l' H q i (y & Y & Ey); [discriminate|]. cbn [insert_tokens] in H. pose proof (split_at_spec t l) as S. destruct (split_at t l) as [[[a x] b]|].
  - destruct S as (-> & E & _). destruct (okids x) as [k|] eqn:Ek; [|discriminate]. destruct (insert_tokens p k o) as [k'|] eqn:Ei; [|discriminate]. injection H as <-.
    assert (D : forall z, In z (a ++ Ob (oid x) (oname x) (Some k') :: b) -> z = Ob (oid x) (oname x) (Some k') \/ In z (a ++ x :: b)).
    { intros z Z. apply in_app_or in Z. destruct Z as [Z|[Z|Z]]; [right; apply in_or_app; auto|left; congruence|right; apply in_or_app; right; right; exact Z]. }
    assert (X : In x (a ++ x :: b)) by (apply in_or_app; right; left; reflexivity).
    inversion Y as [l0 o0 t0 I0 E0|l0 o0 t0 k0 p0 x0 I0 E0 K0 Y0]; subst.
    + left. destruct (D _ I0) as [-> |D0]; [exists x; split; [apply at_here; assumption|reflexivity]|exists y; split; [apply at_here; assumption|reflexivity]].
    + destruct (D _ I0) as [-> |D0]; [|left; exists y; split; [apply at_in with o0 k0; assumption|reflexivity]]. cbn in K0. injection K0 as <-. cbn in E0. assert (t0 = t) by congruence. subst t0.
      destruct (IH k o k' Ei p0 (oid y)) as [(z & Z1 & Z2)|[[-> Q]|[(r & k2 & -> & Q1 & Q2)|(r & Q1 & -> & Q2)]]]; [exists y; auto| | | |].
      * left. exists z. split; [|exact Z2]. apply at_in with x k; auto.
      * right. left. auto.
      * right. right. left. exists r, k2. auto.
      * right. right. right. exists r. auto.
  - assert (D : exists z, l' = l ++ [z] /\ forall q i, has [z] q i -> inserted (t :: p) o q i).
    { destruct p as [|u p]; [injection H as <-; eexists; split; [reflexivity|]|destruct (insert_tokens (u :: p) [] o) as [k'|] eqn:Ei; [|discriminate]; injection H as <-; eexists; split; [reflexivity|]].
      - intros q' i' (z & Z & Ez). inversion Z as [l0 o0 t0 I0 E0|l0 o0 t0 k0 p0 x0 I0 E0 K0 Y0]; subst.
        + destruct I0 as [<- |[]]. destruct o as [i0 n0 k0]. cbn in *. left. split; [congruence|reflexivity].
        + destruct I0 as [<- |[]]. destruct o as [i0 n0 k1]. cbn in *. right. left. exists p0, k0. split; [cbn; congruence|]. split; [exact K0|]. exists z. auto.
      - intros q' i' (z & Z & Ez). inversion Z as [l0 o0 t0 I0 E0|l0 o0 t0 k0 p0 x0 I0 E0 K0 Y0]; subst.
        + destruct I0 as [<- |[]]. cbn in E0. injection E0 as <-. right. right. exists (u :: p). split; [discriminate|]. auto.
        + destruct I0 as [<- |[]]. cbn in E0, K0. injection E0 as <-. injection K0 as <-. destruct (IH [] o k' Ei p0 (oid z)) as [(w & W & _)|[[-> Q]|[(r & k2 & -> & Q1 & Q2)|(r & Q1 & -> & Q2)]]]; [exists z; auto| | | |].
          * inversion W; contradiction.
          * left. auto.
          * right. left. exists r, k2. auto.
          * right. right. exists r. auto. }
    destruct D as (z & -> & D). assert (C : at_path l q y \/ at_path [z] q y).
    { inversion Y as [l0 o0 t0 I0 E0|l0 o0 t0 k0 p0 x0 I0 E0 K0 Y0]; subst; apply in_app_or in I0; destruct I0 as [I0|I0]; [left; apply at_here|right; apply at_here|left; apply at_in with o0 k0|right; apply at_in with o0 k0]; assumption. }
    destruct C as [C|C]; [left|right; apply D]; exists y; auto.
Qed.
Lemma unique_iff l : unique_names l <-> NoDup (map oname l) /\ Forall (fun o => oname o <> None /\ forall k, okids o = Some k -> unique_names k) l.
Proof.
  split.
  - intro U. split; [exact (proj1 (proj2 U))|]. rewrite Forall_forall. intros o I. split; [apply (proj1 U); apply (in_everywhere l o); [exact I|apply pre_self]|]. intros k E. exact (unique_kids l o k U I E).
  - intros [D F]. rewrite Forall_forall in F. assert (S : forall x, In x (everywhere l) -> (In x l) \/ exists o k, In o l /\ okids o = Some k /\ In x (everywhere k)).
    { intros x X. apply in_flat_map in X. destruct X as (o & I & X). destruct o as [i n k]. destruct X as [<- |X]; [auto|]. cbn [okids] in X. destruct k as [k|]; [|destruct X]. right. exists (Ob i n (Some k)), k. auto. }
    split; [|split; [exact D|]].
    + intros x X. destruct (S x X) as [I|(o & k & I & E & X')]; [exact (proj1 (F x I))|]. exact (proj1 (proj2 (F o I) k E) x X').
    + intros x k' X E'. destruct (S x X) as [I|(o & k & I & E & X')]; [exact (proj1 (proj2 (proj2 (F x I) k' E')))|]. exact (proj2 (proj2 (proj2 (F o I) k E)) x k' X' E').
Qed.
Lemma NoDup_snoc {A} (l : list A) x : NoDup l -> ~ In x l -> NoDup (l ++ [x]).
Proof.
  induction l as [|y l IH]; intros N I; [constructor; auto; constructor|]. inversion N; subst. cbn [app]. constructor; [|apply IH; auto; intro; apply I; right; assumption].
  intro C. apply in_app_or in C. destruct C as [C|[C|[]]]; [contradiction|]. apply I. left. auto.
Qed.
Lemma insert_unique : forall p l o l', (forall k, okids o = Some k -> unique_names k) -> insert_tokens p l o = Some l' -> unique_names l -> unique_names l'.
Proof.
  induction p as [|t p IH]; intros l o l' O H U; [discriminate|]. cbn [insert_tokens] in H. pose proof (split_at_spec t l) as S. apply unique_iff in U. destruct U as [U F]. apply unique_iff. destruct (split_at t l) as [[[a x] b]|].
  - destruct S as (-> & E & _). destruct (okids x) as [k|] eqn:Ek; [|discriminate]. destruct (insert_tokens p k o) as [k'|] eqn:Ei; [|discriminate]. injection H as <-. rewrite Forall_app in *. destruct F as [F1 F2]. inversion F2 as [|? ? F3 F4]; subst.
    split; [rewrite map_app in *; exact U|]. split; [exact F1|]. constructor; [|exact F4]. split; [exact (proj1 F3)|]. cbn. intros k2 Q. injection Q as <-. apply (IH k o k' O Ei). exact (proj2 F3 k Ek).
  - assert (D : exists z, l' = l ++ [z] /\ oname z = Some t /\ forall k, okids z = Some k -> unique_names k).
    { destruct p as [|u p]; [injection H as <-; eexists; split; [reflexivity|destruct o; split; [reflexivity|exact O]]|]. destruct (insert_tokens (u :: p) [] o) as [k'|] eqn:Ei; [|discriminate]. injection H as <-. eexists. split; [reflexivity|]. split; [reflexivity|].
      cbn. intros k2 Q. injection Q as <-. apply (IH [] o k' O Ei). apply unique_iff. split; constructor. }
    destruct D as (z & -> & Ez & Kz). split.
    + rewrite map_app. apply NoDup_snoc; [exact U|]. intro C. apply in_map_iff in C. destruct C as (y & C1 & C2). rewrite Forall_forall in S. specialize (S y C2). assert (named t y = true) by (apply named_spec; congruence). congruence.
    + rewrite Forall_app. split; [exact F|]. constructor; [|constructor]. split; [congruence|exact Kz].
Qed.
(** Insertion fails exactly when the path is taken or goes through an object that is no container. *)
Definition blocked (l : list obj) (p : list string) : Prop := (exists x, at_path l p x) \/ exists q r x, p = q ++ r /\ at_path l q x /\ okids x = None.
Lemma insert_blocked : forall p l o, p <> [] -> unique_names l -> (insert_tokens p l o = None <-> blocked l p).
Proof.
  assert (Fresh : forall p o, p <> [] -> insert_tokens p [] o <> None).
  { induction p as [|t p IH]; intros o N; [congruence|]. cbn [insert_tokens split_at]. destruct p as [|u p]; [discriminate|]. destruct (insert_tokens (u :: p) [] o) eqn:E; [discriminate|]. exact (False_ind _ (IH o ltac:(discriminate) E)). }
  induction p as [|t p IH]; intros l o N U; [congruence|]. cbn [insert_tokens]. pose proof (split_at_spec t l) as S. destruct (split_at t l) as [[[a x] b]|].
  - destruct S as (-> & E & _). assert (X : In x (a ++ x :: b)) by (apply in_or_app; right; left; reflexivity).
    assert (Only : forall o0, In o0 (a ++ x :: b) -> oname o0 = Some t -> o0 = x).
    { intros o0 I0 E0. destruct (split_at_unique t _ o0 (proj1 (proj2 U)) I0 E0) as (a1 & b1 & S1 & _). destruct (split_at_unique t _ x (proj1 (proj2 U)) X E) as (a2 & b2 & S2 & _). congruence. }
    destruct (okids x) as [k|] eqn:Ek.
    + destruct p as [|u p].
      * cbn [insert_tokens]. split; [|reflexivity]. intros _. left. exists x. apply at_here; assumption.
      * assert (Q : blocked k (u :: p) <-> blocked (a ++ x :: b) (t :: u :: p)).
        { split.
          - intros [[y Y]|(q & r & y & Q1 & Q2 & Q3)]; [left; exists y; apply at_in with x k; assumption|]. right. exists (t :: q), r, y. split; [cbn; congruence|]. split; [apply at_in with x k; assumption|exact Q3].
          - intros [[y Y]|(q & r & y & Q1 & Q2 & Q3)].
            + inversion Y as [|l0 o0 t0 k0 p0 x0 I0 E0 K0 Y0]; subst. pose proof (Only o0 I0 E0). subst o0. left. exists y. congruence.
            + inversion Q2 as [l0 o0 t0 I0 E0|l0 o0 t0 k0 p0 x0 I0 E0 K0 Y0]; subst; cbn in Q1; injection Q1 as Q1 Q4; subst t0; pose proof (Only _ I0 E0); subst; [congruence|].
              right. exists p0, r, y. split; [congruence|]. split; [congruence|exact Q3]. }
        rewrite <- Q, <- (IH k o) by (try discriminate; exact (unique_kids _ x k U X Ek)). destruct (insert_tokens (u :: p) k o); split; congruence.
    + split; [|reflexivity]. intros _. right. exists [t], p, x. split; [reflexivity|]. split; [apply at_here; assumption|exact Ek].
  - assert (B : ~ blocked l (t :: p)).
    { rewrite Forall_forall in S. assert (Z : forall q r y, t :: p = q ++ r -> ~ at_path l q y).
      { intros q r y Q1 Q2. inversion Q2 as [l0 o0 t0 I0 E0|l0 o0 t0 k0 p0 x0 I0 E0 K0 Y0]; subst; cbn in Q1; injection Q1 as Q1 Q4; subst t0; specialize (S _ I0); apply named_spec in E0; congruence. }
      intros [[y Y]|(q & r & y & Q1 & Q2 & _)]; [apply (Z (t :: p) [] y); [rewrite app_nil_r; reflexivity|exact Y]|exact (Z q r y Q1 Q2)]. }
    split; [|contradiction]. destruct p as [|u p]; [discriminate|]. destruct (insert_tokens (u :: p) [] o) eqn:Ei; [discriminate|]. exfalso. apply (Fresh (u :: p) o); [discriminate|exact Ei].
Qed.
Lemma insert_path_join p l o : Forall good_name p -> p <> [] -> insert_path l (join p) o = insert_tokens p l o.
Proof.
  intros G N. unfold insert_path. pose proof (join_nonempty p G N) as J. rewrite insert_tokens_join by (auto; lia). destruct (join p); [congruence|reflexivity].
Qed.
Theorem C30_insert l p o l' : unique_names l -> (forall k, okids o = Some k -> unique_names k) -> Forall good_name p -> p <> [] -> insert_path l (join p) o = Some l' ->
  unique_names l' /\ find_path l' (join p) false = Some (Some (rename o (last p ""))) /\
  (forall q i, has l q i -> has l' q i) /\ (forall q i, has l' q i -> has l q i \/ inserted p o q i).
Proof.
  intros U O G N H. rewrite insert_path_join in H by assumption. pose proof (insert_unique p l o l' O H U) as U'. split; [exact U'|]. split; [|split].
  - apply C30_find_path; auto. apply insert_at with l. exact H.
  - apply (insert_keeps p l o l' H).
  - apply (insert_only p l o l' H).
Qed.
Theorem C30_insert_fails l p o : unique_names l -> Forall good_name p -> p <> [] -> (insert_path l (join p) o = None <-> blocked l p).
Proof. intros U G N. rewrite insert_path_join by assumption. apply insert_blocked; assumption. Qed.

(** ** Removal *)
Definition under (p q : list string) : Prop := exists r, q = p ++ r.
Lemma without_spec : forall p l x, unique_names l -> at_path l p x -> unique_names (without p l) /\ forall q i, has (without p l) q i <-> has l q i /\ ~ under p q.
Proof.
  induction p as [|t p IH]; intros l x U H; [exact (False_ind _ (at_nonempty _ _ _ H eq_refl))|]. cbn [without].
  assert (Hd : exists o, In o l /\ oname o = Some t) by (inversion H; subst; eauto). destruct Hd as (o & I & E). destruct (split_at_unique t l o (proj1 (proj2 U)) I E) as (a & b & Sp & ->). rewrite Sp.
  assert (Only : forall o0, In o0 (a ++ o :: b) -> oname o0 = Some t -> o0 = o).
  { intros o0 I0 E0. destruct (split_at_unique t _ o0 (proj1 (proj2 U)) I0 E0) as (a1 & b1 & S1 & _). congruence. }
  assert (Nt : forall o0, In o0 (a ++ b) -> oname o0 <> Some t).
  { intros o0 I0 E0. pose proof (proj1 (proj2 U)) as D. rewrite map_app in D. cbn [map] in D. apply NoDup_remove_2 in D. apply D. rewrite <- map_app, E, <- E0. apply in_map. exact I0. }
  assert (Sub : forall o0, In o0 (a ++ b) -> In o0 (a ++ o :: b)) by (intros o0 I0; apply in_app_or in I0; apply in_or_app; destruct I0; [auto|right; right; assumption]).
  assert (Oth : forall o0 u, In o0 (a ++ o :: b) -> oname o0 = Some u -> u <> t -> In o0 (a ++ b)).
  { intros o0 u I0 E0 D. apply in_app_or in I0. apply in_or_app. destruct I0 as [I0|[I0|I0]]; auto. subst. congruence. }
  pose proof U as U0. apply unique_iff in U0. destruct U0 as [UD UF]. rewrite Forall_app in UF. destruct UF as [UF1 UF2]. inversion UF2 as [|? ? UF3 UF4]; subst.
  destruct p as [|u p].
  - split.
    + apply unique_iff. split; [rewrite map_app in *; cbn in UD; apply NoDup_remove_1 in UD; exact UD|]. rewrite Forall_app. auto.
    + intros q i. split.
      * intros (y & Y & Ey). assert (Q : at_path (a ++ o :: b) q y /\ ~ under [t] q); [|destruct Q; split; [exists y; auto|assumption]].
        inversion Y as [l0 o0 t0 I0 E0|l0 o0 t0 k0 p0 x0 I0 E0 K0 Y0]; subst; pose proof (Nt _ I0); (split; [|intros [r R]; cbn in R; injection R as R1 R2; congruence]); [apply at_here|apply at_in with o0 k0]; auto.
      * intros [(y & Y & Ey) D]. exists y. split; [|exact Ey]. inversion Y as [l0 o0 t0 I0 E0|l0 o0 t0 k0 p0 x0 I0 E0 K0 Y0]; subst.
        -- apply at_here; [|exact E0]. apply (Oth _ t0 I0 E0). intros ->. apply D. exists []. reflexivity.
        -- apply at_in with o0 k0; auto. apply (Oth _ t0 I0 E0). intros ->. apply D. exists p0. reflexivity.
  - inversion H as [|l1 o1 t1 k p1 x1 I1 E1 K1 H1]; subst. pose proof (Only _ I1 E1). subst o1. rewrite K1. destruct (IH k x (proj2 UF3 k K1) H1) as [IU IS].
    set (o' := Ob (oid o) (oname o) (Some (without (u :: p) k))). assert (Io' : In o' (a ++ o' :: b)) by (apply in_or_app; right; left; reflexivity). split.
    + apply unique_iff. split; [rewrite map_app in *; exact UD|]. rewrite Forall_app. split; [exact UF1|]. constructor; [|exact UF4]. split; [exact (proj1 UF3)|]. cbn. intros k2 Q. injection Q as <-. exact IU.
    + assert (D1 : forall z, In z (a ++ o' :: b) -> z = o' \/ In z (a ++ b)) by (intros z Z; apply in_app_or in Z; destruct Z as [Z|[Z|Z]]; [right; apply in_or_app; auto|left; congruence|right; apply in_or_app; auto]).
      assert (D2 : forall z, In z (a ++ b) -> In z (a ++ o' :: b)) by (intros z Z; apply in_app_or in Z; apply in_or_app; destruct Z; [auto|right; right; assumption]).
      intros q i. split.
      * intros (y & Y & Ey). inversion Y as [l0 o0 t0 I0 E0|l0 o0 t0 k0 p0 x0 I0 E0 K0 Y0]; subst; destruct (D1 _ I0) as [-> |D0].
        -- split; [exists o; split; [apply at_here; assumption|reflexivity]|]. intros [r R]. discriminate.
        -- split; [exists y; split; [apply at_here; auto|reflexivity]|]. intros [r R]. discriminate.
        -- cbn in K0. injection K0 as <-. cbn in E0. destruct (proj1 (IS p0 (oid y))) as [(z & Z1 & Z2) Z3]; [exists y; auto|]. split; [exists z; split; [apply at_in with o k; assumption|exact Z2]|].
           intros [r R]. cbn in R. injection R as R1 R2. apply Z3. exists r. exact R2.
        -- split; [exists y; split; [apply at_in with o0 k0; auto|reflexivity]|]. intros [r R]. cbn in R. injection R as R1 R2. apply (Nt _ D0). congruence.
      * intros [(y & Y & Ey) D]. inversion Y as [l0 o0 t0 I0 E0|l0 o0 t0 k0 p0 x0 I0 E0 K0 Y0]; subst; destruct (string_dec t0 t) as [-> |C].
        -- pose proof (Only _ I0 E0). subst y. exists o'. split; [apply at_here; assumption|reflexivity].
        -- exists y. split; [apply at_here; [apply D2; apply (Oth _ t0); assumption|exact E0]|reflexivity].
        -- pose proof (Only _ I0 E0). subst o0. assert (k0 = k) by congruence. subst k0. destruct (proj2 (IS p0 (oid y))) as (z & Z1 & Z2); [split; [exists y; auto|]|].
           ++ intros [r R]. apply D. exists r. cbn. rewrite R. reflexivity.
           ++ exists z. split; [apply at_in with o' (without (u :: p) k); auto|exact Z2].
        -- exists y. split; [apply at_in with o0 k0; auto; apply D2; apply (Oth _ t0); assumption|reflexivity].
Qed.
Lemma walk_shallow t : forall l f res, occ f = 1%Z -> recu f = false -> all f = false -> walk (visit [t]) l f res =
  match split_at t l with
  | Some (a, x, b) => Some (if remv f then a ++ b else l, increment_found f, res ++ [x])
  | None => Some (l, f, res) end.
Proof.
  induction l as [|o l IH]; intros f res O R A; [reflexivity|]. cbn [walk split_at]. assert (NF : finished f = false) by (unfold finished; rewrite O; reflexivity). rewrite NF, visit_eq, test_one. destruct (named t o).
  - assert (I : increment_found f = Fi 0 (all f) (recu f) (pathm f) (rever f) (remv f)) by (unfold increment_found; rewrite O; reflexivity). rewrite I, A. cbv zeta. cbn [finished occ all orb andb remv]. change (finished (Fi 0 false (recu f) (pathm f) (rever f) (remv f))) with true. cbv iota. cbn [andb remv].
    assert (W : forall r0, walk (visit [t]) l (Fi 0 false (recu f) (pathm f) (rever f) (remv f)) r0 = Some (l, Fi 0 false (recu f) (pathm f) (rever f) (remv f), r0)) by (intro; destruct l; reflexivity). rewrite W. destruct (remv f); reflexivity.
  - cbn [andb]. rewrite NF, R. assert (V : match okids o with Some _ => Some (Some o, f, res) | None => Some (Some o, f, res) end = Some (Some o, f, res)) by (destruct (okids o); reflexivity). cbv zeta. rewrite V. rewrite IH by assumption.
    destruct (split_at t l) as [[[a x] b]|]; [destruct (remv f)|]; reflexivity.
Qed.
Theorem C30_delete l p x : unique_names l -> Forall good_name p -> at_path l p x -> exists l', delete_path l (join p) = Some (l', true) /\
  unique_names l' /\ forall q i, has l' q i <-> has l q i /\ ~ under p q.
Proof.
  intros U G H. exists (without p l). destruct (without_spec p l x U H) as [W1 W2]. split; [|auto]. assert (N : p <> []) by exact (at_nonempty _ _ _ H). unfold delete_path. rewrite address_join by assumption. destruct p as [|t [|u p]]; [congruence| |].
  - unfold find, name_filter. cbn [List.length Nat.ltb Nat.leb rever]. rewrite walk_shallow by reflexivity. cbn [without].
    assert (I : In x l /\ oname x = Some t) by (inversion H; subst; [auto|match goal with Q : at_path _ [] _ |- _ => inversion Q end]). destruct I as [I E]. destruct (split_at_unique t l x (proj1 (proj2 U)) I E) as (a & b & -> & _). reflexivity.
  - set (p' := t :: u :: p) in *. assert (K : 2 <= List.length p') by (cbn; lia). rewrite many_filter by exact K. unfold find. cbn [rever].
    destruct (descend p' K l p' x H (Fi 1 false true true false true) [] U eq_refl eq_refl eq_refl eq_refl) as (f' & res' & -> & _ & _). cbn [app remv]. rewrite app_length. cbn [List.length]. rewrite (proj2 (Nat.eqb_neq _ _)) by lia. reflexivity.
Qed.
Theorem C30_delete_sound_partial l p l' b : all_named l -> Forall good_name p -> p <> [] -> delete_path l (join p) = Some (l', b) ->
  if b then exists q x, at_path l (q ++ p) x else l' = l.
Proof.
  intros N G Np H. unfold delete_path in H. rewrite address_join in H by assumption. destruct p as [|t [|u p]]; [congruence| |].
  - unfold find, name_filter in H. cbn [List.length Nat.ltb Nat.leb rever] in H. rewrite walk_shallow in H by reflexivity. pose proof (split_at_spec t l) as S. destruct (split_at t l) as [[[a x] b']|].
    + cbn in H. injection H as <- <-. exists [], x. destruct S as (-> & E & _). apply at_here; [apply in_or_app; right; left; reflexivity|exact E].
    + cbn in H. injection H as <- <-. reflexivity.
  - set (p' := t :: u :: p) in *. assert (K : 2 <= List.length p') by (cbn; lia). rewrite many_filter in H by exact K.
    destruct (find_sound p' K l (Fi 1 false true true false true) N) as (l2 & f' & res & E & _ & _ & _ & P); try reflexivity. rewrite E in H. destruct P as [(_ & -> & [-> | ->])|(_ & _ & _ & _ & r' & y & c & q & -> & P & Q)].
    1, 2: cbn in H; injection H as <- <-; reflexivity.
    rewrite app_length in H. cbn [List.length] in H. rewrite (proj2 (Nat.eqb_neq _ _)) in H by lia. injection H as <- <-. exists q, y. rewrite <- Q. exact P.
Qed.

(** ** What is false *)
Lemma lookup_some l p x : at_path l p x -> lookup p l <> None.
Proof.
  intro H. induction H as [l o t I E|l o t k p x I E Ek H IH].
  - cbn [lookup]. intro C. pose proof (find_none _ _ C o I) as F. apply named_spec in E. congruence.
  - pose proof (at_nonempty _ _ _ H) as N. destruct p as [|u p]; [congruence|].
    change (lookup (t :: u :: p) l) with (first_of (fun o => if named t o then match okids o with Some k => lookup (u :: p) k | None => None end else None) l).
    induction l as [|y l IHl]; [destruct I|]. cbn [first_of]. destruct I as [-> |I]; [rewrite (proj2 (named_spec t o) E), Ek; destruct (lookup (u :: p) k); [discriminate|congruence]|].
    match goal with |- match ?c with _ => _ end <> None => destruct c; [discriminate|] end. exact (IHl I).
Qed.
Ltac concrete_unique := let x := fresh "x" in split; [intros x Hx; cbn in Hx; intuition (subst; discriminate)|split; [repeat constructor; cbn; intuition discriminate|
  let k := fresh "k" in intros x k Hx Ek; cbn in Hx; intuition (subst; cbn in Ek; (discriminate || (injection Ek as <-; repeat constructor; cbn; intuition discriminate)))]].
Definition leaf i n := Ob i (Some n) None.
Definition box i n k := Ob i (Some n) (Some k).
(** Full statement: Find(path) returns the object at that path, and nothing when there is none. False: the names already matched
    are all dropped when a branch fails (313-317), so what follows is matched from the start of the path inside an inner container. *)
Definition tree1 := [box 1 "A" [box 2 "B" [leaf 3 "x"]; box 4 "A" [box 5 "B" [leaf 6 "C"]]]].
Theorem C30_found_elsewhere_refuted : exists l p x, unique_names l /\ Forall good_name p /\ find_path l (join p) false = Some (Some x) /\ ~ (exists y, at_path l p y) /\
  exists l', delete_path l (join p) = Some (l', true) /\ l' <> l.
Proof.
  exists tree1, ["A"; "B"; "C"], (leaf 6 "C"). split; [concrete_unique|]. split; [good|]. split; [vm_compute; reflexivity|]. split.
  - intros [y Y]. apply (lookup_some _ _ _ Y). vm_compute. reflexivity.
  - eexists. split; [vm_compute; reflexivity|]. discriminate.
Qed.
(** Full statement: an object at a path is found. False when two objects of a container have the same name. *)
Definition tree2 := [box 1 "A" [box 2 "B" [leaf 3 "x"]; box 4 "B" [leaf 5 "C"]]].
Theorem C30_not_found_refuted : exists l p y, all_named l /\ Forall good_name p /\ at_path l p y /\ find_path l (join p) false = Some None.
Proof.
  exists tree2, ["A"; "B"; "C"], (leaf 5 "C"). split; [intros x Hx; cbn in Hx; intuition (subst; discriminate)|]. split; [good|]. split; [|vm_compute; reflexivity].
  eapply at_in with (o := box 1 "A" _); [left; reflexivity|reflexivity|reflexivity|]. eapply at_in with (o := box 4 "B" _); [right; left; reflexivity|reflexivity|reflexivity|]. apply at_here; [left; reflexivity|reflexivity].
Qed.
(** An object without a name before the right one is entered as if it matched and makes the search fail. *)
Definition tree3 := [box 1 "A" [Ob 7 None (Some [leaf 8 "y"]); box 4 "B" [leaf 5 "C"]]].
Theorem C30_unnamed_refuted : exists l p y, NoDup (map oname (everywhere l)) /\ at_path l p y /\ find_path l (join p) false = Some None.
Proof.
  exists tree3, ["A"; "B"; "C"], (leaf 5 "C"). split; [repeat constructor; cbn; intuition discriminate|]. split; [|vm_compute; reflexivity].
  eapply at_in with (o := box 1 "A" _); [left; reflexivity|reflexivity|reflexivity|]. eapply at_in with (o := box 4 "B" _); [right; left; reflexivity|reflexivity|reflexivity|]. apply at_here; [left; reflexivity|reflexivity].
Qed.
(** Full statement: what is inserted at a path is found at that path. False for a path with an empty name: it is cut there. *)
Theorem C30_insert_empty_name_refuted : exists path l', insert_path [] path (leaf 1 "z") = Some l' /\ find_path l' path false = Some None /\ find_path l' "a" false = Some (Some (leaf 1 "a")).
Proof. exists "a..b"%string. eexists. split; [vm_compute; reflexivity|]. split; vm_compute; reflexivity. Qed.
(** Removing all occurrences of a name uses the reference of the node that has just been deleted. *)
Theorem C30_remove_all_refuted : find ["A"] (name_filter (-1) true false true ["A"]) [leaf 1 "A"] = None.
Proof. vm_compute. reflexivity. Qed.
(** Searching all occurrences (-1) of a path of more than one name finds nothing. *)
Theorem C30_all_paths_refuted : exists l p y, unique_names l /\ Forall good_name p /\ at_path l p y /\
  exists f', find (address (join p)) (name_filter (-1) true false false (address (join p))) l = Some (l, f', []).
Proof.
  exists [box 1 "A" [leaf 2 "B"]], ["A"; "B"], (leaf 2 "B"). split; [concrete_unique|]. split; [good|]. split.
  - eapply at_in with (o := box 1 "A" _); [left; reflexivity|reflexivity|reflexivity|]. apply at_here; [left; reflexivity|reflexivity].
  - eexists. vm_compute. reflexivity.
Qed.

(** ** A concrete case *)
Definition tree0 := [box 1 "App" [box 2 "Data" [leaf 3 "DDB1"; leaf 4 "Timer"]; box 5 "States" [leaf 6 "State1"]]; leaf 7 "Web"].
Example C30_example : unique_names tree0 /\ Forall good_name ["App"; "Data"; "Timer"] /\ at_path tree0 ["App"; "Data"; "Timer"] (leaf 4 "Timer") /\
  find_path tree0 "App.Data.Timer" false = Some (Some (leaf 4 "Timer")) /\ find_path tree0 "State1" true = Some (Some (leaf 6 "State1")) /\ find_path tree0 "State1" false = Some None /\
  insert_path tree0 "App.New.Gam" (leaf 9 "g") = Some [box 1 "App" [box 2 "Data" [leaf 3 "DDB1"; leaf 4 "Timer"]; box 5 "States" [leaf 6 "State1"]; box 0 "New" [leaf 9 "Gam"]]; leaf 7 "Web"] /\
  insert_path tree0 "Web.x" (leaf 9 "g") = None /\ blocked tree0 ["Web"; "x"] /\
  delete_path tree0 "App.Data" = Some ([box 1 "App" [box 5 "States" [leaf 6 "State1"]]; leaf 7 "Web"], true).
Proof.
  split; [concrete_unique|]. split; [good|]. split.
  { eapply at_in with (o := box 1 "App" _); [left; reflexivity|reflexivity|reflexivity|]. eapply at_in with (o := box 2 "Data" _); [left; reflexivity|reflexivity|reflexivity|]. apply at_here; [right; left; reflexivity|reflexivity]. }
  repeat (split; [vm_compute; reflexivity|]). split; [|vm_compute; reflexivity].
  right. exists ["Web"], ["x"], (leaf 7 "Web"). split; [reflexivity|]. split; [apply at_here; [right; left; reflexivity|reflexivity]|reflexivity].
Qed.
Print Assumptions C30_find_path.
Print Assumptions C30_find_sound_partial.
Print Assumptions C30_find_nth.
Print Assumptions C30_find_all.
Print Assumptions C30_find_two.
Print Assumptions C30_insert.
Print Assumptions C30_insert_fails.
Print Assumptions C30_delete.
Print Assumptions C30_delete_sound_partial.
Print Assumptions C30_api_no_dangling.
