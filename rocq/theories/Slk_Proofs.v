(** The steps of the table driven parser, for any tables and actions. *)
From Coq Require Import String Ascii.
From Verif Require Import Base Slk_Model.
Open Scope string_scope. Open Scope nat_scope. Open Scope list_scope.

Section Steps.
Context (T : tables) {A : Type} (execute : nat -> token -> A -> out (A * bool)) (C : nat).
Notation loop := (loop T execute). Notation token_type := (token_type T).

Definition S0 (l : list token) (sk : list nat) (u : A) : st A := mk l (token_type (hd TEof l)) sk u false false.
Definition runs (s s' : st A) : Prop := exists n, forall m cf, C <= cf -> loop (n + m) cf s = loop m cf s'.
(** The parse ends with an error; [v] says whether an action may have undefined behaviour instead. *)
Definition fails (v : bool) (s : st A) : Prop := exists n, forall m cf, C <= cf -> match loop (n + m) cf s with Ret s' => err s' = true | Undef => v = true | NoFuel => False end.
Lemma runs_refl s : runs s s. Proof. exists 0. reflexivity. Qed.
Lemma runs_trans a b c : runs a b -> runs b c -> runs a c.
Proof. intros [n X] [m Y]. exists (n + m). intros k cf F. rewrite <- Nat.add_assoc, X, Y by exact F. reflexivity. Qed.
Lemma runs_fails v a b : runs a b -> fails v b -> fails v a.
Proof. intros [n X] [m Y]. exists (n + m). intros k cf F. rewrite <- Nat.add_assoc, X by exact F. apply Y. exact F. Qed.
Lemma fails_weak v s : fails false s -> fails v s.
Proof. intros [n X]. exists n. intros m cf F. specialize (X m cf F). destruct (loop (n + m) cf s); [exact X|discriminate|exact X]. Qed.
Lemma err_fails v s : err s = true -> fails v s.
Proof. intro E. exists 0. intros m cf _. destruct m; cbn [plus Slk_Model.loop]; (destruct (stk s); [exact E|]); rewrite E, orb_true_r; exact E. Qed.

(** The body of the production chosen *)
Definition pick (cf N k : nat) (l : list token) : out (option (list nat)) :=
  bind (get (Parse_row T) (N - (START_SYMBOL T - 1))) (fun row => bind (get (ParseArray T) (row + k)) (fun e => bind (resolve T cf l e 0) (fun entry =>
  if entry =? 0 then Ret None else
  bind (get (Production_row T) entry) (fun row => bind (get (Production T) row) (fun len => bind (get (Production T) (S row)) (fun head =>
  if head =? N then Ret (Some (firstn (len - 1) (skipn (S (S row)) (Production T)))) else Ret None)))))).
Lemma push_all_app p l : List.length p + List.length l <= 511 -> push_all p l = p ++ l.
Proof.
  induction p as [|x p IH]; intro L; [reflexivity|]. cbn [push_all fold_right]. fold (push_all p l). cbn [List.length] in L. rewrite IH by lia. unfold push. change (PARSE_STACK_SIZE - 1) with 511.
  rewrite (proj2 (Nat.ltb_lt (List.length (p ++ l)) 511)) by (rewrite app_length; lia). reflexivity.
Qed.
Lemma iter_nt cf N l k sk u e f : START_SYMBOL T <= N < START_ACTION T -> iter T execute cf N (mk l k sk u e f) =
  match pick cf N k l with
  | Ret (Some body) => Ret (mk l k (push_all body sk) u e f)
  | Ret None => Ret (syntax T (mk l k sk u e f))
  | Undef => Undef
  | NoFuel => NoFuel
  end.
Proof.
  intros [R1 R2]. unfold iter. rewrite (proj2 (Nat.leb_gt _ N)), (proj2 (Nat.leb_le _ N)) by assumption. cbn [ty inp]. unfold pick.
  destruct (get (Parse_row T) (N - (START_SYMBOL T - 1))) as [row| |]; [|reflexivity|reflexivity]. cbn [bind].
  destruct (get (ParseArray T) (row + k)) as [x| |]; [|reflexivity|reflexivity]. cbn [bind]. destruct (resolve T cf l x 0) as [entry| |]; [|reflexivity|reflexivity]. cbn [bind]. unfold expand.
  destruct (entry =? 0); [reflexivity|]. destruct (get (Production_row T) entry) as [r2| |]; [|reflexivity|reflexivity]. cbn [bind]. destruct (get (Production T) r2) as [len| |]; [|reflexivity|reflexivity]. cbn [bind]. destruct (get (Production T) (S r2)) as [h| |]; [|reflexivity|reflexivity]. cbn [bind]. destruct (h =? N); reflexivity.
Qed.
Hypothesis S1 : 1 <= START_SYMBOL T <= START_ACTION T.
Lemma run_nt N body l sk u : START_SYMBOL T <= N < START_ACTION T -> (forall cf, C <= cf -> pick cf N (token_type (hd TEof l)) l = Ret (Some body)) -> List.length body + List.length sk <= 511 ->
  runs (S0 l (N :: sk) u) (S0 l (body ++ sk) u).
Proof.
  intros R P L. exists 1. intros m cf F. change (1 + m) with (S m). unfold S0 at 1. cbn [Slk_Model.loop stk err inp ty usr eof]. rewrite (proj2 (Nat.eqb_neq N 0)) by lia. cbn [orb].
  rewrite iter_nt by exact R. rewrite P by exact F. cbn [bind]. rewrite push_all_app by exact L. reflexivity.
Qed.
(** A symbol that cannot begin here *)
Lemma fail_nt v N l sk u : START_SYMBOL T <= N < START_ACTION T -> token_type (hd TEof l) <> 0 -> (forall cf, C <= cf -> pick cf N (token_type (hd TEof l)) l = Ret None) -> fails v (S0 l (N :: sk) u).
Proof.
  intros R Z P. exists 1. intros m cf F. change (1 + m) with (S m). unfold S0. cbn [Slk_Model.loop stk err inp ty usr eof]. rewrite (proj2 (Nat.eqb_neq N 0)) by lia. cbn [orb].
  rewrite iter_nt by exact R. rewrite P by exact F. cbn [bind]. unfold syntax. cbn [ty inp stk usr err eof]. rewrite (proj2 (Nat.eqb_neq _ 0) Z). destruct m; cbn [Slk_Model.loop stk err]; (destruct sk as [|y sk]; [reflexivity|]); rewrite orb_true_r; reflexivity.
Qed.
Lemma run_tm N t l sk u : 0 < N < START_SYMBOL T -> token_type t = N -> runs (S0 (t :: l) (N :: sk) u) (S0 l sk u).
Proof.
  intros R E. exists 1. intros m cf _. change (1 + m) with (S m). unfold S0 at 1. cbn [Slk_Model.loop stk err inp ty usr eof hd]. rewrite (proj2 (Nat.eqb_neq N 0)) by lia. cbn [orb].
  unfold iter. rewrite (proj2 (Nat.leb_gt (START_ACTION T) N)), (proj2 (Nat.leb_gt (START_SYMBOL T) N)) by lia. cbn [ty inp tl]. rewrite E, Nat.eqb_refl. reflexivity.
Qed.
Lemma fail_tm v N l k sk u e f : 0 < N < START_SYMBOL T -> k <> N -> fails v (mk l k (N :: sk) u e f).
Proof.
  intros R E. destruct e; [apply err_fails; reflexivity|]. exists 1. intros m cf _. change (1 + m) with (S m). cbn [Slk_Model.loop stk err inp ty usr eof hd]. rewrite (proj2 (Nat.eqb_neq N 0)) by lia. cbn [orb].
  unfold iter. rewrite (proj2 (Nat.leb_gt (START_ACTION T) N)), (proj2 (Nat.leb_gt (START_SYMBOL T) N)) by lia. cbn [ty inp]. rewrite (proj2 (Nat.eqb_neq N k)) by congruence. cbn [bind]. destruct m; cbn [Slk_Model.loop stk err]; (destruct sk as [|y sk]; [reflexivity|]); rewrite orb_true_r; reflexivity.
Qed.
Lemma run_act_any N l k sk u u' f : START_ACTION T <= N -> execute (N - (START_ACTION T - 1)) (hd TEof l) u = Ret (u', false) -> runs (mk l k (N :: sk) u false f) (mk l k sk u' false f).
Proof.
  intros R E. exists 1. intros m cf _. change (1 + m) with (S m). cbn [Slk_Model.loop stk err inp ty usr eof hd]. rewrite (proj2 (Nat.eqb_neq N 0)) by lia. cbn [orb].
  unfold iter. rewrite (proj2 (Nat.leb_le (START_ACTION T) N)) by exact R. unfold current. cbn [inp usr]. rewrite E. reflexivity.
Qed.
Lemma run_act N l sk u u' : START_ACTION T <= N -> execute (N - (START_ACTION T - 1)) (hd TEof l) u = Ret (u', false) -> runs (S0 l (N :: sk) u) (S0 l sk u').
Proof. intros R E. apply run_act_any; assumption. Qed.
Lemma fail_act_any v N l k sk u f : START_ACTION T <= N ->
  match execute (N - (START_ACTION T - 1)) (hd TEof l) u with Ret (_, e) => e = true | Undef => v = true | NoFuel => False end -> fails v (mk l k (N :: sk) u false f).
Proof.
  intros R E. exists 1. intros m cf _. change (1 + m) with (S m). cbn [Slk_Model.loop stk err inp ty usr eof hd]. rewrite (proj2 (Nat.eqb_neq N 0)) by lia. cbn [orb].
  unfold iter. rewrite (proj2 (Nat.leb_le (START_ACTION T) N)) by exact R. unfold current. cbn [inp usr]. destruct (execute _ _ u) as [[u' e]| |]; cbn [bind]; [|exact E|exact E]. subst e. destruct m; cbn [Slk_Model.loop stk err]; (destruct sk as [|y sk]; [reflexivity|]); rewrite orb_true_r; reflexivity.
Qed.
Lemma fail_act v N l sk u : START_ACTION T <= N ->
  match execute (N - (START_ACTION T - 1)) (hd TEof l) u with Ret (_, e) => e = true | Undef => v = true | NoFuel => False end -> fails v (S0 l (N :: sk) u).
Proof. apply fail_act_any. Qed.
(** The end of the input where the symbol cannot be empty: it is dropped and the parse goes on after it. *)
Lemma run_eof N l sk u : START_SYMBOL T <= N < START_ACTION T -> token_type (hd TEof l) = 0 -> (forall cf, C <= cf -> pick cf N 0 l = Ret None) -> runs (S0 l (N :: sk) u) (mk l (END_OF_SLK_INPUT T) sk u false true).
Proof.
  intros R Z P. exists 1. intros m cf F. change (1 + m) with (S m). unfold S0. cbn [Slk_Model.loop stk err inp ty usr eof]. rewrite (proj2 (Nat.eqb_neq N 0)) by lia. cbn [orb].
  rewrite iter_nt by exact R. rewrite Z, P by exact F. reflexivity.
Qed.
(** The whole parse *)
Definition result (l : list token) (u : A) (b : bool) (P : A -> Prop) : Prop :=
  exists n, forall rounds fuel cf, 1 <= rounds -> n <= fuel -> C <= cf -> match parse T execute rounds fuel cf l u with Ret (b', u') => b' = b /\ P u' | _ => False end.
Lemma parse_fails l u : fails false (S0 l [START_SYMBOL T] u) -> result l u false (fun _ => True).
Proof.
  intros [n X]. exists n. intros rounds fuel cf R F Ce. unfold parse. destruct rounds as [|k]; [lia|]. cbn [parses err eof orb inp usr current]. unfold current. cbn [inp]. change (push (START_SYMBOL T) []) with [START_SYMBOL T]. specialize (X (fuel - n) cf Ce). replace (n + (fuel - n)) with fuel in X by lia. unfold S0 in X.
  destruct (loop fuel cf _) as [s| |]; [|discriminate|contradiction]. cbn [bind]. destruct (ty s =? END_OF_SLK_INPUT T); destruct k; cbn [parses err eof inp ty stk usr bind]; rewrite ?X; cbn [orb bind err negb]; rewrite ?X; auto.
Qed.
Lemma parse_ends l u l' u' : runs (S0 l [START_SYMBOL T] u) (mk l' (END_OF_SLK_INPUT T) [] u' false true) -> result l u true (fun x => x = u').
Proof.
  intros [n X]. exists n. intros rounds fuel cf R F Ce. unfold parse. destruct rounds as [|k]; [lia|]. cbn [parses err eof orb inp usr current]. unfold current. cbn [inp]. change (push (START_SYMBOL T) []) with [START_SYMBOL T]. specialize (X (fuel - n) cf Ce). replace (n + (fuel - n)) with fuel in X by lia. unfold S0 in X. rewrite X.
  destruct (fuel - n); cbn [Slk_Model.loop stk bind ty]; rewrite Nat.eqb_refl; destruct k; cbn [parses err eof orb bind inp ty stk usr negb]; auto.
Qed.
End Steps.
