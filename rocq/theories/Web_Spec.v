(** C59: what a browser and the directories of a web server are meant to answer. *)
From Coq Require Import String Ascii.
From Verif Require Import Base Container_Model Container_Props Web_Model.
Open Scope string_scope. Open Scope nat_scope. Open Scope list_scope.

(** The name of a file or directory, and the text of a path of names: "/a/b", and without the first slash "a/b". *)
Definition file_name (t : string) : Prop := t <> "" /\ t <> "." /\ t <> ".." /\ (forall a b, t <> (a ++ "/" ++ b)%string).
Fixpoint absolute (l : list string) : string := match l with [] => "" | t :: r => ("/" ++ t ++ absolute r)%string end.
Definition relative (l : list string) : string := match l with [] => "" | t :: r => (t ++ absolute r)%string end.

(** A text that goes up: it has a component "..". *)
Definition goes_up (p : string) : Prop := exists a b, p = (a ++ ".." ++ b)%string /\ (a = "" \/ exists a', a = (a' ++ "/")%string) /\ (b = "" \/ exists b', b = ("/" ++ b')%string).

(** The types of files by the ends of their names, in capitals or not. *)
Definition types : list (string * string) :=
  [(".html", "text/html"); (".htm", "text/html"); (".txt", "text/plain"); (".csv", "text/csv"); (".css", "text/css"); (".gif", "image/gif");
   (".jpeg", "image/jpg"); (".jpg", "image/jpg"); (".jnlp", "image/jnlp"); (".js", "application/x-javascript")].
Definition same_letter (a b : ascii) : Prop := a = b \/ exists n, 65 <= n <= 90 /\ ((a = ascii_of_nat n /\ b = ascii_of_nat (n + 32)) \/ (b = ascii_of_nat n /\ a = ascii_of_nat (n + 32))).
Inductive same_text : string -> string -> Prop :=
| same_empty : same_text "" ""
| same_char a b s t : same_letter a b -> same_text s t -> same_text (String a s) (String b t).
Definition of_type (name m : string) : Prop := exists stem e e', name = (stem ++ e')%string /\ In (e, m) types /\ same_text e' e.
Definition file_type (name m : string) : Prop := of_type name m \/ (m = "binary" /\ forall m', ~ of_type name m').

(** The objects in the root of a browser. *)
Inductive in_root (w : world) (self : obj) : root -> list obj -> Prop :=
| root_here l : okids self = Some l -> in_root w self Here l
| root_database : in_root w self Database (db w)
| root_container l : in_root w self (Container l) l.
(** The credentials of a request are accepted by a browser. *)
Definition accepted (realm : option (string -> bool)) (q : request) : Prop :=
  forall validate, realm = Some validate -> exists key, authorization q = Some key /\ validate key = true.
(** No object of [l] is at a path that ends in [p]. *)
Definition nothing_at (l : list obj) (p : list string) : Prop := forall a x, ~ at_path l (a ++ p) x.
