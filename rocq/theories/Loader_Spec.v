(** What a Loader is expected to do, without its code: it has a current configuration, and a request to replace
    it either succeeds or leaves the current one in place. *)
From Coq Require Import String Ascii List Bool Arith ZArith.
From Verif Require Import CRC_Spec Loader_Model.
Import ListNotations.
Open Scope string_scope.
Open Scope nat_scope.
Open Scope list_scope.

Section Spec.
Variable body : Type.
Variable builds application configures : body -> bool.
Variable token : ascii -> bool.
Variable parse : string -> string -> option (config body).

(** The objects a configuration declares, in order, with their names. *)
Definition declared (c : config body) : list (string * body) :=
  flat_map (fun e => match e_name _ e, e_body _ e with
                     | String t n, Some b => if token t then [(n, b)] else []
                     | _, _ => []
                     end) c.

(** All of them can be made, and, for a RealTimeLoader, there is an application and all applications can be
    configured. *)
Definition acceptable (realtime : bool) (c : config body) : bool :=
  forallb (fun e => match e_name _ e, e_body _ e with
                    | String t _, Some b => implb (token t) (builds b)
                    | String t _, None => negb (token t)
                    | EmptyString, _ => true
                    end) c &&
  implb realtime (existsb (fun x => application (snd x)) (declared c) &&
                  forallb (fun x => implb (application (snd x)) (configures (snd x))) (declared c)).

(** The hash of a text: the remainder of the seed (four bytes, least significant first) and the text. *)
Definition is_hash (key seed : Z) (t : string) (h : Z) : Prop :=
  is_remainder 32 key
    (message ([seed mod 256; seed / 256 mod 256; seed / 65536 mod 256; seed / 16777216 mod 256]%Z ++
              map (fun c => Z.of_nat (nat_of_ascii c)) (list_ascii_of_string t)) * 2 ^ 32)%Z h.

(** What the registry holds. [Original]: what Configure put there. [Complete]: the objects of the current
    configuration and the kept ones. [Bare]: the objects of the current configuration. [Broken]: no claim. *)
Inductive view := Original | Complete | Bare | Broken.

Definition known_parser (p : string) : bool := String.eqb p "xml" || String.eqb p "json" || String.eqb p "cdb".

(** A message that is not set cannot fail. *)
Definition reply (set : list msg) (v : env) (m : msg) : bool := implb (existsb (msg_eqb m) set) (replied v m).

(** One request: the answer, the current configuration, the view and the messages sent (if they are set). *)
Definition request (realtime reload : bool) (set : list msg) (v : env) (c : config body) (cur : config body) (w : view)
  : error * config body * view * list msg :=
  let post (e : error) := if reply set v PostConfiguration then e else MessageError in
  if reply set v PreConfiguration && acceptable realtime c
  then (post NoError, c, Complete, [PreConfiguration; PostConfiguration])
  else if reload
  then (post RecoverableError, cur, Complete, [PreConfiguration; ReloadedConfiguration; PostConfiguration])
  else (if reply set v PreConfiguration
        then if acceptable false c
             then if existsb (fun x => application (snd x)) (declared c) then InitialisationError else ParametersError
             else InitialisationError
        else MessageError,
        cur, Broken, [PreConfiguration; FailedConfiguration]).

Definition request_text (realtime reload : bool) (p : string) (set : list msg) (v : env) (t : string)
  (cur : config body) (w : view) :=
  if known_parser p then
    match parse p t with
    | Some c => request realtime reload set v c cur w
    | None => (InitialisationError, cur, w, [])
    end
  else (ParametersError, cur, w, []).

(** A request with a hash is a request if the hash is right, and is refused otherwise. [ks]: key and seed. *)
Definition request_hash (realtime reload : bool) (p : string) (set : list msg) (ks : option (Z * Z)) (v : env)
  (t : string) (h : Z) (cur : config body) (w : view) (r : error * config body * view * list msg) : Prop :=
  match ks with
  | None => r = (FatalError, cur, w, [])
  | Some (key, seed) =>
    (is_hash key seed t h /\ r = request_text realtime reload p set v t cur w) \/
    (~ is_hash key seed t h /\ r = (FatalError, cur, w, []))
  end.

(** One call: the answer and the messages, and what becomes of the current configuration, the view, and the
    key and seed. *)
Definition answer (realtime reload : bool) (p : string) (set : list msg) (o : op body)
  (cur : config body) (w : view) (ks : option (Z * Z)) (r : error * config body * view * list msg)
  (ks' : option (Z * Z)) : Prop :=
  match o with
  | Reconfigure _ v c => r = request realtime reload set v c cur w /\ ks' = ks
  | ReconfigureText _ v t => r = request_text realtime reload p set v t cur w /\ ks' = ks
  | ReconfigureHash _ v t h => request_hash realtime reload p set ks v t h cur w r /\ ks' = ks
  | ReloadLast _ => r = (NoError, cur, Bare, []) /\ ks' = ks
  | GetSeed _ c => r = (NoError, cur, w, []) /\
      ks' = match ks with Some (key, _) => Some (key, c mod 2 ^ 32)%Z | None => None end
  end.

(** A history of calls: answers, messages, and the current configuration and view at the end. *)
Inductive history (realtime reload : bool) (p : string) (set : list msg)
  : list (op body) -> config body -> view -> option (Z * Z) -> list error -> list msg -> config body -> view -> Prop :=
| H_nil : forall cur w ks, history realtime reload p set [] cur w ks [] [] cur w
| H_cons : forall o l cur w ks e cur1 w1 m ks1 es ms cur2 w2,
    answer realtime reload p set o cur w ks (e, cur1, w1, m) ks1 ->
    history realtime reload p set l cur1 w1 ks1 es ms cur2 w2 ->
    history realtime reload p set (o :: l) cur w ks (e :: es)
            (filter (fun x => existsb (msg_eqb x) set) m ++ ms) cur2 w2.

(** ConfigurationDatabase::Copy succeeds in all calls. *)
Definition copied (o : op body) : Prop :=
  match o with
  | Reconfigure _ v _ | ReconfigureText _ v _ | ReconfigureHash _ v _ _ => copies v = true
  | _ => True
  end.

(** What the registry holds, in terms of the current configuration and of the objects to keep: names and bodies
    of objects, the identities of the kept ones. *)
Definition seen (o : object body) : string * body := (o_name _ o, o_body _ o).
Definition holds (w : view) (cur : config body) (original kept : list (object body)) (l : list (object body)) : Prop :=
  match w with
  | Original => l = original
  | Complete => exists made back, l = made ++ back /\ map seen made = declared cur /\
      Forall (fun o => o_whole _ o = true) made /\
      map (o_id _) back = map (o_id _) kept /\ map seen back = map seen kept /\
      (forall o k, In o made -> In k (original ++ kept) -> o_id _ o <> o_id _ k)
  | Bare => map seen l = declared cur /\ Forall (fun o => o_whole _ o = true) l
  | Broken => True
  end.
End Spec.
