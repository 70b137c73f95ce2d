(** Source/Core/BareMetal/L6App/Loader.cpp, RealTimeLoader.cpp, ConfigurationLoaderHashCRC.cpp: loading an
    application from a configuration, replacing it by another one and going back to the last valid one.

    The parser, the classes and the receivers of the messages are parameters: [parse] is one of the three
    parsers of C44, [builds] says whether an object of a node of the configuration can be created and
    initialised (Reference.cpp:99-156, with everything under it), [application] and [configures] whether it
    is a RealTimeApplication and ConfigureApplication accepts it, [settings_of] what a container named
    LoaderPostInit holds. They are functions: an object built twice from the same node succeeds or fails
    twice alike. Only the children of the root of configurations and of the registry are represented; what
    is under them is inside [body]. *)
From Coq Require Import String Ascii List Bool Arith.
From Verif Require Import CRC_Model.
From Coq Require Import ZArith.
Import ListNotations.
Open Scope string_scope.
Open Scope nat_scope.
Open Scope list_scope.

(** ErrorType.h:544-546. The functions below set at most one bit at a time (each assignment is guarded by
    ErrorsCleared), except PostInit, where the one exception is written out. *)
Inductive error := NoError | FatalError | InitialisationError | ParametersError | RecoverableError | MessageError.
Definition cleared (e : error) : bool := match e with NoError => true | _ => false end.

(** Loader.h:218-238: the four messages. *)
Inductive msg := PreConfiguration | PostConfiguration | FailedConfiguration | ReloadedConfiguration.
Definition msg_eqb (a b : msg) : bool :=
  match a, b with
  | PreConfiguration, PreConfiguration | PostConfiguration, PostConfiguration
  | FailedConfiguration, FailedConfiguration | ReloadedConfiguration, ReloadedConfiguration => true
  | _, _ => false
  end.

(** What +LoaderPostInit holds (Loader.h:47-90): ReloadLast and KeepAlive of +Parameters ([None] if there are
    no +Parameters), the key of a ConfigurationLoaderHashCRC, the messages that are set. *)
Record settings := Settings {
  s_params : option (option string * list string);
  s_hash : option Z;
  s_msgs : list msg }.

(** What the environment does during one call: the result of sending a message and waiting for its reply
    (MessageI.cpp:196-228), and whether ConfigurationDatabase::Copy succeeds (ConfigurationDatabase.cpp:138-170);
    when it does not, the copy is taken to be empty. *)
Record env := Env { replied : msg -> bool; copies : bool }.

Section Loader.
Variable body : Type.
Variable builds application configures : body -> bool.
Variable settings_of : body -> option settings.
Variable token : ascii -> bool.

(** A child of the root of a configuration: a directory with a body, or a value. *)
Record entry := Entry { e_name : string; e_body : option body }.
Definition config := list entry.
Variable parse : string -> string -> option config.   (* parser type (xml, json or cdb) and text *)

(** An object of the registry: its identity, name, the node it was built from, and whether its children are
    still in it. *)
Record object := Object { o_id : nat; o_name : string; o_body : body; o_whole : bool }.

Record state := State {
  rt : bool;                                (* RealTimeLoader or Loader *)
  registry : list object;                   (* ObjectRegistryDatabase *)
  next : nat;                               (* identities given so far *)
  parser : string;                          (* parserType *)
  last : config;                            (* parsedConfiguration *)
  first : bool;                             (* firstLoading *)
  reload : bool;                            (* reloadLast *)
  keep : list object;                       (* keepAliveObjs *)
  msgs : list msg;                          (* the messages that are set *)
  hash : option (Z * Z);                    (* loaderHash: key of the table, lastSeed *)
  apps : list object;                       (* rtApps of RealTimeLoader *)
  sent : list msg }.                        (* messages sent, latest first *)

(** Loader.cpp:50-54 constructor, RealTimeLoader.cpp:48-50; the registry holds nothing yet. *)
Definition init (r : bool) : state := State r [] 0 "" [] true false [] [] None [] [].

Definition with_registry (s : state) (l : list object) (n : nat) : state :=
  State (rt s) l n (parser s) (last s) (first s) (reload s) (keep s) (msgs s) (hash s) (apps s) (sent s).
Definition with_last (s : state) (c : config) : state :=
  State (rt s) (registry s) (next s) (parser s) c (first s) (reload s) (keep s) (msgs s) (hash s) (apps s) (sent s).
Definition with_keep (s : state) (k : list object) : state :=
  State (rt s) (registry s) (next s) (parser s) (last s) (first s) (reload s) k (msgs s) (hash s) (apps s) (sent s).
Definition with_parser (s : state) (p : string) : state :=
  State (rt s) (registry s) (next s) p (last s) (first s) (reload s) (keep s) (msgs s) (hash s) (apps s) (sent s).
Definition with_reload (s : state) (b : bool) : state :=
  State (rt s) (registry s) (next s) (parser s) (last s) (first s) b (keep s) (msgs s) (hash s) (apps s) (sent s).
Definition with_msgs (s : state) (m : list msg) : state :=
  State (rt s) (registry s) (next s) (parser s) (last s) (first s) (reload s) (keep s) m (hash s) (apps s) (sent s).
Definition with_hash (s : state) (h : option (Z * Z)) : state :=
  State (rt s) (registry s) (next s) (parser s) (last s) (first s) (reload s) (keep s) (msgs s) h (apps s) (sent s).
Definition with_apps (s : state) (a : list object) : state :=
  State (rt s) (registry s) (next s) (parser s) (last s) (first s) (reload s) (keep s) (msgs s) (hash s) a (sent s).
Definition with_sent (s : state) (l : list msg) : state :=
  State (rt s) (registry s) (next s) (parser s) (last s) (first s) (reload s) (keep s) (msgs s) (hash s) (apps s) l.
Definition not_first (s : state) : state :=
  State (rt s) (registry s) (next s) (parser s) (last s) false (reload s) (keep s) (msgs s) (hash s) (apps s) (sent s).

(** ReferenceContainer.cpp:442-473 Purge of the registry: it is emptied, and so is every object in it, also
    those that are referenced from elsewhere (here: kept). *)
Definition emptied (l : list object) (o : object) : object :=
  if existsb (fun p => o_id p =? o_id o) l then Object (o_id o) (o_name o) (o_body o) false else o.
Definition purge (s : state) : state :=
  with_registry (with_apps (with_keep s (map (emptied (registry s)) (keep s))) (map (emptied (registry s)) (apps s)))
                [] (next s).

(** Reference.cpp:144-148: the name without its first character. *)
Definition bare (n : string) : string := match n with EmptyString => EmptyString | String _ r => r end.
Definition is_object (n : string) : bool := match n with EmptyString => false | String c _ => token c end.

(** ReferenceContainer.cpp:381-432 Initialise of the registry: the children whose name starts with a build or
    domain token become objects, until the first failure. A value with such a name fails (MoveRelative). *)
Fixpoint load (s : state) (c : config) : bool * state :=
  match c with
  | [] => (true, s)
  | e :: c' =>
    if is_object (e_name e) then
      match e_body e with
      | None => (false, s)
      | Some b =>
        if builds b
        then load (with_registry s (registry s ++ [Object (next s) (bare (e_name e)) b true]) (S (next s))) c'
        else (false, s)
      end
    else load s c'
  end.

(** Loader.cpp:407-419 SendConfigurationMessage. *)
Definition send (v : env) (m : msg) (s : state) : error * state :=
  if existsb (msg_eqb m) (msgs s)
  then (if replied v m then NoError else MessageError, with_sent s (m :: sent s))
  else (NoError, s).

(** RealTimeLoader.cpp:68-92 and Loader.cpp:447-450 PostReconfigure. [l]: the objects from number n on. *)
Fixpoint post_loop (l : list object) (found : bool) (s : state) : error * bool * state :=
  match l with
  | [] => (NoError, found, s)
  | o :: l' =>
    if application (o_body o) then
      let s := with_apps s (apps s ++ [o]) in
      if configures (o_body o) then post_loop l' true s else (InitialisationError, true, s)
    else post_loop l' found s
  end.
Definition post_reconfigure (s : state) : error * state :=
  if rt s then
    let '(e, found, s) := post_loop (registry s) false s in
    (if found then e else ParametersError, s)
  else (NoError, s).

(** Loader.cpp:303-313 ReloadLastValidConfiguration. *)
Definition reload_last (s : state) : error * state :=
  let '(ok, s) := load (purge s) (last s) in
  (if ok then NoError else InitialisationError, s).

(** Loader.cpp:240-248: the kept objects are put back. *)
Definition put_back (s : state) : state := with_registry s (registry s ++ keep s) (next s).

(** Loader.cpp:181-274 ReconfigureImpl with sendPostMsg. *)
Definition reconfigure (v : env) (c : config) (s : state) : error * state :=
  let '(e, s) := if first s then (NoError, s) else send v PreConfiguration s in
  let '(e, s) :=
    if cleared e then
      let '(ok, s) := load (purge s) c in
      (if ok then NoError else InitialisationError, s)
    else (e, s) in
  let '(e, reloaded, s) :=
    if first s then
      if cleared e then (if copies v then NoError else FatalError, false, with_last s (if copies v then c else []))
      else (e, false, s)
    else
      let '(e, s) := if cleared e then post_reconfigure s else (e, s) in
      let '(e, s) := if cleared e then (if copies v then NoError else FatalError, with_last s (if copies v then c else []))
                     else (e, s) in
      let '(reloaded, failed, s) :=
        if cleared e then (false, negb (reload s), s)
        else if reload s then
          let '(r, s) := reload_last s in
          let '(r, s) := if cleared r then post_reconfigure s else (r, s) in
          (cleared r, negb (cleared r), s)
        else (false, true, s) in
      let s := put_back s in
      let s :=
        if cleared e then s
        else if failed then snd (send v FailedConfiguration s)
        else if reload s then snd (send v ReloadedConfiguration s) else s in
      (e, reloaded, s) in
  let '(e, s) :=
    if cleared e || reloaded then
      let '(p, s) := send v PostConfiguration s in
      (if cleared p && reloaded then RecoverableError else p, s)
    else (e, s) in
  (e, not_first s).

(** Loader.cpp:144-175 Reconfigure from a stream (not virtual in the overload it calls at 172: [reconfigure]). *)
Definition reconfigure_text (v : env) (t : string) (s : state) : error * state :=
  if existsb (String.eqb (parser s)) ["xml"; "json"; "cdb"] then
    match parse (parser s) t with
    | None => (InitialisationError, s)
    | Some c => reconfigure v c s
    end
  else (ParametersError, s).

(** ConfigurationLoaderHashCRC.cpp:71-83 ComputeHash: the four bytes of the seed (little endian), then the
    text, with a table of 32 bits. The result of [compute] is never None (C13). *)
Definition seed_bytes (z : Z) : list Z :=
  [z mod 256; z / 256 mod 256; z / 65536 mod 256; z / 16777216 mod 256]%Z.
Definition text_bytes (t : string) : list Z := map (fun c => Z.of_nat (nat_of_ascii c)) (list_ascii_of_string t).
Definition compute_hash (key seed : Z) (t : string) : option Z :=
  let m := seed_bytes seed ++ text_bytes t in
  compute 32 (compute_table 32 key) (fun i => nth (Z.to_nat i) m 0%Z) (Z.of_nat (List.length m)) 0%Z false.

(** Loader.cpp:276-293 Reconfigure with a hash. *)
Definition reconfigure_hash (v : env) (t : string) (h : Z) (s : state) : error * state :=
  match hash s with
  | None => (FatalError, s)
  | Some (key, seed) =>
    match compute_hash key seed t with
    | Some k => if (k =? h)%Z then reconfigure_text v t s else (FatalError, s)
    | None => (FatalError, s)
    end
  end.

(** Loader.cpp:295-301 GetSeed and ConfigurationLoaderHashCRC.cpp:51-54: [c] is the counter of the timer. *)
Definition get_seed (c : Z) (s : state) : Z * state :=
  match hash s with
  | None => (0%Z, s)
  | Some (key, _) => ((c mod 2 ^ 32)%Z, with_hash s (Some (key, (c mod 2 ^ 32)%Z)))
  end.

(** ObjectRegistryDatabase.cpp:68-137 Find of a name without dots: the first object with that name (nested
    objects are not represented). *)
Definition find (n : string) (s : state) : option object := List.find (fun o => String.eqb (o_name o) n) (registry s).

(** Loader.cpp:350-359: the loop over the names to keep. *)
Fixpoint keep_loop (l : list string) (s : state) : error * state :=
  match l with
  | [] => (NoError, s)
  | n :: l' =>
    match find n s with
    | None => (ParametersError, s)
    | Some o => keep_loop l' (with_keep s (keep s ++ [o]))
    end
  end.

(** Loader.cpp:324-404 PostInit. Line 349 overwrites the error of line 339. *)
Definition post_init (s : state) : error * state :=
  match find "LoaderPostInit" s with
  | None => (NoError, s)
  | Some o =>
    match settings_of (o_body o) with
    | None => (NoError, s)
    | Some p =>
      let '(e, s) :=
        match s_params p with
        | None => (NoError, s)
        | Some (r, l) =>
          let '(e, s) :=
            match r with
            | None => (NoError, s)
            | Some r =>
              if String.eqb r "true" then (NoError, with_reload s true)
              else if String.eqb r "false" then (NoError, with_reload s false)
              else (ParametersError, s)
            end in
          match l with [] => (e, s) | _ :: _ => keep_loop l s end
        end in
      if cleared e
      then (NoError, with_msgs (with_hash s (match s_hash p with Some k => Some (k, 0%Z) | None => None end)) (s_msgs p))
      else (e, s)
    end
  end.

(** ConfigurationDatabase.cpp Delete of a child of the root (C31). *)
Definition delete (n : string) (c : config) : bool * config :=
  (existsb (fun e => String.eqb (e_name e) n) c, filter (fun e => negb (String.eqb (e_name e) n)) c).

(** Loader.cpp:127-131. *)
Fixpoint forget (l : list object) (c : config) : error * config :=
  match l with
  | [] => (NoError, c)
  | o :: l' =>
    let '(ok, c) := delete (String "+" (o_name o)) c in
    if ok then forget l' c else (ParametersError, c)
  end.

(** The parameters of Configure: whether everything up to the parser succeeds (tokens, Seek), Parser, whether
    MessageFunction is given when MessageDestination is. *)
Record data := Data { d_ok : bool; d_parser : option string; d_message : bool }.

(** Loader.cpp:61-142 and RealTimeLoader.cpp:56-66 Configure. *)
Definition configure (v : env) (d : data) (t : string) (s : state) : error * state :=
  if d_ok d then
    match d_parser d with
    | None => (ParametersError, s)
    | Some p =>
      let '(e, s) := reconfigure_text v t (with_parser s p) in
      let '(e, s) := if cleared e then post_init s else (e, s) in
      let '(e, s) :=
        if cleared e then
          let '(e, c) := forget (keep s) (snd (delete "+LoaderPostInit" (last s))) in (e, with_last s c)
        else (e, s) in
      let e := if cleared e then (if d_message d then NoError else ParametersError) else e in
      if cleared e then (if rt s then post_reconfigure s else (NoError, s)) else (e, s)
    end
  else (FatalError, s).

(** RealTimeLoader.cpp:94-131 Start with FirstState: the states, separated by colons, are given to the
    applications in order; [None] when the states end before the applications. *)
Fixpoint start (states : list string) (l : list object) : option (list (object * string)) :=
  match l, states with
  | [], _ => Some []
  | o :: l', st :: states' => match start states' l' with Some r => Some ((o, st) :: r) | None => None end
  | _ :: _, [] => None
  end.

(** The calls on a configured Loader. *)
Inductive op :=
| Reconfigure (v : env) (c : config)
| ReconfigureText (v : env) (t : string)
| ReconfigureHash (v : env) (t : string) (h : Z)
| ReloadLast
| GetSeed (c : Z).

Definition step (s : state) (o : op) : error * state :=
  match o with
  | Reconfigure v c => reconfigure v c s
  | ReconfigureText v t => reconfigure_text v t s
  | ReconfigureHash v t h => reconfigure_hash v t h s
  | ReloadLast => reload_last s
  | GetSeed c => (NoError, snd (get_seed c s))
  end.

Fixpoint run (s : state) (l : list op) : list error * state :=
  match l with
  | [] => ([], s)
  | o :: l' => let '(e, s) := step s o in let '(es, s) := run s l' in (e :: es, s)
  end.
End Loader.
