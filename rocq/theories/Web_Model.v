(** Source/Core/FileSystem/L4HttpService: HttpObjectBrowser.cpp (who answers a request), HttpDirectoryResource.cpp (which file
    is sent), HttpDataExportI.cpp, the choice and the body loop of HttpService.cpp and HttpProtocol.cpp.
    Simplifications: the socket accepts everything that is written to it; of a reply only the status, the type, the length and
    the body are kept; the JSON text of an object is represented by the identity of the object; the working directory is the
    root of the file system, which has no links; the buffers of File (C18) are not repeated: a read gives the next bytes. *)
From Coq Require Import String Ascii.
From Verif Require Import Base Paths Container_Model.
Open Scope string_scope. Open Scope nat_scope. Open Scope list_scope.

(** ** The file system (POSIX) *)
Inductive node := NFile (content : list Z) | NDir (size : Z) (entries : list (string * node)).
Fixpoint entry (t : string) (l : list (string * node)) : option node :=
  match l with [] => None | (n, x) :: r => if String.eqb n t then Some x else entry t r end.
Fixpoint node_at (n : node) (p : list string) : option node :=
  match p with
  | [] => Some n
  | t :: r => match n with NDir _ l => match entry t l with Some x => node_at x r | None => None end | NFile _ => None end
  end.
Definition slash : ascii := "/"%char.
(** the components of a path *)
Fixpoint split (s : string) : list string :=
  match s with
  | EmptyString => [EmptyString]
  | String c r => if Ascii.eqb c slash then EmptyString :: split r
                  else match split r with [] => [String c EmptyString] | t :: q => String c t :: q end
  end.
(** open(2): [stack] is the directory reached so far, innermost first *)
Fixpoint resolve (fs : node) (stack : list string) (comps : list string) : option (list string) :=
  match comps with
  | [] => Some stack
  | c :: r =>
    match node_at fs (rev stack) with
    | Some (NDir _ _) =>
      if String.eqb c "" || String.eqb c "." then resolve fs stack r
      else if String.eqb c ".." then resolve fs (tl stack) r
      else match node_at fs (rev (c :: stack)) with Some _ => resolve fs (c :: stack) r | None => None end
    | _ => None
    end
  end.
Definition os_open (fs : node) (path : string) : option node :=
  match resolve fs [] (split path) with Some st => node_at fs (rev st) | None => None end.
(** BasicFile::Size (Linux/BasicFile.cpp): fstat; a directory has a size too *)
Definition os_size (n : node) : Z := match n with NFile c => Z.of_nat (length c) | NDir s _ => s end.
(** SingleBufferedStream::Read 118-186 and BasicFile::Read 317-331: read(2) of a directory fails and the size becomes 0 *)
Definition read (n : node) (pos : nat) (size : Z) : bool * list Z :=
  match n with NFile c => (true, firstn (Z.to_nat size) (skipn pos c)) | NDir _ _ => (false, []) end.

(** ** HttpProtocol::WriteHeader 435-454: the body. [turns]: how many turns of the loop are made; None: it has not ended. *)
Fixpoint send (turns : nat) (n : node) (pos : nat) (to_write : Z) (out : list Z) : option (list Z) :=
  match turns with
  | O => None
  | S t =>
    if (to_write =? 0)%Z then Some out
    else let '(ok, got) := read n pos (Z.min to_write 1024) in
         send t n (pos + length got) (to_write - Z.of_nat (length got))%Z (if ok then out ++ got else out)
  end.

(** ** Types of files: HttpDirectoryResource.cpp 165-210 *)
Definition lower (c : ascii) : ascii := let n := nat_of_ascii c in if (65 <=? n) && (n <=? 90) then ascii_of_nat (n + 32) else c.
Fixpoint lower_text (s : string) : string := match s with EmptyString => EmptyString | String c r => String (lower c) (lower_text r) end.
Fixpoint drop (n : nat) (s : string) : string := match n, s with O, _ => s | S k, String _ r => drop k r | S _, EmptyString => EmptyString end.
(** CheckExtension 165-175 *)
Definition check_extension (name ext : string) : bool :=
  (String.length ext <=? String.length name) && String.eqb (lower_text (drop (String.length name - String.length ext) name)) (lower_text ext).
(** ServeFile 184-210 *)
Definition mime (name : string) : string :=
  if check_extension name ".html" || check_extension name ".htm" then "text/html"
  else if check_extension name ".txt" then "text/plain"
  else if check_extension name ".csv" then "text/csv"
  else if check_extension name ".css" then "text/css"
  else if check_extension name ".gif" then "image/gif"
  else if check_extension name ".jpeg" || check_extension name ".jpg" then "image/jpg"
  else if check_extension name ".jnlp" then "image/jnlp"
  else if check_extension name ".js" then "application/x-javascript"
  else "binary".

(** ** Objects *)
(** the Root of a browser (HttpObjectBrowser::Initialise 65-102): "." itself, "/" the whole database, or a container *)
Inductive root := Here | Database | Container (objects : list obj).
Inductive kind :=
| Plain                                                                          (* not a HttpDataExportI *)
| Page                                                                           (* any other HttpDataExportI *)
| Directory (base : string)                                                      (* HttpDirectoryResource *)
| Browser (r : root) (realm : option (string -> bool)) (close_on_fail : bool).   (* HttpObjectBrowser; realm: HttpRealmI::Validate *)
Record world := World { db : list obj; kinds : nat -> kind; fs : node }.
(** A request (HttpProtocol): text or structured data, HEAD, the parts of the URL joined by dots (BuildUrl, C50),
    the command named path, the option Authorization. *)
Record request := Request { text : bool; head : bool; path : option string; authorization : option string }.
Inductive reply :=
| File (type : string) (length : Z) (body : list Z)    (* 200, Content-Type, Content-Length *)
| Values (i : nat)                                     (* 200, the values of object i *)
| Index (i : nat) (objects : list nat)                 (* 200, the browser i and the objects in its root *)
| Listing (l : list (string * bool))                   (* 200, names, and which are directories *)
| Forward (i : nat) (url : string)                     (* what the HttpDataExportI i answers to the rest of the URL *)
| Not_found                                            (* 404, Connection: close *)
| Unauthorised (closed : bool)                         (* 401 *)
| Silence                                              (* nothing is written *)
| Unfinished                                           (* the body loop has not ended *)
| Stuck.                                               (* out of fuel *)
(** replyNotFound of each HttpDirectoryResource *)
Definition flags := nat -> bool.
Definition set_flag (f : flags) (i : nat) (b : bool) : flags := fun j => if j =? i then b else f j.

(** ServeFile 177-259; false in front: the file could not be opened *)
Definition serve_file (turns : nat) (w : world) (f : flags) (q : request) (i : nat) (name : string) : bool * reply :=
  match os_open (fs w) name with
  | None => (false, if f i then Not_found else Silence)
  | Some n =>
    (true, if head q then File (mime name) 0 []
           else let size := (os_size n mod 2 ^ 32)%Z in
                match send turns n 0 size [] with None => Unfinished | Some body => File (mime name) size body end)
  end.
(** GetAsText 152-163 *)
Definition full_path (base path : string) : string := (base ++ "/" ++ path)%string.
Definition directory_text (turns : nat) (w : world) (f : flags) (q : request) (i : nat) (base : string) : bool * reply :=
  serve_file turns w f q i (full_path base (match path q with Some p => p | None => "index.html" end)).
(** GetAsStructuredData 71-149 (the order of the scanner and the sizes are not kept) *)
Definition directory_data (w : world) (q : request) (base : string) : reply :=
  let full := full_path base (match path q with Some p => p | None => "" end) in
  match os_open (fs w) full with
  | Some (NDir _ l) => Listing (map (fun e => (fst e, match snd e with NDir _ _ => true | NFile _ => false end)) l)
  | _ => Listing [(full, false)]
  end.

(** ** HttpObjectBrowser *)
(** CheckSecurity 125-178 and HttpProtocol::SecurityCheck 920-941 *)
Definition allowed (realm : option (string -> bool)) (q : request) : bool :=
  match realm with None => true | Some validate => match authorization q with Some key => validate key | None => false end end.
Definition root_objects (w : world) (self : obj) (r : root) : list obj :=
  match r with Here => match okids self with Some k => k | None => [] end | Database => db w | Container l => l end.
(** FindReference 358-378 *)
Definition find_reference (self : obj) (objects : list obj) (url : string) : option obj :=
  if String.eqb url "" then Some self else match find_path objects url false with Some o => o | None => None end.
(** StringHelper::SearchLastChar(url, '.'): what is before and after *)
Fixpoint last_dot (s : string) : option (string * string) :=
  match s with
  | EmptyString => None
  | String c r => match last_dot r with Some (b, a) => Some (String c b, a) | None => if Ascii.eqb c dot then Some (EmptyString, r) else None end
  end.
(** FindTarget 180-223; None: out of fuel *)
Fixpoint find_target (fuel : nat) (look : string -> option obj) (url rest : string) : option (option (obj * string)) :=
  match fuel with
  | O => None
  | S k =>
    match look url with
    | Some o => Some (Some (o, rest))
    | None =>
      match last_dot url with
      | None => Some None
      | Some (before, after) => find_target k look before (if String.eqb rest "" then after else (after ++ "." ++ rest)%string)
      end
    end
  end.
(** GetAsText 324-340: the first directory among the children that has the file *)
Fixpoint try_directories (turns : nat) (w : world) (f : flags) (q : request) (l : list obj) : reply * flags :=
  match l with
  | [] => (Not_found, f)
  | o :: r =>
    match kinds w (oid o) with
    | Directory base =>
      let f := set_flag f (oid o) false in
      let '(handled, a) := directory_text turns w f q (oid o) base in
      if handled then (a, f) else try_directories turns w f q r
    | _ => try_directories turns w f q r
    end
  end.
(** GetAsText 317-356 and GetAsStructuredData 226-315 of the object [self], given the rest of the URL *)
Fixpoint answer (fuel turns : nat) (w : world) (f : flags) (q : request) (self : obj) (url : string) : reply * flags :=
  match fuel with
  | O => (Stuck, f)
  | S k =>
    match kinds w (oid self) with
    | Plain => (Not_found, f)
    | Page => (Forward (oid self) url, f)
    | Directory base => (if text q then snd (directory_text turns w f q (oid self) base) else directory_data w q base, f)
    | Browser r realm close =>
      if allowed realm q then
        let objects := root_objects w self r in
        match find_target (S (String.length url)) (find_reference self objects) url "" with
        | None => (Stuck, f)
        | Some None => (Not_found, f)
        | Some (Some (o, rest)) =>
          if oid o =? oid self then
            if text q then try_directories turns w f q (match okids self with Some l => l | None => [] end)
            else (Index (oid self) (map oid objects), f)
          else match kinds w (oid o) with
               | Plain => (if text q then Not_found else Values (oid o), f)
               | _ => answer k turns w f q o rest
               end
        end
      else (Unauthorised close, f)
    end
  end.
(** HttpService::ClientService 147-214: the web root answers *)
Definition handle (turns : nat) (w : world) (f : flags) (self : obj) (q : request) (url : string) : reply * flags :=
  answer (S (String.length url)) turns w f q self url.
(** Requests one after the other, from the start of the service (HttpDirectoryResource.cpp 48-50) *)
Fixpoint handle_all (turns : nat) (w : world) (f : flags) (self : obj) (l : list (request * string)) : list reply * flags :=
  match l with
  | [] => ([], f)
  | (q, url) :: r => let '(a, f1) := handle turns w f self q url in let '(b, f2) := handle_all turns w f1 self r in (a :: b, f2)
  end.
Definition start : flags := fun _ => true.
