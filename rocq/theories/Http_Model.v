(** BareMetal/L4HttpService/HttpDefinition.cpp and FileSystem/L4HttpService/HttpProtocol.cpp: percent encoding, and the
    part of ReadHeader that reads a request: command, path, query and options (lines 146-210).
    Streams are lists of characters: what has not been read yet of an input, what has been written of an output (the
    outputs here are StreamStrings, whose writes do not fail: C16). The socket's stream is the list of the characters it will
    deliver; its reads are complete (C18, C49).
    Not modelled: replies (a first word that starts with HTTP), the number of the HTTP version, and what ReadHeader does
    with the options afterwards (Content-Length, Connection, the body; 212-330). The database operations MoveToRoot,
    Delete, CreateRelative and Write succeed: each Write is recorded, in order (ConfigurationDatabase: C31). *)
From Verif Require Import Base Token_Model Fmt_Model.
Open Scope Z_scope.

(** Http2Convert, HttpDefinition.cpp 43: space # % < > & ~ , $ + = : / ? [ ] double-quote @ { } *)
Definition to_convert : list Z := [32; 35; 37; 60; 62; 38; 126; 44; 36; 43; 61; 58; 47; 63; 91; 93; 34; 64; 123; 125].

(** HttpEncode, 45-66: [out] is what has been written to the stream. The characters before the terminating NUL.
    A literal of the program is at address 0, which nothing here depends on. *)
Fixpoint encode (original : list Z) (out : list Z) (ret : bool) : option (list Z * bool) :=
  match original with
  | [] => Some (out, ret)
  | c :: r =>
    if c =? 0 then Some (out, ret)
    else if in_set to_convert c then
      match printf 0 [37; 115; 37; 50; 120] [AScalar (SString 0 [37]); AScalar (SInt (ITy 8 false) (uwrap 8 c))] with
      | None => None
      | Some (t, b) => encode r (out ++ t) b
      end
    else encode r (out ++ [c]) true
  end.
Definition http_encode (original : list Z) : option (list Z * bool) := encode original [] true.

(** HexDecode, 68-84 *)
Definition hex_decode (c : Z) : Z :=
  if (48 <=? c) && (c <=? 57) then c - 48
  else if (97 <=? c) && (c <=? 102) then c - 97 + 10
  else if (65 <=? c) && (c <=? 70) then c - 65 + 10
  else -1.

(** HttpDecode, 86-109. The two characters after a percent sign are read into an array that is not initialised: with
    one character left the second is not defined (None); with none left the percent sign is written. *)
Fixpoint decode (source : list Z) : option (list Z) :=
  match source with
  | [] => Some []
  | c :: r =>
    if c =? 37 then
      match r with
      | [] => Some [c]
      | [_] => None
      | a :: b :: r => match decode r with None => None | Some d => Some (uwrap 8 (hex_decode a * 16 + hex_decode b) :: d) end
      end
    else match decode r with None => None | Some d => Some (c :: d) end
  end.

(** A StreamString passed as a C string (its Buffer()): what is before the first NUL. *)
Fixpoint c_string (l : list Z) : list Z :=
  match l with [] => [] | c :: r => if c =? 0 then [] else c :: c_string r end.

(** BufferedStreamI::GetToken on these streams (Token_Model): result, terminator, what is left, output. *)
Definition next_char (l : list Z) : option (option Z * list Z) :=
  match l with [] => Some (None, []) | c :: r => Some (Some c, r) end.
Definition add_char (t : list Z) (c : Z) : option (bool * list Z) := Some (true, t ++ [c]).
Definition token (term : list Z) (skip : option (list Z)) (l out : list Z) : option (bool * Z * list Z * list Z) :=
  get_token next_char add_char (S (length l)) term skip l out.

(** BufferedStreamI::GetLine, BufferedStreamI.cpp 109-123, with N_CHARS_NEWLINE = 1 (Linux) *)
Definition get_line (skip_terminators : bool) (l : list Z) : option (bool * Z * list Z * list Z) :=
  token [10] (Some (if skip_terminators then [13] else [])) l [].

(** BuildUrl, HttpProtocol.cpp 517-559: the loop 539-551 over the decoded address *)
Fixpoint parts_loop (fuel : nat) (decoded path : list Z) : option (list Z) :=
  match fuel with
  | O => None
  | S fuel =>
    match token [92; 47] None decoded [] with
    | None => None
    | Some (false, _, _, _) => Some path
    | Some (true, term, decoded, part) =>
      let path := path ++ c_string part in
      parts_loop fuel decoded (if negb (term =? 0) then if 0 <? Z.of_nat (length part) then path ++ [46] else path else path)
    end
  end.
(** The terminator returned, what is left of the line, and the path. *)
Definition build_url (line : list Z) : option (Z * list Z * list Z) :=
  match token [32; 13; 10; 63] (Some [32; 13; 10; 63]) line [] with
  | None => None
  | Some (_, term, line, address) =>
    match decode address with
    | None => None
    | Some decoded =>
      match parts_loop (S (length decoded)) decoded [] with
      | None => None
      | Some path => Some (term, line, path)
      end
    end
  end.

(** One command, 580-603 (StoreCommands) and 851-878 (HandlePostApplicationForm): [value_end] are the terminators of the
    value. The result, and what has been written. *)
Definition store_command (value_end : list Z) (command : list Z) : option (bool * list (list Z * list Z)) :=
  if 3 <? Z.of_nat (length command) then
    match token [61] None command [] with
    | None => None
    | Some (false, _, _, _) => Some (false, [])
    | Some (true, _, command, variable) =>
      match token value_end None command [] with
      | None => None
      | Some (_, _, _, value) =>
        match decode value with
        | None => None
        | Some v =>
          match decode variable with
          | None => None
          | Some n => Some (true, [(c_string n, c_string v)])
          end
        end
      end
    end
  else Some (true, []).

(** StoreCommands, 577-609: the loop; a command that fails ends it *)
Fixpoint commands_loop (fuel : nat) (commands : list Z) : option (bool * list (list Z * list Z)) :=
  match fuel with
  | O => None
  | S fuel =>
    match token [38] None commands [] with
    | None => None
    | Some (false, _, _, _) => Some (true, [])
    | Some (true, _, commands, command) =>
      match store_command [] command with
      | None => None
      | Some (false, w) => Some (false, w)
      | Some (true, w) => match commands_loop fuel commands with None => None | Some (r, ws) => Some (r, w ++ ws) end
      end
    end
  end.
(** 561-613: result, what is left of the line, what has been written in InputCommands *)
Definition store_commands (line : list Z) : option (bool * list Z * list (list Z * list Z)) :=
  match token [32; 9] None line [] with
  | None => None
  | Some (_, _, line, commands) =>
    match commands_loop (S (length commands)) commands with
    | None => None
    | Some (r, w) => Some (r, line, w)
    end
  end.

(** HandlePostApplicationForm, 839-887: after a command that fails the loop goes on, and what it held stays in the
    stream [command], before the next one (878-880; the token was consumed to its end, 854) *)
Fixpoint form_loop (fuel : nat) (line command : list Z) (ret : bool) : option (bool * list (list Z * list Z)) :=
  match fuel with
  | O => None
  | S fuel =>
    match token [38] None line command with
    | None => None
    | Some (false, _, _, _) => Some (ret, [])
    | Some (true, _, line, command) =>
      match store_command [59] command with
      | None => None
      | Some (r, w) => match form_loop fuel line (if r then [] else command) r with None => None | Some (r, ws) => Some (r, w ++ ws) end
      end
    end
  end.
Definition post_form (content : list Z) : option (bool * list (list Z * list Z)) :=
  match get_line true content with
  | None => None
  | Some (false, _, _, _) => Some (true, [])
  | Some (true, _, _, line) => form_loop (S (length line)) line [] true
  end.

(** StoreInputOptions, 615-673: one line, 647-667 *)
Definition store_option (line : list Z) : option (list (list Z * list Z)) :=
  match token [32; 9; 58] None line [] with
  | None => None
  | Some (false, _, _, _) => Some []
  | Some (true, _, line, key) =>
    match token [32; 9] None line [] with
    | None => None
    | Some (_, _, line, value) =>
      let value := if 0 <? Z.of_nat (length line) then value ++ [32] else value in
      match token [] None line value with
      | None => None
      | Some (_, _, _, value) => Some [(c_string key, c_string value)]
      end
    end
  end.
(** The loop 629-670; when the socket delivers nothing more it does so for the five attempts. Result, what is left, what
    has been written in InputOptions. *)
Fixpoint options_loop (fuel : nat) (stream : list Z) : option (bool * list Z * list (list Z * list Z)) :=
  match fuel with
  | O => None
  | S fuel =>
    match get_line true stream with
    | None => None
    | Some (false, _, stream, _) => Some (false, stream, [])
    | Some (true, _, stream, line) =>
      if 0 <? Z.of_nat (length line) then
        match store_option line with
        | None => None
        | Some w => match options_loop fuel stream with None => None | Some (r, stream, ws) => Some (r, stream, w ++ ws) end
        end
      else Some (true, stream, [])
    end
  end.

Inductive command := Get | Put | Post | Head.
(** RetrieveHttpCommand, 463-515: None, not understood; the reply, 479-508, is not modelled *)
Inductive first_word := WCommand (c : command) | WReply | WUnknown.
Definition eqb_text (a b : list Z) : bool := if list_eq_dec Z.eq_dec a b then true else false.
Definition retrieve (c : list Z) : first_word :=
  if eqb_text c [71; 69; 84] then WCommand Get
  else if eqb_text c [80; 85; 84] then WCommand Put
  else if eqb_text c [80; 79; 83; 84] then WCommand Post
  else if eqb_text c [72; 69; 65; 68] then WCommand Head
  else if eqb_text (firstn 4 c) [72; 84; 84; 80] then WReply
  else WUnknown.

(** What the pages see: GetHttpCommand(), GetPath(), InputCommands, InputOptions. *)
Record request := Request { method : command; path : list Z; commands : list (list Z * list Z); options : list (list Z * list Z) }.
Inductive header := Read (r : request) (stream : list Z) | Failed | Reply.

(** ReadHeader, 146-210. [before]: the InputCommands that the previous request of this connection left (the protocol
    object lives as long as the connection, HttpService.cpp 161-203). The version needs five characters (192: the text after
    them is read). *)
Definition read_header (before : list (list Z * list Z)) (stream : list Z) : option header :=
  match get_line false stream with
  | None => None
  | Some (false, _, _, _) => Some Failed
  | Some (true, _, stream, line) =>
    match token [32; 13; 10; 9] (Some [32; 13; 10; 9]) line [] with
    | None => None
    | Some (_, _, line, word) =>
      match retrieve word with
      | WReply => Some Reply
      | WUnknown => Some Failed
      | WCommand m =>
        match build_url line with
        | None => None
        | Some (term, line, path) =>
          match (if term =? 63 then store_commands line else Some (true, line, before)) with
          | None => None
          | Some (false, _, _) => Some Failed
          | Some (true, line, cmds) =>
            match token [32; 13; 10; 9] (Some [32; 13; 10; 9]) line [] with
            | None => None
            | Some (false, _, _, _) => Some Failed
            | Some (true, _, _, version) =>
              if Z.of_nat (length version) <? 5 then None
              else
                match options_loop (S (length stream)) stream with
                | None => None
                | Some (false, _, _) => Some Failed
                | Some (true, stream, opts) => Some (Read (Request m path cmds opts) stream)
                end
            end
          end
        end
      end
    end
  end.

(** The texts that RetrieveHttpCommand compares with, 467-478. *)
Definition command_text (m : command) : list Z :=
  match m with Get => [71; 69; 84] | Put => [80; 85; 84] | Post => [80; 79; 83; 84] | Head => [72; 69; 65; 68] end.
