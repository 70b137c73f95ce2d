(** The lexical analyser.  Paths relative to Source/Core/BareMetal/L4Configuration.
    A character is its code (0-255); the input stream is the list of the characters not yet read, and it works (a
    read fails only at the end, seeking back after a look-ahead succeeds).  Comment markers are shorter than the
    16 characters of the buffers.  A token that contains the character NUL (which only a backslash can put there) is
    not cut at the NUL. *)
From Verif Require Import Base.
Open Scope Z_scope.
Open Scope list_scope.

(** L3Streams/GrammarInfo.h:50-131, as passed by ParserI.cpp:69-74; [isnum] is the success of TypeConvert to float64. *)
Record grammar := Gr { terminals : list Z; separators : list Z; one_line : list Z; multi_begin : list Z;
                       multi_end : list Z; keywords : list Z; isnum : list Z -> bool }.

Definition nl : Z := 10.
Definition quote : Z := 34.
Definition backslash : Z := 92.

(** StringHelper_CLIB_Generic.cpp:85-95 SearchChar is strchr: the NUL is found in every string. *)
Definition search_char (s : list Z) (c : Z) : bool := (c =? 0) || existsb (Z.eqb c) s.
(** 237-247 SearchString is strstr. *)
Fixpoint prefix (p s : list Z) : bool :=
  match p, s with
  | [], _ => true
  | a :: p', b :: s' => (a =? b) && prefix p' s'
  | _ :: _, [] => false
  end.
Fixpoint search_string (s sub : list Z) : bool :=
  prefix sub s || match s with [] => false | _ :: s' => search_string s' sub end.

(** LexicalAnalyzer.cpp:62-70 ReadCommentOneLine: what is left of the input. *)
Fixpoint read_one_line (r : list Z) : list Z :=
  match r with
  | [] => []
  | c :: r' => if c =? nl then r' else read_one_line r'
  end.
Definition nls (l : list Z) : Z := Z.of_nat (List.length (filter (Z.eqb nl) l)).
(** 99-113 the loop of ReadCommentMultipleLines; [buf] is the window of the last characters. *)
Fixpoint multi_loop (fin buf r : list Z) (line : Z) : list Z * Z :=
  if prefix fin buf && prefix buf fin then (r, line)
  else match r with
       | [] => ([], line)
       | c :: r' => multi_loop fin (tl buf ++ [c]) r' (if c =? nl then line + 1 else line)
       end.
(** 79-114 ReadCommentMultipleLines.  When the input ends within the first characters the code compares characters
    that were never set; whatever the outcome, the input is finished. *)
Definition read_multi (fin r : list Z) (line : Z) : list Z * Z :=
  let n := List.length fin in
  if Nat.ltb (List.length r) n then ([], line + nls r)
  else multi_loop fin (firstn n r) (skipn n r) (line + nls (firstn n r)).

(** 154-182 the separators before a token: None at the end of the input. *)
Fixpoint skip_seps (seps r : list Z) (line : Z) : option (Z * list Z) * Z :=
  match r with
  | [] => (None, line)
  | c :: r' => if search_char seps c then skip_seps seps r' (if c =? nl then line + 1 else line)
               else (Some (c, r'), line)
  end.
(** 186-209 the comparison with the one line marker: (comment, end of the input, characters read, rest). *)
Fixpoint match_one (pat : list Z) (i : nat) (c : Z) (buf r : list Z) : bool * bool * list Z * list Z :=
  match pat with
  | [] => (negb (Nat.eqb i 0), false, buf ++ [c], r)
  | p :: pat' =>
      if c =? p then match r with
                     | [] => (false, true, buf ++ [c], [])
                     | c' :: r' => match_one pat' (S i) c' (buf ++ [c]) r'
                     end
      else (false, false, buf ++ [c], r)
  end.
(** 217-243 the comparison with the multiple lines marker; [i] characters are compared so far, [buf] are the
    characters read before. *)
Fixpoint match_multi (pat : list Z) (i : nat) (buf r : list Z) : bool * bool * list Z * list Z :=
  match pat with
  | [] => (negb (Nat.eqb i 0), false, buf, r)
  | p :: pat' =>
      match nth_error buf i with
      | Some c => if c =? p then match_multi pat' (S i) buf r else (false, false, buf, r)
      | None => match r with
                | [] => (false, true, buf, [])
                | c :: r' => if c =? p then match_multi pat' (S i) (buf ++ [c]) r' else (false, false, buf ++ [c], r')
                end
      end
  end.

(** The result of SkipComment: not the end of the input, the buffer, the separator, the rest, the line. *)
Record skipped := Sk { s_ok : bool; s_buf : list Z; s_sep : Z; s_rest : list Z; s_line : Z }.
(** 185-261 from the first character on. *)
Definition comment_or_chars (G : grammar) (c : Z) (r : list Z) (line : Z) : skipped :=
  let '(com, eof, buf, r1) := match_one (one_line G) 0 c [] r in
  if com then Sk true [] nl (read_one_line r1) line
  else
    let '(com2, eof2, buf2, r2) := match_multi (multi_begin G) 0 buf r1 in
    if com2 then let '(r3, line') := read_multi (multi_end G) r2 line in Sk (negb eof) [] 0 r3 line'
    else Sk (negb (eof || eof2)) buf2 0 r2 line.
(** 133-264 SkipComment. *)
Definition skip_comment (G : grammar) (is_new : bool) (r : list Z) (line : Z) : skipped :=
  if is_new then
    match skip_seps (separators G) r line with
    | (None, line') => Sk false [] 0 [] line'
    | (Some (c, r'), line') => comment_or_chars G c r' line'
    end
  else match r with
       | [] => Sk false [] 0 [] line
       | c :: r' => if search_char (separators G) c then Sk true [] c r' line else comment_or_chars G c r' line
       end.

(** 271-299 EscapeChar. *)
Definition escape_char (c : Z) : bool * Z :=
  if c =? 110 then (true, 10) else if c =? 116 then (true, 9) else if c =? 114 then (true, 13)
  else if c =? 34 then (true, 34) else if c =? 92 then (true, 92) else (false, c).

(** Token.h:149-174 *)
Inductive kind := EOF | STRING | NUMBER | TERMINAL.
Record token := Tk { t_kind : kind; t_data : list Z; t_line : Z }.

(** 427-438: the quotes at either end of a string. *)
Definition strip_last (s : list Z) : list Z :=
  match rev s with c :: r => if c =? quote then rev r else s | [] => s end.
Definition strip (s : list Z) : list Z :=
  match s with
  | c :: s' => if c =? quote then strip_last s' else strip_last s
  | [] => []
  end.
(** 395-445 AddToken. *)
Definition is_digit (c : Z) : bool := (48 <=? c) && (c <=? 57).
Definition digit_first (s : list Z) : bool :=
  match s with
  | c :: s' => if (c =? 43) || (c =? 45) then match s' with d :: _ => is_digit d | [] => false end else is_digit c
  | [] => false
  end.
Definition add_token (G : grammar) (s : list Z) (is_string : bool) (line : Z) : list token :=
  match s with
  | [] => []
  | _ => if negb is_string && digit_first s && isnum G s then [Tk NUMBER s line] else [Tk STRING (strip s) line]
  end.

(** The analyser: the input not yet read, the tokens found but not yet returned, the line. *)
Record lexer := Lx { l_rest : list Z; l_queue : list token; l_line : Z }.

(** 486-494: the first characters of a token; None: end of the input (or no fuel left, which [input_fuel] excludes). *)
Fixpoint token_start (fuel : nat) (G : grammar) (r : list Z) (line : Z) : option (Z * list Z) * list Z * Z :=
  match fuel with
  | O => (None, r, line)
  | S f =>
      let s := skip_comment G true r line in
      let line' := if s_sep s =? nl then s_line s + 1 else s_line s in
      if s_ok s then match s_buf s with
                     | [] => token_start f G (s_rest s) line'
                     | c :: b => (Some (c, b), s_rest s, line')
                     end
      else (None, s_rest s, line')
  end.

(** The state of the loop 509-592: the rest, the characters of the buffer, the token so far, tokens already added. *)
Record scan := Sc { c_rest : list Z; c_buf : list Z; c_str : list Z; c_quoted : bool; c_esc : bool; c_term : Z;
                    c_sep : Z; c_line : Z; c_added : list token }.
(** 563-591: the next character; None: the loop ends. *)
Definition next_char (G : grammar) (s : scan) (c : Z) : option Z * scan :=
  let line := if c =? nl then c_line s + 1 else c_line s in
  let mk := fun r b sep l => Sc r b (c_str s) (c_quoted s) (c_esc s) (c_term s) sep l (c_added s) in
  match c_buf s with
  | c' :: b => (Some c', mk (c_rest s) b (c_sep s) line)
  | [] =>
      if c_quoted s then
        match c_rest s with
        | [] => (None, mk [] [] (c_sep s) line)
        | c' :: r => (Some c', mk r [] (c_sep s) line)
        end
      else
        let k := skip_comment G false (c_rest s) line in
        match s_ok k, s_buf k with
        | true, c' :: b => (Some c', mk (s_rest k) b (s_sep k) (s_line k))
        | _, _ => (None, mk (s_rest k) [] (s_sep k) (s_line k))
        end
  end.
(** 509-592 the loop; no fuel: the scan as it is. *)
Fixpoint scan_loop (fuel : nat) (G : grammar) (c : Z) (s : scan) : scan :=
  match fuel with
  | O => s
  | S f =>
      let continue := fun s' c' => match next_char G s' c' with
                                   | (Some d, s2) => scan_loop f G d s2
                                   | (None, s2) => s2
                                   end in
      let seps := if c_quoted s then [quote] else separators G in
      let terms := if c_quoted s then [quote] else terminals G in
      if search_char seps c && negb (c_esc s) then                                        (* 512-525 *)
        if c_quoted s then
          Sc (c_rest s) (c_buf s) (c_str s ++ [c]) true (c_esc s) (c_term s) c (c_line s) (c_added s)
        else
          let s' := Sc (c_rest s) (c_buf s) (c_str s) false (c_esc s) (c_term s) c (c_line s) (c_added s) in
          match c_str s with [] => continue s' c | _ => s' end
      else if search_char terms c && negb (c_esc s) then                                  (* 526-537 *)
        match c_buf s with
        | [] => Sc (c_rest s) [] (c_str s) (c_quoted s) (c_esc s) c (c_sep s) (c_line s) (c_added s)
        | _ => continue (Sc (c_rest s) (c_buf s) [] (c_quoted s) (c_esc s) 0 (c_sep s) (c_line s)
                            (c_added s ++ add_token G (c_str s) (c_quoted s) (c_line s) ++ [Tk TERMINAL [c] (c_line s)])) c
        end
      else if c_esc s then                                                                (* 538-562 *)
        let '(known, c') := escape_char c in
        continue (Sc (c_rest s) (c_buf s) (c_str s ++ (if known then [] else [backslash]) ++ [c']) (c_quoted s) false
                     (c_term s) (c_sep s) (c_line s) (c_added s)) c'
      else
        let q := match c_str s with [] => c_quoted s || (c =? quote) | _ => c_quoted s end in
        if c =? backslash then
          continue (Sc (c_rest s) (c_buf s) (c_str s) q true (c_term s) (c_sep s) (c_line s) (c_added s)) c
        else
          continue (Sc (c_rest s) (c_buf s) (c_str s ++ [c]) q false (c_term s) (c_sep s) (c_line s) (c_added s)) c
  end.

(** 597-650: the tokens at the end of a scan, and the rest of the input. *)
Definition finish (G : grammar) (s : scan) : list token * list Z :=
  let t := c_term s in
  let with_term := c_str s ++ (if t =? 0 then [] else [t]) in
  if match c_str s with [] => false | _ => true end && search_string (keywords G) with_term then
    ([Tk TERMINAL with_term (c_line s)], c_rest s)
  else
    let word := if match c_str s with [] => false | _ => true end && search_string (keywords G) (c_str s)
                then [Tk TERMINAL (c_str s) (c_line s)]
                else add_token G (c_str s) (c_quoted s) (c_line s) in
    if t =? 0 then (word, c_rest s)
    else
      let '(next, rest') := match c_rest s with [] => (0, []) | c :: r => (c, r) end in
      let two := t :: (if (next =? 32) || (next =? 0) then [] else [next]) in
      if search_string (keywords G) two then (word ++ [Tk TERMINAL two (c_line s)], rest')
      else (word ++ [Tk TERMINAL [t] (c_line s)], c_rest s).

Definition input_fuel (r : list Z) : nat := S (List.length r).
(** 479-663 one round of the loop of TokenizeInput, entered with ok = true. *)
Definition tokenize_round (G : grammar) (x : lexer) : lexer :=
  match token_start (input_fuel (l_rest x)) G (l_rest x) (l_line x) with
  | (None, r, line) => Lx r (l_queue x ++ [Tk EOF [] line]) line
  | (Some (c, b), r, line) =>
      let s := scan_loop (input_fuel (b ++ r)) G c (Sc r b [] false false 0 0 line []) in
      let '(toks, r') := finish G s in
      Lx r' (l_queue x ++ c_added s ++ toks) (if c_sep s =? nl then c_line s + 1 else c_line s)
  end.
(** The further rounds: ok is false since the first round, so each one adds an EOF token. *)
Fixpoint pad (n : nat) (x : lexer) : lexer :=
  match n with O => x | S n' => pad n' (Lx (l_rest x) (l_queue x ++ [Tk EOF [] (l_line x)]) (l_line x)) end.
(** 470-666 TokenizeInput(level). *)
Definition tokenize (G : grammar) (level : nat) (x : lexer) : lexer :=
  if Nat.ltb (List.length (l_queue x)) (S level) then
    let x1 := tokenize_round G x in pad (S level - List.length (l_queue x1)) x1
  else x.

(** 306-316 GetToken, 319-328 PeekToken (None: no such token). *)
Definition get_token (G : grammar) (x : lexer) : option token * lexer :=
  let x1 := tokenize G 0 x in
  match l_queue x1 with
  | t :: q => (Some t, Lx (l_rest x1) q (l_line x1))
  | [] => (None, x1)
  end.
Definition peek_token (G : grammar) (position : nat) (x : lexer) : option token * lexer :=
  let x1 := tokenize G position x in (nth_error (l_queue x1) position, x1).

(** 330-373 the constructors. *)
Definition lexer_of (text : list Z) : lexer := Lx text [] 1.
