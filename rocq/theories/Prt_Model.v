(** Source/Core/BareMetal/L3Streams/IOBuffer.cpp: PrintStructuredDataInterface 828-912, which Printf calls for a configuration database ("%!", "%J!", "%X!"), with the functions
    by grammar 145-430, IOBufferStandardPrint.cpp 80-109, IOBufferJsonPrint.cpp 100-145 and IOBufferXMLPrint.cpp 85-130.
    The database is that of C31, the print of the names and of the values is that of C46; their simplifications hold here. GetType of a child is Read without a conversion:
    there is a value or there is a directory. *)
From Coq Require Import String Ascii.
From Verif Require Import Base ConfigDB_Model Slk_Model Cfg_Model Fmt_Model Txt_Model.
Open Scope string_scope. Open Scope nat_scope. Open Scope list_scope.

Section Print.
Context (H : string -> Z) (literal : Z).
Notation db := (db (value scalar)).
(** A value as an argument: the elements by rows *)
Fixpoint by_rows (rows cols : nat) (l : list scalar) : list (list scalar) := match rows with O => [] | S k => firstn cols l :: by_rows k cols (skipn cols l) end.
Definition to_arg (v : value scalar) : arg :=
  match vdims v with 0 => AScalar (hd SNull (velems v)) | 1 => AVector (velems v) | _ => AMatrix (by_rows (vrows v) (vcols v) (velems v)) end.
(** PrintFormatted without and with one argument *)
Definition text (s : string) : outcome := printf literal (chars s) [].
Definition with_name (s : string) (name : string) : outcome := printf literal (chars s) [AScalar (SString literal (chars name))].
Definition nlr : outcome := printf literal [13; 10]%Z [].
(** The loops that indent *)
Fixpoint indent (level : nat) : outcome := match level with O => put [] | S k => andthen (text "    ") (indent k) end.
(** PrintOpenAssignment 392-409, PrintCloseAssignment 411-430, PrintVariableSeparator and PrintBlockSeparator, PrintOpenBlock, PrintCloseBlock *)
Definition choose (f : fd) (standard json xml : outcome) : outcome :=
  if Z.eqb (desiredGrammar f) 0 then standard else if Z.eqb (desiredGrammar f) 1 then json else if Z.eqb (desiredGrammar f) 2 then xml else fails.
Definition open_assignment (f : fd) (name : string) : outcome := choose f (andthen (put (chars name)) (put (chars " ="))) (andthen (put [34]%Z) (andthen (put (chars name)) (andthen (put [34]%Z) (put [58]%Z)))) (with_name "<%s>" name).
Definition close_assignment (f : fd) (name : string) : outcome := choose f (put []) (put []) (with_name "</%s>" name).
Definition item_separator (f : fd) : outcome := choose f (put []) (put [44]%Z) (put []).
Definition open_block (f : fd) (name : string) : outcome := choose f (with_name "%s = {" name) (with_name """%s"": {" name) (with_name "<%s>" name).
Definition close_block (f : fd) (name : string) : outcome := choose f (put [125]%Z) (put [125]%Z) (with_name "</%s>" name).

(** What is written, what is returned, the database (its current node has moved); None: undefined, or out of fuel *)
Definition printed := option (list Z * bool * db).
Definition emit (o : outcome) (d : db) (k : printed) : printed :=
  match o with
  | Some (x, true) => match k with Some (y, b, d) => Some (x ++ y, b, d) | None => None end
  | Some (x, false) => Some (x, false, d)
  | None => None
  end.
(** One child: 832-910; [rest]: the children after it, [deeper]: PrintStructuredDataInterface on the current node one level deeper *)
Definition child (f : fd) (level : nat) (last : bool) (i : nat) (d : db) (deeper rest : db -> printed) : printed :=
  match step H d (GetChildName i) with
  | Some (Name (Some name), _) =>
    match step H d (Read name) with
    | Some (Value (Some v), _) =>
      emit (indent level) d (emit (open_assignment f name) d (emit (text " ") d (emit (printf literal (chars "%#!") [to_arg v]) d (emit (close_assignment f name) d
      (emit (if last then put [] else item_separator f) d (emit nlr d (rest d)))))))
    | Some (Value None, _) =>
      match step H d (MoveRelative name) with
      | Some (Ok true, d1) =>
        emit (indent level) d1 (emit (open_block f name) d1 (emit nlr d1
        (match deeper d1 with
         | Some (x, true, d2) =>
           match step H d2 (MoveToAncestor 1) with
           | Some (Ok true, d3) =>
             emit (put x) d3 (emit (indent level) d3 (emit (close_block f name) d3 (emit (if last then put [] else item_separator f) d3 (emit nlr d3 (rest d3)))))
           | Some (Ok false, d3) => Some (x, false, d3)
           | _ => None
           end
         | r => r
         end)))
      | Some (Ok false, _) => rest d
      | _ => None
      end
    | _ => None
    end
  | _ => None
  end.
(** The loop 831: [m] children are left, the next one is the [i]-th *)
Fixpoint children (f : fd) (level : nat) (deeper : db -> printed) (m i : nat) (d : db) : printed :=
  match m with
  | O => Some ([], true, d)
  | S k => child f level (k =? 0) i d deeper (children f level deeper k (S i))
  end.
(** PrintStructuredDataInterface; [fuel]: more than the depth *)
Fixpoint print_structured (fuel : nat) (f : fd) (level : nat) (d : db) : printed :=
  match fuel with
  | O => None
  | S k => match step H d GetNumberOfChildren with
           | Some (Number n, d) => children f level (print_structured k f (S level)) n 0 d
           | _ => None
           end
  end.
(** Printf(format, database) with "%!", "%J!" or "%X!": the descriptor of the conversion *)
Definition print_database (fuel : nat) (format : string) (d : db) : printed :=
  match initialise_from_string (chars format) with Some (f, []) => print_structured fuel f 0 d | _ => None end.
End Print.
