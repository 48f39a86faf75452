(** Model of CSV texts: Python's [csv.writer(f).writerow(row)] and [csv.reader(f)] with their default dialect (Modules/_csv.c of CPython 3.6-3.12; not
    code of /repo), with which /repo/sumpf/_internal/_persistence/_signal_writers.py:143-148, _spectrum_writers.py:107-112, _filter_writers.py:399-405
    write and _signal_readers.py:106-123, _spectrum_readers.py:114-132, _filter_readers.py:254-270 read files, and of the lines of a file that has been
    opened with [newline=""].

    A text is the list of its characters, and a character is its Unicode code point.  The encoding of the platform, in which texts are stored, is not
    modelled. *)

From Coq Require Import ZArith List Bool.
From Verif.Model Require Import Py.
Import ListNotations.
Open Scope list_scope.
Open Scope Z_scope.

Definition comma : Z := 44.
Definition quote : Z := 34.
Definition cr : Z := 13.
Definition lf : Z := 10.

(** ** Writing *)

(** _csv.c, [join_append_data]: a cell with a comma, a quotation mark or a character of the line terminator is quoted, and its quotation marks are
    doubled. *)
Definition special (c : Z) : bool := (c =? comma) || (c =? quote) || (c =? cr) || (c =? lf).
Definition escaped (c : Z) : list Z := if c =? quote then [quote; quote] else [c].
Definition write_cell (cell : list Z) : list Z := if existsb special cell then quote :: flat_map escaped cell ++ [quote] else cell.

Fixpoint join (cells : list (list Z)) : list Z :=
  match cells with
  | [] => []
  | [c] => c
  | c :: cells => c ++ comma :: join cells
  end.

(** _csv.c, [csv_writerow]: if there are cells, but nothing has been written, there is only one empty cell, which is quoted. *)
Definition write_row (cells : list (list Z)) : list Z :=
  let record := join (map write_cell cells) in
  (match cells, record with
   | _ :: _, [] => [quote; quote]
   | _, _ => record
   end) ++ [cr; lf].

Definition write_rows (rows : list (list (list Z))) : list Z := flat_map write_row rows.

(** ** Reading *)

(** The lines of a file, that has been opened with [newline=""]: they end after a line feed, a carriage return or both, and are not changed. *)
Fixpoint lines (text : list Z) : list (list Z) :=
  match text with
  | [] => []
  | c :: text =>
      if c =? lf then [c] :: lines text
      else if c =? cr then
        match text with
        | d :: text' => if d =? lf then [c; d] :: lines text' else [c] :: lines text
        | [] => [[c]]
        end
      else match lines text with [] => [[c]] | l :: ls => (c :: l) :: ls end
  end.

(** The states of the parser; those for escape characters are left out, because the dialect has no escape character. *)
Inductive state := StartRecord | StartField | InField | InQuotedField | QuoteInQuotedField | EatCrnl.
Record parser := Parser { p_state : state; p_field : list Z; p_fields : list (list Z) }.
Definition fresh : parser := Parser StartRecord [] [].

Section Reading.
Variable nul : bool.     (* Python 3.11 and later versions accept NUL characters *)
Variable limit : Z.      (* [csv.field_size_limit()], which is 131072 by default *)

(** [parse_save_field], with the following state *)
Definition save (p : parser) (s : state) : parser := Parser s [] (p_fields p ++ [p_field p]).

(** [parse_add_char], with the following state.  [csv.Error] is not among the exceptions of the model, [RuntimeError] stands for it. *)
Definition add (p : parser) (c : Z) (s : state) : result parser :=
  if limit <=? zlen (p_field p) then Err RuntimeError else Ok (Parser s (p_field p ++ [c]) (p_fields p)).

(** The cases for [START_FIELD] and, in a quoted field, for a character after a quotation mark *)
Definition start_field (p : parser) (c : Z) : result parser :=
  if (c =? lf) || (c =? cr) then Ok (save p EatCrnl)
  else if c =? quote then Ok (Parser InQuotedField (p_field p) (p_fields p))
  else if c =? comma then Ok (save p StartField)
  else add p c InField.

(** [parse_process_char] for a character *)
Definition process (p : parser) (c : Z) : result parser :=
  match p_state p with
  | StartRecord => if (c =? lf) || (c =? cr) then Ok (Parser EatCrnl (p_field p) (p_fields p)) else start_field p c
  | StartField => start_field p c
  | InField =>
      if (c =? lf) || (c =? cr) then Ok (save p EatCrnl)
      else if c =? comma then Ok (save p StartField)
      else add p c InField
  | InQuotedField => if c =? quote then Ok (Parser QuoteInQuotedField (p_field p) (p_fields p)) else add p c InQuotedField
  | QuoteInQuotedField =>
      if c =? quote then add p c InQuotedField
      else if c =? comma then Ok (save p StartField)
      else if (c =? lf) || (c =? cr) then Ok (save p EatCrnl)
      else add p c InField
  | EatCrnl => if (c =? lf) || (c =? cr) then Ok p else Err RuntimeError
  end.

(** [parse_process_char] for the end of a line *)
Definition end_of_line (p : parser) : parser :=
  match p_state p with
  | StartRecord => p
  | StartField | InField | QuoteInQuotedField => save p StartRecord
  | InQuotedField => p
  | EatCrnl => Parser StartRecord (p_field p) (p_fields p)
  end.

(** [Reader_iternext], the loop over the characters of a line *)
Fixpoint feed (p : parser) (line : list Z) : result parser :=
  match line with
  | [] => Ok (end_of_line p)
  | c :: line => if negb nul && (c =? 0) then Err RuntimeError else p <- process p c ;; feed p line
  end.

(** [Reader_iternext] until the end of the file: a row is complete, when the parser is in its initial state after the end of a line. *)
Fixpoint records (p : parser) (ls : list (list Z)) : result (list (list (list Z))) :=
  match ls with
  | [] =>
      match p_field p, p_state p with
      | _ :: _, _ | _, InQuotedField => Ok [p_fields p ++ [p_field p]]
      | _, _ => Ok []
      end
  | l :: ls =>
      p <- feed p l ;;
      match p_state p with
      | StartRecord => rows <- records fresh ls ;; Ok (p_fields p :: rows)
      | _ => records p ls
      end
  end.

Definition read_rows (text : list Z) : result (list (list (list Z))) := records fresh (lines text).
End Reading.
