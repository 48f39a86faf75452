(** Specification vocabulary for CSV texts, after RFC 4180: rows are separated by line breaks and cells by commas; cells may be enclosed in quotation
    marks, and a quotation mark in such a cell is written twice. *)

From Coq Require Import ZArith List Bool.
From Verif.Model Require Import Py.
Import ListNotations.
Open Scope list_scope.
Open Scope Z_scope.

(** The characters without a special meaning: neither a line feed, a carriage return, a quotation mark nor a comma *)
Definition ordinary (c : Z) : Prop := c <> 10 /\ c <> 13 /\ c <> 34 /\ c <> 44.

Inductive doubled : list Z -> list Z -> Prop :=
| doubled_nil : doubled [] []
| doubled_quote t c : doubled t c -> doubled (34 :: 34 :: t) (34 :: c)
| doubled_other x t c : x <> 34 -> doubled t c -> doubled (x :: t) (x :: c).

(** The text of a cell *)
Inductive cell_text : list Z -> list Z -> Prop :=
| plain_cell c : Forall ordinary c -> cell_text c c
| quoted_cell t c : doubled t c -> cell_text (34 :: t ++ [34]) c.

(** The text of some cells with commas between them *)
Inductive cells_text : list Z -> list (list Z) -> Prop :=
| last_cell t c : cell_text t c -> cells_text t [c]
| more_cells t c t' cs : cell_text t c -> cells_text t' cs -> cells_text (t ++ 44 :: t') (c :: cs).

(** The text of a row; an empty line is a row without cells. *)
Inductive row_text : list Z -> list (list Z) -> Prop :=
| empty_line : row_text [] []
| row_of_cells t cs : t <> [] -> cells_text t cs -> row_text t cs.

(** Line breaks: line feeds, carriage returns, that are not followed by a line feed, and both *)
Inductive line_break : list Z -> list Z -> Prop :=
| break_lf rest : line_break [10] rest
| break_cr rest : (forall r, rest <> 10 :: r) -> line_break [13] rest
| break_crlf rest : line_break [13; 10] rest.

(** The text of a file; there may or may not be a line break after the last row. *)
Inductive file_text : list Z -> list (list (list Z)) -> Prop :=
| no_rows : file_text [] []
| last_row t cs : t <> [] -> row_text t cs -> file_text t [cs]
| more_rows t cs b rest rows : row_text t cs -> line_break b rest -> file_text rest rows -> file_text (t ++ b ++ rest) (cs :: rows).

(** All line breaks are pairs of a carriage return and a line feed, as RFC 4180 demands, and the last row has one. *)
Inductive strict_text : list Z -> list (list (list Z)) -> Prop :=
| strict_nil : strict_text [] []
| strict_cons t cs rest rows : row_text t cs -> strict_text rest rows -> strict_text (t ++ [13; 10] ++ rest) (cs :: rows).

(** The texts of all cells have at most [limit] characters. *)
Definition within (limit : Z) (rows : list (list (list Z))) : Prop := forall cs c, In cs rows -> In c cs -> zlen c <= limit.

(** Either NUL characters are accepted, or there are none. *)
Definition readable (nul : bool) (text : list Z) : Prop := nul = true \/ ~ In 0 text.

(** [c] begins with [p]. *)
Definition begins {A} (p c : list A) : Prop := exists q, c = p ++ q.

(** The beginning of a row: some cells and the beginning of the following one *)
Definition partial_row (p cs : list (list Z)) : Prop :=
  exists before b c after, p = before ++ [b] /\ cs = before ++ c :: after /\ begins b c.

(** What is left of some rows, after a file has been truncated: the first rows and possibly the beginning of the following one *)
Definition remainder (left rows : list (list (list Z))) : Prop :=
  begins left rows \/ exists before p cs after, left = before ++ [p] /\ rows = before ++ cs :: after /\ partial_row p cs.
