(** Which rows of a CSV file are rows of a table for a bands filter. *)

From Coq Require Import String List.
Import ListNotations.

(** The first cell, for the frequency, is empty, or it is a number and each of the other cells is empty or a number.  A blank line has no first cell. *)
Definition readable_row {K X} (parse : string -> option X) (parse_value : string -> option K) (row : list string) : Prop :=
  exists f cells, row = f :: cells /\
    (f = EmptyString \/ parse f <> None /\ forall c, In c cells -> c = EmptyString \/ parse_value c <> None).
