(** Specification vocabulary for texts: reading a decimal number and the English ordinal suffixes. *)

From Coq Require Import String Ascii ZArith List Bool.
Open Scope string_scope.
Open Scope Z_scope.

(** The value of a decimal digit. *)
Definition digit_value (c : ascii) : option Z :=
  let n := Z.of_nat (nat_of_ascii c) - 48 in
  if (0 <=? n) && (n <=? 9) then Some n else None.

(** Reading a sequence of decimal digits from left to right; [acc] is what has been read before. *)
Fixpoint read_digits (acc : Z) (s : string) : option Z :=
  match s with
  | EmptyString => Some acc
  | String c t => match digit_value c with Some d => read_digits (10 * acc + d) t | None => None end
  end.

(** Reading an integer in decimal notation. *)
Definition read (s : string) : option Z :=
  match s with
  | EmptyString => None
  | String "-" EmptyString => None
  | String "-" t => option_map Z.opp (read_digits 0 t)
  | _ => read_digits 0 s
  end.

(** The English ordinal suffixes: 11, 12 and 13 are exceptions among the numbers which end with 1, 2 or 3. *)
Definition ordinal_suffix (z : Z) : string :=
  let n := Z.abs z in
  if (11 <=? n mod 100) && (n mod 100 <=? 13) then "th"
  else if n mod 10 =? 1 then "st"
  else if n mod 10 =? 2 then "nd"
  else if n mod 10 =? 3 then "rd"
  else "th".
