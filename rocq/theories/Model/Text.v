(** Model of /repo/sumpf/_internal/_text.py and the strings, on which it is built. *)

From Coq Require Import String Ascii ZArith List Bool.
From Verif.Model Require Import Py.
Open Scope string_scope.
Open Scope Z_scope.

(** Python's [str] of an integer: the decimal digits, without leading zeros, after a sign. *)
Definition digit (d : Z) : ascii := ascii_of_N (48 + Z.to_N d).

Fixpoint digits (fuel : nat) (n : Z) : string :=
  match fuel with
  | O => EmptyString
  | S k => if n <? 10 then String (digit n) EmptyString
           else digits k (n / 10) ++ String (digit (n mod 10)) EmptyString
  end.

Definition py_str (z : Z) : string :=
  let text n := digits (S (Z.to_nat (Z.log2 n))) n in
  if z <? 0 then String "-" (text (- z)) else text z.

(** Python's [s.endswith(t)] *)
Definition endswith (s t : string) : bool :=
  (String.length t <=? String.length s)%nat &&
  String.eqb (substring (String.length s - String.length t) (String.length t) s) t.

(** _text.py:22-37, [counting_number(number)] *)
Definition counting_number (number : Z) : string :=
  let s := py_str number in
  if endswith s "1" && negb (endswith s "11") then s ++ "st"
  else if endswith s "2" && negb (endswith s "12") then s ++ "nd"
  else if endswith s "3" && negb (endswith s "13") then s ++ "rd"
  else s ++ "th".
