(** Specification vocabulary for Python's slices with a positive step, without reference
    to the clamping algorithm of CPython. *)

From Coq Require Import ZArith QArith.
Open Scope Z_scope.

(** A negative bound counts from the end. *)
Definition from_end (i n : Z) : Z := if i <? 0 then n + i else i.

(** [i] is an integer, to which none is closer. *)
Definition nearest_integer (q : Q) (i : Z) : Prop :=
  (inject_Z i - (1 # 2) <= q)%Q /\ (q <= inject_Z i + (1 # 2))%Q.

(** The position [p] of a sequence with [n] elements is in the range of the slice [a:b]. *)
Definition selected (a b : option Z) (n p : Z) : Prop :=
  0 <= p < n /\
  match a with Some i => from_end i n <= p | None => True end /\
  match b with Some i => p < from_end i n | None => True end.

(** The position, at which a slice [a:b] starts counting. *)
Definition starts_at (a : option Z) (n : Z) : Z :=
  match a with Some i => Z.max 0 (from_end i n) | None => 0 end.
