(** Exact real numbers as samples. *)

From Coq Require Import Reals.
From Verif.Model Require Import Signal.

(** The real numbers' arithmetic; how powers and remainders are computed does not matter. *)
Definition real_ops (power modulo : R -> R -> R) : ops R :=
  {| o_zero := 0; o_one := 1; o_add := Rplus; o_sub := Rminus; o_mul := Rmult; o_div := Rdiv; o_pow := power; o_mod := modulo;
     o_neg := Ropp; o_abs := Rabs; o_eqb := fun x y => if Req_EM_T x y then true else false |}%R.
