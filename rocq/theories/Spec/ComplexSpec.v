(** Complex numbers and the exact arithmetic of transfer functions. *)

From Coq Require Import ZArith List Bool Reals.
From Verif.Model Require Import Py Signal Terms Interpolation.
From Verif.Spec Require Import InterpolationSpec.
Import ListNotations.
Open Scope R_scope.

(** The real part and the imaginary part *)
Definition C : Type := R * R.
Definition re (z : C) : R := fst z.
Definition im (z : C) : R := snd z.

Definition C_of_R (x : R) : C := (x, 0).
Definition j : C := (0, 1).
Definition Cadd (z w : C) : C := (re z + re w, im z + im w).
Definition Csub (z w : C) : C := (re z - re w, im z - im w).
Definition Cneg (z : C) : C := (- re z, - im z).
Definition Cmul (z w : C) : C := (re z * re w - im z * im w, re z * im w + im z * re w).
(** The square of the absolute value *)
Definition norm2 (z : C) : R := re z * re z + im z * im z.
Definition Cinv (z : C) : C := (re z / norm2 z, - im z / norm2 z).
Definition Cdiv (z w : C) : C := Cmul z (Cinv w).
Definition Cconj (z : C) : C := (re z, - im z).
Definition modulus (z : C) : R := sqrt (norm2 z).
(** [exp(j * t)] *)
Definition cis (t : R) : C := (cos t, sin t).
Definition Cexp (z : C) : C := (exp (re z) * cos (im z), exp (re z) * sin (im z)).
Definition C_eqb (z w : C) : bool := R_eqb (re z) (re w) && R_eqb (im z) (im w).

(** The arithmetic of complex numbers; how powers and remainders are computed does not matter. *)
Definition complex_ops (power modulo : C -> C -> C) : ops C :=
  {| o_zero := (0, 0); o_one := (1, 0); o_add := Cadd; o_sub := Csub; o_mul := Cmul; o_div := Cdiv; o_pow := power; o_mod := modulo;
     o_neg := Cneg; o_abs := fun z => C_of_R (modulus z); o_eqb := C_eqb |}.

(** The frequency variable is [2j * pi * f].  How logarithms and powers of 2 are computed for the logarithmic interpolations does not matter. *)
Definition complex_arithmetic (power modulo : C -> C -> C) (log2_c exp2_c : C -> C) : arithmetic C R :=
  {| k_ops := complex_ops power modulo;
     k_exp := Cexp;
     x_ltb := R_ltb;
     x_eqb := R_eqb;
     s_of := fun f => (0, 2 * PI * f);
     interpolate := interpolate_ (real_axes (complex_ops power modulo) C_of_R log2_c exp2_c) |}.
