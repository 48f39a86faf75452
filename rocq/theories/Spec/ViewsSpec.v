(** Axes and the polar form of complex numbers. *)

From Coq Require Import ZArith QArith Reals List Bool.
From Verif.Model Require Import Py Views.
From Verif.Spec Require Import InterpolationSpec ComplexSpec.
Open Scope Z_scope.

(** The [n] values [first], [first + step], [first + 2 * step] and so on *)
Definition evenly_spaced (l : list Q) (n : Z) (first step : Q) : Prop :=
  zlen l = n /\ forall k, 0 <= k < n -> exists x, zth l k = Some x /\ (x == first + inject_Z k * step)%Q.

(** The angle of a complex number in radians, as defined for C's function [atan2].  (There are no negative zeros in the exact arithmetic.) *)
Definition argument (z : C) : R :=
  (let x := re z in let y := im z in
   if R_ltb 0 x then atan (y / x)
   else if R_ltb x 0 then (if R_ltb y 0 then atan (y / x) - PI else atan (y / x) + PI)
   else if R_ltb 0 y then PI / 2 else if R_ltb y 0 then - (PI / 2) else 0)%R.

(** NumPy's functions for complex numbers *)
Definition numpy_functions : complex_functions C R := ComplexFunctions modulus argument re im.

(** The four views of one sample *)
Definition views_of (z : C) (magnitude phase real imaginary : option R) : Prop :=
  exists m p x y, magnitude = Some m /\ phase = Some p /\ real = Some x /\ imaginary = Some y /\
    (0 <= m)%R /\ (- PI < p <= PI)%R /\ Cmul (C_of_R m) (cis p) = z /\ Cadd (C_of_R x) (Cmul j (C_of_R y)) = z.
