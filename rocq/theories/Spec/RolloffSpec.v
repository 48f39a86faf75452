(** Specification vocabulary for the predefined filters. *)

From Coq Require Import ZArith List Bool Reals.
From Verif.Model Require Import Py Signal Terms Rolloff.
From Verif.Spec Require Import RealSpec ComplexSpec.
Import ListNotations.
Open Scope R_scope.

(** Exact real and complex numbers; how powers and remainders are computed does not matter. *)
Definition real_mathematics (power modulo : R -> R -> R) : mathematics R C :=
  Mathematics (real_ops power modulo) IZR PI sqrt cos sin arcsinh sinh cosh (Rpower 10) (fun x y => (x, y)) re im modulus Cexp.

(** The frequency, relative to the cutoff frequency; for highpass filters it is the other way around. *)
Definition relative_frequency (highpass : bool) (cutoff f : R) : R := if highpass then cutoff / f else f / cutoff.

(** The frequency variable, scaled such that its magnitude is 1 at the cutoff frequency *)
Definition relative_variable (highpass : bool) (cutoff f : R) : C :=
  if highpass then Cdiv (C_of_R cutoff) (Cmul j (C_of_R f)) else Cdiv (Cmul j (C_of_R f)) (C_of_R cutoff).

(** A lowpass filter has a value for each frequency.  A highpass filter is computed with [1 / s], so 0 Hz are special. *)
Definition evaluable (highpass : bool) (f : R) : Prop := highpass = true -> f <> 0.

(** The reverse Bessel polynomials *)
Fixpoint bessel_polynomials (n : nat) (s : C) : C * C :=   (* the polynomials number [n] and [n + 1] *)
  match n with
  | 0%nat => (C_of_R 1, Cadd s (C_of_R 1))
  | S m => let '(p, q) := bessel_polynomials m s in (q, Cadd (Cmul (C_of_R (2 * INR n + 1)) q) (Cmul (Cmul s s) p))
  end.
Definition bessel_polynomial (n : nat) (s : C) : C := fst (bessel_polynomials n s).

(** The Chebyshev polynomials of the first kind *)
Fixpoint chebyshev_polynomials (n : nat) (x : R) : R * R :=   (* the polynomials number [n] and [n + 1] *)
  match n with
  | 0%nat => (1, x)
  | S m => let '(p, q) := chebyshev_polynomials m x in (q, 2 * x * q - p)
  end.
Definition chebyshev_polynomial (n : nat) (x : R) : R := fst (chebyshev_polynomials n x).

(** The derivative of a function with complex values; the group delay is the negative derivative of the phase by the angular frequency, and the
    derivative of the phase is the imaginary part of the logarithmic derivative. *)
Definition has_derivative (g : R -> C) (x : R) (d : C) : Prop :=
  derivable_pt_lim (fun x => re (g x)) x (re d) /\ derivable_pt_lim (fun x => im (g x)) x (im d).
Definition group_delay (g : R -> C) (f : R) (delay : R) : Prop :=
  exists d, has_derivative g f d /\ delay = - im (Cdiv d (g f)) / (2 * PI).
