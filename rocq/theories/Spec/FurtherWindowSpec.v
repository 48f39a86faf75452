(** The shapes of the Bartlett-Hann, Blackman-Harris, Bohman, Parzen and Kaiser windows *)

From Coq Require Import String ZArith List Bool Reals.
From Verif.Model Require Import Py Numpy Functions Signal Windows CosineWindows FurtherWindows.
From Verif.Spec Require Import TimeSpec RealSpec DftSpec CosineWindowSpec.
Import ListNotations.
Open Scope Z_scope.

(** The windows for exact real numbers *)
Notation real_further_window power modulo bessel := (make_further_window (real_ops power modulo) IZR PI cos sin sqrt bessel).

(** The modified Bessel function of the first kind and the order zero: the sum of [((x / 2) ^ k / k!) ^ 2] *)
Definition is_bessel (f : R -> R) : Prop := forall x, infinite_sum (fun k => ((x / 2) ^ k / INR (fact k)) ^ 2)%R (f x).

(** The Parzen window: two polynomials of the distance to the middle, which is in units of half the length *)
Definition cubic (x : R) : R := (if Rle_dec x (1 / 2) then 1 - 6 * x ^ 2 + 6 * x ^ 3 else 2 * (1 - x) ^ 3)%R.

(** The value at the position [u], which is -1/2 at the first, 0 in the middle and 1/2 at the last sample of a symmetric window with [M] samples.
    The shape of the Parzen window depends on this number. *)
Definition further_shape (bessel : R -> R) (c : further_window R) (M : Z) (u : R) : R :=
  match c with
  | BartlettHann => 24 / 100 * (1 - Rabs (2 * u)) + 76 / 100 * ((1 + cos (2 * PI * u)) / 2)
  | BlackmanHarris => sum_of_cosines [35875 / 100000; 48829 / 100000; 14128 / 100000; 1168 / 100000] u
  | Bohman => (1 - Rabs (2 * u)) * cos (PI * Rabs (2 * u)) + sin (PI * Rabs (2 * u)) / PI
  | Parzen => cubic (Rabs (2 * u) * (IZR (M - 1) / IZR M))
  | Kaiser beta => bessel (beta * sqrt (1 - (2 * u) ^ 2)) / bessel beta
  end%R.

(** The value at both ends of the shape *)
Definition further_end (bessel : R -> R) (c : further_window R) (M : Z) : R :=
  match c with
  | BartlettHann => 0
  | BlackmanHarris => 6 / 100000
  | Bohman => 0
  | Parzen => 2 / IZR M ^ 3
  | Kaiser beta => 1 / bessel beta
  end%R.

(** The names of the windows, which are the labels of the channels *)
Definition further_name (c : further_window R) : string :=
  match c with
  | BartlettHann => "Bartlett-Hann window" | BlackmanHarris => "Blackman-Harris window" | Bohman => "Bohman window" | Parzen => "Parzen window"
  | Kaiser _ => "Kaiser window"
  end%string.
