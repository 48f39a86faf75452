(** Specification vocabulary for Fourier transforms: sums of samples at absolute times, multiplied with complex exponentials. *)

From Coq Require Import ZArith List Bool Reals.
From Verif.Model Require Import Py Numpy Signal Spectrum Fft Fourier.
From Verif.Spec Require Import TimeSpec ComplexSpec.
Import ListNotations.
Open Scope Z_scope.

(** Exact real and complex numbers; how powers and remainders are computed does not matter. *)
Definition real_numbers (power modulo : C -> C -> C) : numbers R C :=
  Numbers IZR PI sqrt (complex_ops power modulo) (fun x y => (x, y)) Cexp modulus.

(** The sample at the time [t]; zero, where the signal has no samples *)
Definition sample (s : signal R) (c t : Z) : R := match at_time s c t with Some x => x | None => 0%R end.

(** The sums of [f t] over all times, at which the signal has samples *)
Definition sum_over_time (s : signal R) (f : Z -> R) : R := fold_right (fun t a => (f t + a)%R) 0%R (zseq (begins s) (length s)).
Definition Csum_over_time (s : signal R) (f : Z -> C) : C := fold_right (fun t a => Cadd (f t) a) (C_of_R 0) (zseq (begins s) (length s)).

(** The Fourier transform at the frequency [f], which is given in cycles per sample: the sum of [x(t) * exp(-2j * pi * f * t)] *)
Definition fourier_sum (s : signal R) (c : Z) (f : R) : C :=
  Csum_over_time s (fun t => Cmul (C_of_R (sample s c t)) (cis (- (2 * PI * f * IZR t))%R)).

(** The sample at the time [t] of the periodic continuation *)
Definition periodic (s : signal R) (c t : Z) : R := sample s c (begins s + (t - begins s) mod length s).

(** The circular convolution of two signals of the same length *)
Definition circular_convolution_at (a b : signal R) (c t : Z) : R :=
  sum_over_time a (fun tau => (sample a c tau * periodic b c (t - tau))%R).

(** The mean of the squares of a channel's samples *)
Definition mean_square (s : signal R) (c : Z) : R := (sum_over_time s (fun t => (sample s c t * sample s c t)%R) / IZR (length s))%R.

(** The mean of the squares of all samples of all channels, which have the same length *)
Definition overall_mean_square (s : signal R) : R :=
  (fold_right (fun c a => mean_square s c + a)%R 0%R (zseq 0 (count s)) / IZR (count s))%R.
