(** Specification vocabulary for the measures of windows that are defined by their spectrums. *)

From Coq Require Import ZArith List Bool Reals.
From Verif.Model Require Import Py Numpy Functions Signal Fft Windows WindowSpectra.
From Verif.Spec Require Import RealSpec ComplexSpec DftSpec BlockSpec WindowSpec.
Import ListNotations.
Open Scope Z_scope.

(** The measures for exact real numbers *)
Notation real_bandwidth power modulo := (bandwidth (real_ops power modulo) real_transforms IZR less (sqrt 2) modulus).
Notation real_scalloping_loss power modulo junk := (scalloping_loss (real_ops power modulo) real_transforms modulus junk (C_eqb (C_of_R 0))).
Notation real_recommended_overlap power modulo := (recommended_overlap (real_ops power modulo) less).

(** The magnitude of the window's spectrum at the frequency [nu], which is given in cycles per sample *)
Definition magnitude_at (w : signal R) (nu : R) : R :=
  modulus (Csum (length w) (fun n => Cmul (C_of_R (window_at w 0 n)) (cis (- (2 * PI * nu * IZR n))%R))).

(** -3 decibels of the value at 0 Hz *)
Definition threshold (w : signal R) : R := (magnitude_at w 0 / sqrt 2)%R.

(** The value at [x] of the straight line through the points [(x1, y1)] and [(x2, y2)] *)
Definition line (x1 y1 x2 y2 x : R) : R := (y1 + (y2 - y1) * (x - x1) / (x2 - x1))%R.

(** The difference that the recommended overlap maximizes: that of the amplitude flatness and the overlap correlation *)
Definition is_compromise (w : signal R) (overlap : Z) (d : R) : Prop :=
  exists f, (exists t, 0 < overlapped (window_at w 0) (length w) (length w - overlap) t)%R /\
    is_flatness (overlapped (window_at w 0) (length w) (length w - overlap)) f /\
    d = (f - correlation (window_at w 0) (length w) (length w - overlap) / correlation (window_at w 0) (length w) 0)%R.

(** The sum of the samples *)
Definition window_sum (w : signal R) : R := Rsum_list (zseq 0 (length w)) (window_at w 0).
