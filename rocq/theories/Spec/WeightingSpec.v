(** The frequency weightings, as they are defined by the standards. *)

From Coq Require Import String ZArith List Reals.
From Verif.Model Require Import Py Terms Filter.
From Verif.Spec Require Import FilterSpec ComplexSpec.
Import ListNotations.
Open Scope R_scope.

(** IEC 61672-1, appendix E: the C-weighting has two poles at a low frequency and two poles at a high frequency *)
Definition c_curve (f1 f4 f : R) : R := f ^ 2 / ((f ^ 2 + f1 ^ 2) * (f ^ 2 + f4 ^ 2)).
(** The frequencies of the poles are such, that the weighting attenuates by 3 dB, relative to the reference frequency of 1000 Hz, at the frequencies
    10^1.5 Hz and 10^3.9 Hz. *)
Definition c_poles (f1 f4 : R) : Prop :=
  0 < f1 < f4 /\
  c_curve f1 f4 (Rpower 10 (15 / 10)) = c_curve f1 f4 1000 / sqrt 2 /\
  c_curve f1 f4 (Rpower 10 (39 / 10)) = c_curve f1 f4 1000 / sqrt 2.
(** The A-weighting has two more poles, whose frequencies [f2] and [f3] have the geometric mean and a third of the sum at 10^2.45 Hz. *)
Definition a_curve (f1 f2 f3 f4 f : R) : R := c_curve f1 f4 f * (f ^ 2 / (sqrt (f ^ 2 + f2 ^ 2) * sqrt (f ^ 2 + f3 ^ 2))).
Definition a_poles (f2 f3 : R) : Prop := 0 < f2 < f3 /\ f2 * f3 = Rpower 10 (245 / 100) ^ 2 /\ f2 + f3 = 3 * Rpower 10 (245 / 100).
(** The B-weighting has one more pole. *)
Definition b_curve (f1 f4 f : R) : R := c_curve f1 f4 f * (Rabs f / sqrt (f ^ 2 + (1585 / 10) ^ 2)).
(** The D-weighting: IEC 60537 *)
Definition d_curve (f : R) : R :=
  let h := ((103791848 / 100 - f ^ 2) ^ 2 + 108076816 / 100 * f ^ 2) / ((9837328 - f ^ 2) ^ 2 + 11723776 * f ^ 2) in
  Rabs f * sqrt (h / ((f ^ 2 + 7991929 / 100) * (f ^ 2 + 1345600))).
(** The U-weighting: IEC 61012, with the poles [- 12200] (twice), [- 7850 +- 8800 j] and [- 2900 +- 12150 j] in Hz *)
Definition u_curve (f : R) : R :=
  let pole x y := sqrt (x ^ 2 + (f - y) ^ 2) in
  1 / (pole 12200 0 * pole 12200 0 * pole 7850 8800 * pole 7850 (- 8800) * pole 2900 12150 * pole 2900 (- 12150)).

(** A filter with one channel, whose magnitude has the shape of the curve and whose value is 1 at 1000 Hz *)
Definition is_weighting (T : arithmetic C R) (junk : C) (F : filter C R) (label : string) (curve : R -> R) : Prop :=
  f_count F = 1%Z /\ f_labels F = [label] /\ response T junk F 0 1000 = Some (C_of_R 1) /\
  forall f, exists z, response T junk F 0 f = Some z /\ modulus z = curve f / curve 1000.
