(** Property C72: the Bartlett-Hann, Blackman-Harris, Bohman, Parzen and Kaiser windows.  The samples are exact real numbers; [power] and [modulo] are
    operations that are not used, [junk] is the contents of freshly allocated memory, [bessel] is the modified Bessel function of the order zero. *)

From Coq Require Import String ZArith QArith List Bool Lia Reals Lra.
From Verif.Model Require Import Py Numpy Functions Signal Generators Windows CosineWindows FurtherWindows.
From Verif.Spec Require Import TimeSpec RealSpec BlockSpec DftSpec GeneratorsSpec WindowSpec CosineWindowSpec FurtherWindowSpec.
From Verif.Proofs Require Import BesselSeries FurtherWindowResults FurtherWindowShapes FurtherWindowSignals.
Import ListNotations.
Open Scope Z_scope.

(** There is such a Bessel function. *)
Theorem C72_bessel : exists bessel, is_bessel bessel.
Proof. exact bessel_exists. Qed.
Print Assumptions C72_bessel.

(** The samples are those of a shape.  A symmetric window ends with the end of the shape, the sample after the last one of a window that is not
    symmetric would do so. *)
Theorem C72_shape : forall power modulo bessel (junk : Z -> R) c rate length symmetric, 1 < length ->
  exists w, real_further_window power modulo bessel junk c rate (NInt 0) length symmetric = Ok w /\ wf_signal w /\ count w = 1 /\ begins w = 0 /\ Signal.length w = length /\
    sampling_rate w = rate /\ labels w = [further_name c] /\
    forall t, 0 <= t < length -> at_time w 0 t =
      Some (further_shape bessel c (if symmetric then length else length + 1) (IZR t / IZR (if symmetric then length - 1 else length) - 1 / 2)).
Proof. exact further_window_ok. Qed.
Print Assumptions C72_shape.

(** The case: the second of five samples of a Bartlett-Hann window is the mean value of its neighbours 0 and 1, the second of four samples of a Parzen
    window is 23/32. *)
Example C72_shape_case : 1 < 5 /\ further_shape id BartlettHann 5 (IZR 1 / IZR (5 - 1) - 1 / 2) = (1 / 2)%R /\
  further_shape id Parzen 4 (IZR 1 / IZR (4 - 1) - 1 / 2) = (23 / 32)%R /\ further_name Parzen = "Parzen window"%string.
Proof.
  split; [reflexivity |]. split; [| split; [| reflexivity]]; cbn [further_shape].
  - change (5 - 1) with 4. replace (1 / 4 - 1 / 2)%R with (- (1 / 4))%R by field. replace (2 * PI * - (1 / 4))%R with (- (PI / 2))%R by field. rewrite cos_neg, cos_PI2.
    rewrite Rabs_left by lra. field.
  - change (4 - 1) with 3. replace (2 * (1 / 3 - 1 / 2))%R with (- (1 / 3))%R by field. rewrite Rabs_Ropp, Rabs_right by lra.
    replace (1 / 3 * (3 / 4))%R with (1 / 4)%R by field. unfold cubic. destruct (Rle_dec (1 / 4) (1 / 2)); [field | lra].
Qed.

(** The window functions meet the hypotheses of the theorems C36 about plateaus and about symmetry. *)
Theorem C72_symmetry : forall power modulo bessel c M, 0 <= M ->
  zlen (further_window_function (real_ops power modulo) IZR PI cos sin sqrt bessel c M) = M /\
  mirrored (further_window_function (real_ops power modulo) IZR PI cos sin sqrt bessel c M).
Proof. exact (fun power modulo bessel c M H => conj (further_length power modulo bessel c M H) (further_mirrored power modulo bessel c M H)). Qed.
Print Assumptions C72_symmetry.

(** The windows fall from 1 in the middle to a value, that is not negative, at the ends, ... *)
Theorem C72_falling : forall bessel c M, is_bessel bessel -> 2 <= M ->
  further_shape bessel c M 0 = 1%R /\ further_shape bessel c M (1 / 2) = further_end bessel c M /\ (0 <= further_end bessel c M)%R /\
  (forall u, further_shape bessel c M (- u) = further_shape bessel c M u) /\
  forall u v, (0 <= u)%R -> (u <= v)%R -> (v <= 1 / 2)%R -> (further_shape bessel c M v <= further_shape bessel c M u)%R.
Proof.
  exact (fun bessel c M B H => conj (shape_middle bessel B c M) (conj (shape_end bessel B c M H) (conj (end_nonneg bessel B c M H)
    (conj (further_even bessel c M) (fun u v => shape_decreases bessel B c M u v H))))).
Qed.
Print Assumptions C72_falling.

(** ... so that all samples are in the range from 0 to 1, also if the window has a plateau. *)
Theorem C72_range : forall power modulo bessel, is_bessel bessel -> forall (junk : Z -> R) c rate plateau length symmetric p s, 0 <= length -> index plateau length = Ok p -> 0 <= p <= length ->
  real_further_window power modulo bessel junk c rate plateau length symmetric = Ok s -> forall t x, at_time s 0 t = Some x -> (0 <= x <= 1)%R.
Proof. exact signal_range. Qed.
Print Assumptions C72_range.

Example C72_range_case : 0 <= 8 /\ index (NFloat (1 # 2)) 8 = Ok 4 /\ 0 <= 4 <= 8.
Proof. vm_compute. intuition congruence. Qed.

(** The first, the middle and the last sample of a symmetric window with an odd number of samples *)
Theorem C72_landmarks : forall power modulo bessel, is_bessel bessel -> forall (junk : Z -> R) c rate n, 0 < n ->
  exists w, real_further_window power modulo bessel junk c rate (NInt 0) (2 * n + 1) true = Ok w /\
    at_time w 0 0 = Some (further_end bessel c (2 * n + 1)) /\ at_time w 0 n = Some 1%R /\ at_time w 0 (2 * n) = Some (further_end bessel c (2 * n + 1)).
Proof. exact landmarks. Qed.
Print Assumptions C72_landmarks.

(** The Bartlett-Hann window is an additive combination of the Bartlett and the Hann window. *)
Theorem C72_combination : forall power modulo bessel (junk junk' junk'' : Z -> R) rate length symmetric, 1 <= length ->
  exists w bartlett hann, real_further_window power modulo bessel junk BartlettHann rate (NInt 0) length symmetric = Ok w /\
    real_window power modulo junk' BartlettWindow rate (NInt 0) length symmetric = Ok bartlett /\
    real_window power modulo junk'' HannWindow rate (NInt 0) length symmetric = Ok hann /\ Signal.length w = length /\
    forall t, 0 <= t < length -> exists x y, at_time bartlett 0 t = Some x /\ at_time hann 0 t = Some y /\ at_time w 0 t = Some (24 / 100 * x + 76 / 100 * y)%R.
Proof. exact combination. Qed.
Print Assumptions C72_combination.

(** The side lobes of the Blackman-Harris window decay with 6 decibels per octave. *)
Theorem C72_blackman_harris : forall bessel M, decays (further_shape bessel BlackmanHarris M) 1.
Proof. exact blackman_harris_decay. Qed.
Print Assumptions C72_blackman_harris.

(** The Bohman window is twice the autocorrelation of a half wave of a cosine. *)
Theorem C72_bohman : forall bessel M u, (0 <= u)%R ->
  exists v, is_integral (fun t => cos (PI * t) * cos (PI * (t + 2 * u)))%R (- (1 / 2)) (1 / 2 - 2 * u) v /\ further_shape bessel Bohman M u = (2 * v)%R.
Proof. exact bohman_shape. Qed.
Print Assumptions C72_bohman.

(** The Parzen window does not reach zero at its ends, although this is documented. *)
Theorem C72_parzen_refuted : forall power modulo bessel, is_bessel bessel -> forall (junk : Z -> R) rate length, 1 < length ->
  exists w x, real_further_window power modulo bessel junk Parzen rate (NInt 0) length true = Ok w /\ at_time w 0 0 = Some x /\ x = (2 / IZR length ^ 3)%R /\ (0 < x)%R.
Proof. exact parzen_end. Qed.
Print Assumptions C72_parzen_refuted.

(** The Kaiser window with [beta = 0] is a rectangular window. *)
Theorem C72_kaiser_rectangular : forall power modulo bessel M k, is_bessel bessel -> 0 <= k < M ->
  zth (further_window_function (real_ops power modulo) IZR PI cos sin sqrt bessel (Kaiser 0%R) M) k = Some 1%R.
Proof. exact kaiser_rectangular. Qed.
Print Assumptions C72_kaiser_rectangular.
