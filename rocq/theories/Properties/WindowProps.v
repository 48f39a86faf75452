(** Property C51: the shapes and the measures of windows.  Additional theorems for C36 (the windows that NumPy computes) and C48 (the Fourier
    transform with the default window).  The samples are exact real numbers; [power] and [modulo] are operations that are not used, [junk],
    [cjunk] and [wjunk] are the contents of freshly allocated memory. *)

From Coq Require Import String ZArith QArith List Bool Lia Reals Lra.
From Verif.Model Require Import Py Numpy Functions Signal Spectrum Fft Fourier Generators Windows.
From Verif.Spec Require Import TimeSpec FrequencySpec RealSpec ComplexSpec DftSpec FourierSpec BlockSpec GeneratorsSpec WindowSpec.
From Verif.Proofs Require Import WindowMeasures WindowShapes WindowResults BlockCases FourierCases.
Import ListNotations.
Open Scope Z_scope.

(** * C36 The window functions of NumPy meet the hypotheses of the theorems about plateaus and symmetry *)
Theorem C36_numpy_windows : forall power modulo c M, 0 <= M ->
  zlen (window_function (real_ops power modulo) IZR PI cos c M) = M /\ mirrored (window_function (real_ops power modulo) IZR PI cos c M) /\
  forall n, 0 <= n -> zth (window_function (real_ops power modulo) IZR PI cos c (2 * n + 1)) n = Some 1%R.
Proof. exact (fun power modulo c M H => conj (sized_ok power modulo c M H) (conj (mirrored_ok power modulo c M H) (middle_ok power modulo c))). Qed.
Print Assumptions C36_numpy_windows.

(** With any plateau, the samples are between 0 and 1. *)
Theorem C36_range : forall power modulo (junk : Z -> R) c rate plateau length symmetric p s, 0 <= length -> index plateau length = Ok p -> 0 <= p <= length ->
  real_window power modulo junk c rate plateau length symmetric = Ok s -> forall t x, at_time s 0 t = Some x -> (0 <= x <= 1)%R.
Proof. exact range_ok. Qed.
Print Assumptions C36_range.

(** The case: any length, no plateau, or half of the window *)
Example C36_range_case : 0 <= 10 /\ index (NFloat (1 # 2)) 10 = Ok 5 /\ 0 <= 5 <= 10.
Proof. repeat split; reflexivity || discriminate. Qed.

(** * C51 Shapes *)

(** A symmetric window has the shape of its definition, from the first to the last sample ... *)
Theorem C51_symmetric_shape : forall power modulo (junk : Z -> R) c rate length, 1 < length ->
  exists w, real_window power modulo junk c rate (NInt 0) length true = Ok w /\ wf_signal w /\ count w = 1 /\ begins w = 0 /\ Signal.length w = length /\
    sampling_rate w = rate /\ labels w = [window_label c] /\
    forall t, 0 <= t < length -> at_time w 0 t = Some (shape c (IZR t / IZR (length - 1))).
Proof. exact symmetric_window_ok. Qed.
Print Assumptions C51_symmetric_shape.

Example C51_symmetric_shape_case : 1 < 5 /\ shape BartlettWindow (IZR 1 / IZR (5 - 1)) = (1/2)%R /\ window_label BartlettWindow = "Bartlett window"%string.
Proof. split; [reflexivity|]. split; [|reflexivity]. cbn [shape]. change (5 - 1) with 4. rewrite Rabs_left; lra. Qed.

(** ... and one that is not symmetric has the shape of one period: the sample after the last is the first. *)
Theorem C51_periodic_shape : forall power modulo (junk : Z -> R) c rate length, 0 < length ->
  exists w, real_window power modulo junk c rate (NInt 0) length false = Ok w /\ wf_signal w /\ count w = 1 /\ begins w = 0 /\ Signal.length w = length /\
    sampling_rate w = rate /\ labels w = [window_label c] /\
    forall t, 0 <= t < length -> at_time w 0 t = Some (shape c (IZR t / IZR length)).
Proof. exact periodic_window_ok. Qed.
Print Assumptions C51_periodic_shape.

Example C51_periodic_shape_case : 0 < 4 /\ shape HannWindow (IZR 2 / IZR 4) = 1%R.
Proof. split; [reflexivity|]. cbn [shape]. replace (2 * PI * (IZR 2 / IZR 4))%R with PI by lra. rewrite cos_PI. lra. Qed.

(** * C51 Measures *)

(** The amplitude flatness is the ratio of the minimum and the maximum of the sum of endlessly many repetitions of the window. *)
Theorem C51_amplitude_flatness : forall power modulo junk w, wf_signal w -> count w = 1 -> forall overlap step,
  index overlap (length w) = Ok (length w - step) -> 0 < step <= length w ->
  exists f, amplitude_flatness (real_ops power modulo) less junk w overlap = Ok f /\ is_flatness (overlapped (window_at w 0) (length w) step) f.
Proof. exact amplitude_flatness_ok. Qed.
Print Assumptions C51_amplitude_flatness.

(** The power flatness is that of the squared window. *)
Theorem C51_power_flatness : forall power modulo junk w, wf_signal w -> count w = 1 -> forall overlap step,
  index overlap (length w) = Ok (length w - step) -> 0 < step <= length w ->
  exists f, power_flatness (real_ops power modulo) less junk w overlap = Ok f /\
    is_flatness (overlapped (fun n => window_at w 0 n * window_at w 0 n)%R (length w) step) f.
Proof. exact power_flatness_ok. Qed.
Print Assumptions C51_power_flatness.

(** If the window is not negative, its amplitude flatness is between 0 and 1, and it is 1 only if the sum of the repetitions is constant. *)
Theorem C51_flat : forall power modulo (junk : Z -> R) w overlap step, wf_signal w -> count w = 1 ->
  index overlap (length w) = Ok (length w - step) -> 0 < step <= length w ->
  (forall n, 0 <= window_at w 0 n)%R -> (exists n, 0 < window_at w 0 n)%R ->
  exists f, amplitude_flatness (real_ops power modulo) less junk w overlap = Ok f /\ (0 <= f <= 1)%R /\
    (f = 1%R <-> exists d, constant_overlap_add w step d).
Proof. exact flatness_constant. Qed.
Print Assumptions C51_flat.

(** The correlation of overlapping repetitions is the ratio of sums of products, and its magnitude is not larger than 1. *)
Theorem C51_overlap_correlation : forall power modulo w, wf_signal w -> count w = 1 -> forall overlap step,
  index overlap (length w) = Ok (length w - step) -> 0 <= step <= length w -> correlation (window_at w 0) (length w) 0 <> 0%R ->
  exists f, overlap_correlation (real_ops power modulo) w overlap = Ok f /\
    f = (correlation (window_at w 0) (length w) step / correlation (window_at w 0) (length w) 0)%R /\ (-1 <= f <= 1)%R.
Proof. exact overlap_correlation_ok. Qed.
Print Assumptions C51_overlap_correlation.

(** The scaling factor is the inverse of the mean of the sum of the repetitions; this is the factor that restores the amplitude in C48. *)
Theorem C51_scaling_factor : forall power modulo w, wf_signal w -> count w = 1 -> forall overlap step,
  index overlap (length w) = Ok (length w - step) -> 0 < step <= length w ->
  window_scaling_factor (real_ops power modulo) IZR w overlap = Ok (/ mean_overlap w 0 step)%R.
Proof. exact window_scaling_factor_ok. Qed.
Print Assumptions C51_scaling_factor.

(** The case of the previous five theorems *)
Example C51_measures_case : wf_signal hann4 /\ count hann4 = 1 /\ index (NInt 2) (length hann4) = Ok (length hann4 - 2) /\ 0 < 2 <= length hann4 /\
  (forall n, 0 <= window_at hann4 0 n)%R /\ (exists n, 0 < window_at hann4 0 n)%R /\ correlation (window_at hann4 0) (length hann4) 0 = (3/2)%R /\
  correlation (window_at hann4 0) (length hann4) 2 = (1/4)%R.
Proof. exact hann4_measures. Qed.

(** The window functions of NumPy have a constant sum, if their repetitions overlap often enough: [m] is the number of repetitions at each
    time.  The flatness is 1 then, and the scaling factor is the inverse of the constant sum. *)
Theorem C51_constant_overlap : forall power modulo (junk : Z -> R) c rate step m, 0 < step -> enough c m ->
  exists w, real_window power modulo junk c rate (NInt 0) (m * step) false = Ok w /\ constant_overlap_add w step (IZR m * mean_value c)%R /\
    amplitude_flatness (real_ops power modulo) less junk w (NInt (m * step - step)) = Ok 1%R /\
    window_scaling_factor (real_ops power modulo) IZR w (NInt (m * step - step)) = Ok (/ (IZR m * mean_value c))%R.
Proof. exact measures_ok. Qed.
Print Assumptions C51_constant_overlap.

Example C51_constant_overlap_case : enough RectangularWindow 1 /\ enough BartlettWindow 2 /\ enough HannWindow 2 /\ enough HammingWindow 3 /\ enough BlackmanWindow 3.
Proof. repeat split; discriminate. Qed.

(** * C48 The default of [fourier_transform(window=L)]: a Hann window and half overlap *)
Theorem C48_default_window : forall power modulo cpower cmodulo junk cjunk wjunk s L,
  wf_signal s -> 0 < count s -> sampling_rate s <> 0%R -> 0 < L <= length s -> L mod 2 = 0 ->
  exists w r, real_get_window power modulo wjunk (WLength L) (NFloat (1 # 2)) false (sampling_rate s) = Ok w /\
    fourier_transform (real_ops power modulo) real_transforms (real_numbers cpower cmodulo) junk cjunk s (Some w) (NFloat (1 # 2)) true = Ok r /\
    wf_spectrum r /\ sp_count r = count s /\ sp_length r = L / 2 + 1 /\ resolution r = (sampling_rate s / IZR L)%R /\ sp_labels r = labels s /\
    forall c k, 0 <= c < count s -> 0 <= k <= L / 2 -> bin r c k = Some (fourier_sum s c (IZR k / IZR L)).
Proof. exact default_transform_ok. Qed.
Print Assumptions C48_default_window.

Example C48_default_window_case : wf_signal five /\ 0 < count five /\ sampling_rate five <> 0%R /\ 0 < 4 <= length five /\ 4 mod 2 = 0.
Proof. split; [apply five_ok|]. split; [reflexivity|]. split; [apply five_ok|]. split; [split; [reflexivity|discriminate]|reflexivity]. Qed.
