(** Properties C18, C19 and C20: the Fourier transform of signals, levels and the inversion of signals.
    The samples are exact real numbers, the transforms are those that the documentation of numpy.fft defines (Spec/DftSpec.v).
    [power], [modulo], [cpower] and [cmodulo] are operations that are not used, [junk] and [cjunk] are the contents of freshly allocated
    memory. *)

From Coq Require Import String ZArith List Bool Lia Reals Lra.
From Verif.Model Require Import Py Numpy Functions Signal Spectrum Fft Fourier Convolution.
From Verif.Spec Require Import TimeSpec FrequencySpec RealSpec ComplexSpec DftSpec ConvolutionSpec FourierSpec.
From Verif.Proofs Require Import FourierFacts FourierResults LevelFacts InvertFacts FourierCases.
Import ListNotations.
Open Scope Z_scope.

(** * C18 The Fourier transform and the inverse Fourier transform *)

(** Each bin contains the sum of the samples, multiplied with [exp(-2j * pi * f * t)]; the times [t] include the offset. *)
Theorem C18_transform : forall power modulo cpower cmodulo junk cjunk s overlap pad, wf_signal s -> 0 < length s -> sampling_rate s <> 0%R ->
  exists r, fourier_transform (real_ops power modulo) real_transforms (real_numbers cpower cmodulo) junk cjunk s None overlap pad = Ok r /\
    wf_spectrum r /\ sp_count r = count s /\ sp_length r = length s / 2 + 1 /\
    resolution r = (sampling_rate s / IZR (length s))%R /\ sp_labels r = labels s /\
    forall c k, 0 <= c < count s -> 0 <= k <= length s / 2 -> bin r c k = Some (fourier_sum s c (IZR k / IZR (length s))%R).
Proof. exact transform_ok. Qed.
Print Assumptions C18_transform.

Example C18_transform_case : wf_signal pulse /\ length pulse = 2 /\ sampling_rate pulse <> 0%R /\ count pulse = 1 /\
  fourier_sum pulse 0 (IZR 0 / IZR 2)%R = C_of_R 3 /\ fourier_sum pulse 0 (IZR 1 / IZR 2)%R = C_of_R 1.
Proof. exact pulse_spectrum. Qed.

(** The samples come back.  The result has the offset 0, so they are moved cyclically. *)
Theorem C18_round_trip : forall power modulo cpower cmodulo junk cjunk s overlap pad,
  wf_signal s -> 0 < length s -> length s mod 2 = 0 -> sampling_rate s <> 0%R ->
  exists r s', fourier_transform (real_ops power modulo) real_transforms (real_numbers cpower cmodulo) junk cjunk s None overlap pad = Ok r /\
    inverse_fourier_transform (real_ops power modulo) real_transforms (real_numbers cpower cmodulo) junk r = Ok s' /\ wf_signal s' /\
    sampling_rate s' = sampling_rate s /\ count s' = count s /\ length s' = length s /\ begins s' = 0 /\ labels s' = labels s /\
    forall c t, begins s <= t < ends s -> at_time s' c (t mod length s) = at_time s c t.
Proof. exact round_trip_ok. Qed.
Print Assumptions C18_round_trip.

Example C18_round_trip_case : wf_signal pulse /\ 0 < length pulse /\ length pulse mod 2 = 0 /\ sampling_rate pulse <> 0%R /\
  begins pulse = -1 /\ at_time pulse 0 (-1) = Some 1%R /\ -1 mod length pulse = 1.
Proof. exact pulse_ok. Qed.

(** If the length is odd, the result is one sample shorter and its sampling rate is lower. *)
Theorem C18_odd_length : forall power modulo cpower cmodulo junk cjunk s overlap pad,
  wf_signal s -> 1 < length s -> length s mod 2 = 1 -> sampling_rate s <> 0%R ->
  exists r s', fourier_transform (real_ops power modulo) real_transforms (real_numbers cpower cmodulo) junk cjunk s None overlap pad = Ok r /\
    inverse_fourier_transform (real_ops power modulo) real_transforms (real_numbers cpower cmodulo) junk r = Ok s' /\
    length s' = length s - 1 /\ sampling_rate s' = (sampling_rate s * IZR (length s - 1) / IZR (length s))%R.
Proof. exact odd_length_ok. Qed.
Print Assumptions C18_odd_length.

Example C18_odd_length_case : wf_signal triple /\ 1 < length triple /\ length triple mod 2 = 1 /\ sampling_rate triple <> 0%R.
Proof. exact triple_ok. Qed.

(** In the other direction a spectrum comes back, if its first and its last bin are real. *)
Theorem C18_spectrum_round_trip : forall power modulo cpower cmodulo junk cjunk r overlap pad,
  wf_spectrum r -> 0 < sp_length r -> resolution r <> 0%R ->
  (forall c z, bin r c 0 = Some z \/ bin r c (sp_length r - 1) = Some z -> im z = 0%R) ->
  exists s r', inverse_fourier_transform (real_ops power modulo) real_transforms (real_numbers cpower cmodulo) junk r = Ok s /\
    fourier_transform (real_ops power modulo) real_transforms (real_numbers cpower cmodulo) junk cjunk s None overlap pad = Ok r' /\
    wf_spectrum r' /\ sp_count r' = sp_count r /\ sp_length r' = sp_length r /\
    resolution r' = resolution r /\ sp_labels r' = sp_labels r /\ forall c k, bin r' c k = bin r c k.
Proof. exact spectrum_round_trip_ok. Qed.
Print Assumptions C18_spectrum_round_trip.

Example C18_spectrum_round_trip_case : wf_spectrum comb /\ 0 < sp_length comb /\ resolution comb <> 0%R /\
  (forall c z, bin comb c 0 = Some z \/ bin comb c (sp_length comb - 1) = Some z -> im z = 0%R) /\ bin comb 0 1 = Some (2%R, 3%R).
Proof. exact comb_ok. Qed.

(** * C19 Levels *)

(** The level of a channel is the root of the mean of its squared samples. *)
Theorem C19_signal_level : forall power modulo cpower cmodulo s, wf_signal s -> 0 < length s ->
  zlen (signal_level (real_ops power modulo) (real_numbers cpower cmodulo) s) = count s /\
  forall c, 0 <= c < count s -> zth (signal_level (real_ops power modulo) (real_numbers cpower cmodulo) s) c = Some (sqrt (mean_square s c)).
Proof. exact signal_level_ok. Qed.
Print Assumptions C19_signal_level.

Example C19_signal_level_case : wf_signal pulse /\ 0 < length pulse /\ mean_square pulse 0 = (5 / 2)%R.
Proof. exact pulse_level. Qed.

Theorem C19_total_level : forall power modulo cpower cmodulo s, wf_signal s -> 0 < length s -> 0 < count s ->
  signal_total_level (real_ops power modulo) (real_numbers cpower cmodulo) s = sqrt (overall_mean_square s).
Proof. exact total_level_ok. Qed.
Print Assumptions C19_total_level.

Example C19_total_level_case : wf_signal pulse /\ 0 < length pulse /\ 0 < count pulse /\ overall_mean_square pulse = (5 / 2)%R.
Proof. exact pulse_overall. Qed.

(** The spectrum has the same levels as the signal. *)
Theorem C19_levels_agree : forall power modulo cpower cmodulo junk cjunk s overlap pad,
  wf_signal s -> 0 < length s -> length s mod 2 = 0 -> sampling_rate s <> 0%R ->
  exists r, fourier_transform (real_ops power modulo) real_transforms (real_numbers cpower cmodulo) junk cjunk s None overlap pad = Ok r /\
    spectrum_level (real_ops power modulo) (real_numbers cpower cmodulo) r = Ok (signal_level (real_ops power modulo) (real_numbers cpower cmodulo) s) /\
    (0 < count s -> spectrum_total_level (real_ops power modulo) (real_numbers cpower cmodulo) r
                    = Ok (signal_total_level (real_ops power modulo) (real_numbers cpower cmodulo) s)).
Proof. exact levels_agree. Qed.
Print Assumptions C19_levels_agree.

Example C19_levels_agree_case : wf_signal pulse /\ 0 < length pulse /\ length pulse mod 2 = 0 /\ sampling_rate pulse <> 0%R /\ 0 < count pulse.
Proof. exact pulse_even. Qed.

(** For a signal with one sample this is not the case: the only bin is counted as if it was both the first and the last one. *)
Theorem C19_one_sample_refuted : exists s : signal R, wf_signal s /\ length s = 1 /\ forall power modulo cpower cmodulo junk cjunk overlap pad,
  exists r, fourier_transform (real_ops power modulo) real_transforms (real_numbers cpower cmodulo) junk cjunk s None overlap pad = Ok r /\
    signal_level (real_ops power modulo) (real_numbers cpower cmodulo) s = [1%R] /\
    spectrum_level (real_ops power modulo) (real_numbers cpower cmodulo) r = Ok [sqrt 2].
Proof. exact one_sample_level. Qed.
Print Assumptions C19_one_sample_refuted.

(** * C20 The inversion of signals *)

(** Convolving a signal circularly with its inverse gives a unit impulse at the time 0, if the spectrum of the signal has no zeros.
    For signals with an odd length, the spectrum of the signal with the double length must not have zeros. *)
Theorem C20_inverse : forall power modulo junk s n, wf_signal s -> 0 < length s -> n = (if length s mod 2 =? 0 then length s else 2 * length s) ->
  (forall c k, 0 <= c < count s -> 0 <= k <= n / 2 -> fourier_sum s c (IZR k / IZR n)%R <> C_of_R 0) ->
  exists r, signal_invert (real_ops power modulo) real_transforms junk s = Ok r /\ wf_signal r /\ sampling_rate r = sampling_rate s /\
    begins r = - begins s /\ labels r = labels s /\ count r = count s /\ length r = length s /\
    forall c t, 0 <= c < count s -> 0 <= t < length s -> circular_convolution_at s r c t = (if t =? 0 then 1 else 0)%R.
Proof. exact invert_ok. Qed.
Print Assumptions C20_inverse.

Example C20_inverse_case : wf_signal pulse /\ 0 < length pulse /\ length pulse mod 2 = 0 /\
  forall c k, 0 <= c < count pulse -> 0 <= k <= length pulse / 2 -> fourier_sum pulse c (IZR k / IZR (length pulse))%R <> C_of_R 0.
Proof. exact pulse_nonzero. Qed.

Example C20_inverse_odd_case : wf_signal single /\ length single mod 2 = 1 /\
  forall c k, 0 <= c < count single -> 0 <= k <= 2 * length single / 2 -> fourier_sum single c (IZR k / IZR (2 * length single))%R <> C_of_R 0.
Proof. exact single_nonzero. Qed.

(** The same with the methods of the signals: [signal.convolve(~signal, sumpf.Signal.convolution_modes.SPECTRUM)] *)
Theorem C20_convolve : forall power modulo junk s, wf_signal s -> 0 < length s -> length s mod 2 = 0 ->
  (forall c k, 0 <= c < count s -> 0 <= k <= length s / 2 -> fourier_sum s c (IZR k / IZR (length s))%R <> C_of_R 0) ->
  exists r i, signal_invert (real_ops power modulo) real_transforms junk s = Ok r /\
    signal_convolve (real_ops power modulo) real_transforms junk s (OtherSignal r) SPECTRUM = Ok i /\
    sampling_rate i = sampling_rate s /\ samples_are i (count s) 0 (length s) (fun c t => if t =? 0 then 1 else 0)%R.
Proof. exact convolve_inverse_ok. Qed.
Print Assumptions C20_convolve.

Example C20_convolve_case : wf_signal pulse /\ 0 < length pulse /\ length pulse mod 2 = 0 /\
  forall c k, 0 <= c < count pulse -> 0 <= k <= length pulse / 2 -> fourier_sum pulse c (IZR k / IZR (length pulse))%R <> C_of_R 0.
Proof. exact pulse_nonzero. Qed.
