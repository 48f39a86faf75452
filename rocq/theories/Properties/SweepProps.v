(** Properties C53, C54 and C55: sweeps, stationary waves and constants, and the impulse responses of harmonics.
    The samples are exact real numbers.  [power], [modulo], [cpower] and [cmodulo] are operations that are not used, [junk] is the contents of
    freshly allocated memory, and [numexpr] tells, whether the library NumExpr is installed. *)

From Coq Require Import String ZArith QArith List Bool Lia Reals Lra.
From Verif.Model Require Import Py Numpy Functions Signal Spectrum Spectrogram Fft Fourier Text Sweeps.
From Verif.Spec Require Import TimeSpec FrequencySpec SpectrogramSpec RealSpec ComplexSpec DftSpec FourierSpec SweepSpec HarmonicSpec.
From Verif.Proofs Require Import SweepFacts WaveFacts HarmonicFacts SweepCases.
Import ListNotations.
Open Scope Z_scope.

(** * C53 Sweeps *)

(** The frequency changes linearly between the samples [a] and [b] of the interval and beyond; the angle is its integral. *)
Theorem C53_linear_sweep : forall power modulo junk numexpr f0 f1 phase i j rate length a b,
  (0 < rate)%R -> 0 <= length -> index i length = Ok a -> index j length = Ok b -> a <> b ->
  exists r phi, linear_sweep (real_ops power modulo) real_functions junk numexpr f0 f1 phase i j rate length = Ok r /\
    angle_of (linear_frequency f0 f1 a b rate) phi (IZR a / rate) phase /\
    is_sweep r rate length (linear_frequency f0 f1 a b rate) phi.
Proof. exact linear_sweep_angle. Qed.
Print Assumptions C53_linear_sweep.

Theorem C53_inverse_linear_sweep : forall power modulo junk numexpr f0 f1 phase i j rate length a b,
  (0 < rate)%R -> 0 <= length -> index i length = Ok a -> index j length = Ok b -> a <> b ->
  exists r phi, inverse_linear_sweep (real_ops power modulo) real_functions junk numexpr f0 f1 phase i j rate length = Ok r /\
    angle_of (linear_frequency f0 f1 a b rate) phi (IZR a / rate) phase /\
    is_inverse_sweep r rate a b length (linear_frequency f0 f1 a b rate) phi (fun _ => 2 / IZR (b - a))%R.
Proof. exact inverse_linear_sweep_angle. Qed.
Print Assumptions C53_inverse_linear_sweep.

(** The frequency changes exponentially. *)
Theorem C53_exponential_sweep : forall power modulo junk numexpr f0 f1 phase i j rate length a b,
  (0 < rate)%R -> 0 <= length -> index i length = Ok a -> index j length = Ok b -> a <> b -> (0 < f0)%R -> (0 < f1)%R -> f0 <> f1 ->
  exists r phi, exponential_sweep (real_ops power modulo) real_functions junk numexpr f0 f1 phase i j rate length = Ok r /\
    angle_of (exponential_frequency f0 f1 a b rate) phi (IZR a / rate) phase /\
    is_sweep r rate length (exponential_frequency f0 f1 a b rate) phi.
Proof. exact exponential_sweep_angle. Qed.
Print Assumptions C53_exponential_sweep.

(** The amplitude of the inverse sweep is proportional to the frequency. *)
Theorem C53_inverse_exponential_sweep : forall power modulo junk numexpr f0 f1 phase i j rate length a b,
  (0 < rate)%R -> 0 <= length -> index i length = Ok a -> index j length = Ok b -> a <> b -> (0 < f0)%R -> (0 < f1)%R -> f0 <> f1 ->
  exists r phi, inverse_exponential_sweep (real_ops power modulo) real_functions junk numexpr f0 f1 phase i j rate length = Ok r /\
    angle_of (exponential_frequency f0 f1 a b rate) phi (IZR a / rate) phase /\
    is_inverse_sweep r rate a b length (exponential_frequency f0 f1 a b rate) phi
      (fun t => 2 / IZR (b - a) * (ln (f1 / f0) / (f1 - f0) * exponential_frequency f0 f1 a b rate t))%R.
Proof. exact inverse_exponential_sweep_angle. Qed.
Print Assumptions C53_inverse_exponential_sweep.

(** The frequencies at the beginning and at the end of the interval *)
Theorem C53_ends : forall f0 f1 a b rate, (0 < rate)%R -> a <> b ->
  (linear_frequency f0 f1 a b rate (IZR a / rate) = f0 /\ linear_frequency f0 f1 a b rate (IZR b / rate) = f1) /\
  ((0 < f0)%R -> (0 < f1)%R ->
   exponential_frequency f0 f1 a b rate (IZR a / rate) = f0 /\ exponential_frequency f0 f1 a b rate (IZR b / rate) = f1).
Proof. exact sweep_ends. Qed.
Print Assumptions C53_ends.

(** The interval from the first to the last but one of 10 samples *)
Example C53_case : index (NInt 0) 10 = Ok 0 /\ index (NFloat (9 # 10)) 10 = Ok 9 /\ index (NInt (-1)) 10 = Ok 9 /\ index (NFloat 1) 10 = Ok 10.
Proof. repeat split; vm_compute; reflexivity. Qed.

(** The start and the stop frequency of an exponential sweep must be different. *)
Theorem C53_equal_frequencies : forall power modulo junk numexpr f phase i j rate length a b,
  (0 < rate)%R -> 0 <= length -> index i length = Ok a -> index j length = Ok b -> (0 < f)%R ->
  exponential_sweep (real_ops power modulo) real_functions junk numexpr f f phase i j rate length = Err ZeroDivisionError.
Proof. exact equal_frequencies. Qed.
Print Assumptions C53_equal_frequencies.

(** The documented "lowest frequency, that is excited by the sweep" can be negative. *)
Theorem C53_minimum_frequency_refuted : forall power modulo junk numexpr,
  exists r, linear_sweep (real_ops power modulo) real_functions junk numexpr 20%R 20000%R 0%R (NFloat (1 # 2)) (NFloat 1) 48000%R 1000 = Ok r /\
    (sw_minimum r = -19960)%R.
Proof. exact negative_minimum. Qed.
Print Assumptions C53_minimum_frequency_refuted.

(** * C54 Stationary waves and constants *)

Theorem C54_sine_wave : forall power modulo junk frequency phase rate length, (0 < rate)%R -> 0 <= length ->
  exists r, sine_wave (real_ops power modulo) real_functions junk frequency phase rate length = Ok r /\
    is_wave r "Sine" frequency rate length (fun t => sin (2 * PI * frequency * t + phase)).
Proof. exact sine_wave_ok. Qed.
Print Assumptions C54_sine_wave.

Theorem C54_square_wave : forall power modulo junk frequency phase rate length, (0 < rate)%R -> 0 <= length ->
  exists r, square_wave (real_ops power modulo) real_functions junk frequency phase rate length = Ok r /\
    is_wave r "Square wave" frequency rate length (fun t => square (2 * PI * frequency * t + phase)).
Proof. exact square_wave_ok. Qed.
Print Assumptions C54_square_wave.

(** If [q] periods are as long as [p] sampling intervals, the samples repeat after [p] samples. *)
Theorem C54_periodic : forall power modulo junk frequency phase rate length p q n, (0 < rate)%R -> (frequency * IZR p = rate * IZR q)%R ->
  0 <= n < length -> 0 <= n + p < length ->
  exists s r, sine_wave (real_ops power modulo) real_functions junk frequency phase rate length = Ok s /\
    square_wave (real_ops power modulo) real_functions junk frequency phase rate length = Ok r /\
    at_time (w_signal s) 0 (n + p) = at_time (w_signal s) 0 n /\ at_time (w_signal r) 0 (n + p) = at_time (w_signal r) 0 n.
Proof. exact waves_repeat. Qed.
Print Assumptions C54_periodic.

(** 1000 Hz at 48000 Hz *)
Example C54_case : (1000 * IZR 48 = 48000 * IZR 1)%R /\ square (PI / 2) = 1%R /\ square (- (PI / 2)) = (-1)%R /\ square 0 = 0%R.
Proof. exact square_values. Qed.

Theorem C54_constant_signal : forall (A : Type) (junk : Z -> A) (value rate : A) length, 0 <= length ->
  exists s, constant_signal junk value rate length = Ok s /\ wf_signal s /\ count s = 1 /\ sampling_rate s = rate /\ begins s = 0 /\ ends s = length /\
    labels s = ["Constant"%string] /\ forall n, 0 <= n < length -> at_time s 0 n = Some value.
Proof. exact @constant_signal_ok. Qed.
Print Assumptions C54_constant_signal.

Theorem C54_constant_spectrum : forall (K R : Type) (junk : Z -> K) (value : K) (resolution : R) length, 0 <= length ->
  exists s, constant_spectrum junk value resolution length = Ok s /\ wf_spectrum s /\ sp_count s = 1 /\ Spectrum.resolution s = resolution /\
    sp_length s = length /\ sp_labels s = ["Constant"%string] /\ forall n, 0 <= n < length -> bin s 0 n = Some value.
Proof. exact @constant_spectrum_ok. Qed.
Print Assumptions C54_constant_spectrum.

Theorem C54_constant_spectrogram : forall (K R : Type) (junk : Z -> Z -> Z -> K) (value : K) (resolution rate : R) frequencies length,
  0 <= frequencies -> 0 <= length ->
  exists s, constant_spectrogram junk value resolution rate frequencies length = Ok s /\ wf_spectrogram s /\ sg_count s = 1 /\
    sg_resolution s = resolution /\ sg_rate s = rate /\ sg_begins s = 0 /\ sg_ends s = length /\ sg_frequencies s = frequencies /\
    sg_labels s = ["Constant"%string] /\ forall f n, 0 <= f < frequencies -> 0 <= n < length -> sg_at s 0 f n = Some value.
Proof. exact @constant_spectrogram_ok. Qed.
Print Assumptions C54_constant_spectrogram.

Example C54_constant_case : option_map (fun s => channels s) (match constant_signal (fun n => n) 7 48000 3 with Ok s => Some s | Err _ => None end) = Some (Arr [[7; 7; 7]] 3).
Proof. reflexivity. Qed.

(** * C55 The impulse responses of harmonics *)

(** The rate [l] of an exponential sweep: [log(h) * l] seconds later, the frequency is [h] times as high. *)
Theorem C55_rate : forall power modulo junk numexpr f0 f1 phase i j rate length a b,
  (0 < rate)%R -> 0 <= length -> index i length = Ok a -> index j length = Ok b -> a <> b -> (0 < f0)%R -> (0 < f1)%R -> f0 <> f1 ->
  exists r q l, exponential_sweep (real_ops power modulo) real_functions junk numexpr f0 f1 phase i j rate length = Ok r /\
    inverse_exponential_sweep (real_ops power modulo) real_functions junk numexpr f0 f1 phase i j rate length = Ok q /\
    sw_rate r = Some l /\ sw_rate q = Some l /\
    forall h t, (0 < h)%R -> (exponential_frequency f0 f1 a b rate (t + ln h * l) = h * exponential_frequency f0 f1 a b rate t)%R.
Proof. exact harmonic_rate. Qed.
Print Assumptions C55_rate.

(** [l] is the rate of the exponential sweep; in an impulse response, that has been measured with it, the harmonic number [h] begins [log(h) * l]
    seconds before the linear impulse response.  This is [s] sampling intervals, when rounded up; the next lower harmonic begins [e] intervals
    before the linear impulse response, when rounded down.  The rounding is compensated for by advancing the samples. *)
Theorem C55_harmonic : forall power modulo cpower cmodulo junk ir h l s e,
  wf_signal ir -> 0 < count ir -> (0 < sampling_rate ir)%R -> 2 <= h -> (0 < l)%R ->
  rounded_up (ln (IZR h) * l * sampling_rate ir) s -> rounded_down (ln (IZR (h - 1)) * l * sampling_rate ir) e -> fits ir s e ->
  exists r a,
    harmonic_impulse_response (real_ops power modulo) real_functions real_transforms (real_numbers cpower cmodulo) junk l ir h None = Ok (Outcome r a) /\
    harmonic_frame ir r (counting_number h) (s - e) /\
    (forall c, 0 <= c < count ir ->
      advanced (s - e) (advance (s - e) (IZR s - ln (IZR h) * l * sampling_rate ir)) (fun m => periodic ir c (m - s)) (sample r c)) /\
    wf a /\ nrows a = count ir /\ cols a = length ir /\
    forall c t, 0 <= c < count ir -> begins ir <= t < ends ir ->
      el a c (t - begins ir) = Some (if (t + s) mod length ir <? s - e then sample r c ((t + s) mod length ir) else sample ir c t).
Proof. exact response_none. Qed.
Print Assumptions C55_harmonic.

(** With a greater length, it is padded with zeros first. *)
Theorem C55_padded : forall power modulo cpower cmodulo junk ir h l s e,
  wf_signal ir -> 0 < count ir -> (0 < sampling_rate ir)%R -> 2 <= h -> (0 < l)%R ->
  rounded_up (ln (IZR h) * l * sampling_rate ir) s -> rounded_down (ln (IZR (h - 1)) * l * sampling_rate ir) e -> fits ir s e ->
  forall n, s - e < n -> exists r,
    harmonic_impulse_response (real_ops power modulo) real_functions real_transforms (real_numbers cpower cmodulo) junk l ir h (Some n) =
      Ok (Outcome r (channels ir)) /\
    harmonic_frame ir r (counting_number h) n /\
    forall c, 0 <= c < count ir ->
      advanced n (advance n (IZR s - ln (IZR h) * l * sampling_rate ir)) (fun m => if m <? s - e then periodic ir c (m - s) else 0%R) (sample r c).
Proof. exact response_padded. Qed.
Print Assumptions C55_padded.

(** With a smaller length, it is cropped afterwards, if it has more samples than channels. *)
Theorem C55_cropped_partial : forall power modulo cpower cmodulo junk ir h l s e,
  wf_signal ir -> 0 < count ir -> (0 < sampling_rate ir)%R -> 2 <= h -> (0 < l)%R ->
  rounded_up (ln (IZR h) * l * sampling_rate ir) s -> rounded_down (ln (IZR (h - 1)) * l * sampling_rate ir) e -> fits ir s e ->
  forall n, 0 <= n <= s - e -> count ir < s - e -> exists r,
    harmonic_impulse_response (real_ops power modulo) real_functions real_transforms (real_numbers cpower cmodulo) junk l ir h (Some n) =
      Ok (Outcome r (channels ir)) /\
    harmonic_frame ir r (counting_number h) n /\
    forall c, 0 <= c < count ir -> exists y,
      advanced (s - e) (advance (s - e) (IZR s - ln (IZR h) * l * sampling_rate ir)) (fun m => periodic ir c (m - s)) y /\
      forall m, 0 <= m < n -> sample r c m = y m.
Proof. exact response_cropped. Qed.
Print Assumptions C55_cropped_partial.

(** The first harmonic is the linear impulse response; it consists of the samples from the time 0 on. *)
Theorem C55_linear_partial : forall power modulo cpower cmodulo junk ir l,
  wf_signal ir -> begins ir <= 0 -> 0 <= ends ir ->
  forall n, n = None \/ (exists m, n = Some m /\ 0 <= m /\ (m <= ends ir -> count ir < ends ir)) ->
  exists r,
    harmonic_impulse_response (real_ops power modulo) real_functions real_transforms (real_numbers cpower cmodulo) junk l ir 1 n =
      Ok (Outcome r (channels ir)) /\
    harmonic_frame ir r "1st" (match n with Some m => m | None => ends ir end) /\
    forall c t, 0 <= c < count ir -> 0 <= t < ends r -> at_time r c t = Some (if t <? ends ir then sample ir c t else 0%R).
Proof. exact linear_response. Qed.
Print Assumptions C55_linear_partial.

(** A sweep over two octaves in three samples, one and two channels *)
Example C55_case : wf_signal demo_response /\ 0 < count demo_response /\ (0 < sampling_rate demo_response)%R /\
  (0 < demo_rate)%R /\ sweep_rate 1 4 0 3 1 = demo_rate /\
  rounded_up (ln (IZR 2) * demo_rate * sampling_rate demo_response) 2 /\ rounded_down (ln (IZR (2 - 1)) * demo_rate * sampling_rate demo_response) 0 /\
  fits demo_response 2 0 /\ count demo_response < 2 - 0.
Proof. exact demo_hypotheses. Qed.

(** The samples of the given impulse response are overwritten, when no length is given. *)
Theorem C55_argument_unchanged_refuted : forall power modulo cpower cmodulo junk,
  exists r a,
    harmonic_impulse_response (real_ops power modulo) real_functions real_transforms (real_numbers cpower cmodulo) junk demo_rate demo_response 2 None =
      Ok (Outcome r a) /\
    at_time demo_response 0 2 = Some 1%R /\ el a 0 2 = Some (1 / 2)%R /\ at_time r 0 0 = Some (1 / 2)%R /\ at_time r 0 1 = Some (1 / 2)%R.
Proof. exact argument_overwritten. Qed.
Print Assumptions C55_argument_unchanged_refuted.

(** The requested length is ignored, when the harmonic impulse response has at most as many samples as channels. *)
Theorem C55_length_refuted : forall power modulo cpower cmodulo junk,
  exists r,
    harmonic_impulse_response (real_ops power modulo) real_functions real_transforms (real_numbers cpower cmodulo) junk demo_rate demo_responses 2 (Some 1) =
      Ok (Outcome r (channels demo_responses)) /\ length r = 2.
Proof. exact length_ignored. Qed.
Print Assumptions C55_length_refuted.

Theorem C55_linear_length_refuted : forall power modulo cpower cmodulo junk,
  exists r,
    harmonic_impulse_response (real_ops power modulo) real_functions real_transforms (real_numbers cpower cmodulo) junk demo_rate
      (mk_signal (Arr [[1]; [2]]%R 1) 1%R 0 None) 1 (Some 0) = Ok r /\ length (o_result r) = 1.
Proof. exact linear_length_ignored. Qed.
Print Assumptions C55_linear_length_refuted.
