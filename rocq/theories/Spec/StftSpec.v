(** Specification vocabulary for short time Fourier transforms: where the segments are, and what their spectrums and the sum of their
    windows are.  [pad] tells, whether the signal is extended by half a window at both ends and by zeros for a last segment. *)

From Coq Require Import String ZArith List Bool Reals.
From Verif.Model Require Import Py Numpy Signal Cube Spectrogram.
From Verif.Spec Require Import TimeSpec ComplexSpec DftSpec FourierSpec BlockSpec SpectrogramSpec.
Import ListNotations.
Open Scope Z_scope.

(** How long before the time of the first segment the first segment begins *)
Definition lead (w : signal R) (pad : bool) : Z := if pad then length w / 2 else 0.

(** The number of the segments: with [pad=True] the smallest number, for which the segments cover the extended signal; with [pad=False] the
    largest one, for which the segments are in the signal. *)
Definition segment_count (s w : signal R) (step : Z) (pad : bool) : Z :=
  if pad then (length s + 2 * (length w / 2) - length w + step - 1) / step + 1 else (length s - length w) / step + 1.

(** The sum of the window's samples *)
Definition window_sum (w : signal R) (c : Z) : R := Rsum_list (zseq 0 (length w)) (window_at w c).

(** The Fourier transform of the samples from the time [t] on, after they have been multiplied with the window; the frequency is [k]
    times the sampling rate divided by the length of the window, the phase refers to the beginning of the window. *)
Definition segment_spectrum (s w : signal R) (c t k : Z) : C :=
  Csum (length w) (fun j => Cmul (C_of_R (window_at w c j * sample s c (t + j))) (root (length w) (- (j * k)))).

(** The segment number [m] begins at the time [m * step - lead].  This is the sum of the squares of all segments' windows at the time [t]. *)
Definition window_energy (s w : signal R) (step : Z) (pad : bool) (c t : Z) : R :=
  Rsum_list (zseq (begins s / step) (segment_count s w step pad))
    (fun m => window_at w c (t - (m * step - lead w pad)) * window_at w c (t - (m * step - lead w pad)))%R.

(** [r] has a channel for each channel of [s], a frequency bin for each multiple of the resolution up to half the sampling rate, and a sample
    for each segment. *)
Definition stft_frame (r : spectrogram C R) (s w : signal R) (step : Z) (pad : bool) : Prop :=
  wf_spectrogram r /\ sg_count r = count s /\ sg_frequencies r = length w / 2 + 1 /\ sg_length r = segment_count s w step pad /\
  sg_resolution r = (sampling_rate s / IZR (length w))%R /\ sg_rate r = (sampling_rate s / IZR step)%R /\ sg_labels r = labels s.

(** The first [n] channels of a signal *)
Definition first_channels {A} (n : Z) (s : signal A) : signal A :=
  Signal (Arr (ztake n (rows (channels s))) (cols (channels s))) (sampling_rate s) (offset s) (ztake n (labels s)).
