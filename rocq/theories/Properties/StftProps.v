(** Property C58: short time Fourier transforms and their inverse.  The samples are exact real numbers; [power], [modulo], [cpower] and
    [cmodulo] are operations that are not used, [junk], [cjunk] and [wjunk] are the contents of freshly allocated memory. *)

From Coq Require Import String ZArith QArith List Bool Lia Reals Lra.
From Verif.Model Require Import Py Numpy Functions Signal Spectrum Fft Fourier Cube Spectrogram Windows Sweeps Stft.
From Verif.Spec Require Import TimeSpec RealSpec ComplexSpec DftSpec FourierSpec BlockSpec SpectrogramSpec SweepSpec WindowSpec StftSpec.
From Verif.Proofs Require Import BlockCases StftResults StftCases.
Import ListNotations.
Open Scope Z_scope.

Notation stft power modulo cpower cmodulo cjunk :=
  (short_time_fourier_transform (real_ops power modulo) real_transforms (real_numbers cpower cmodulo) cjunk).
Notation istft power modulo cpower cmodulo junk :=
  (inverse_short_time_fourier_transform (real_ops power modulo) real_transforms (real_numbers cpower cmodulo) R_leb junk).

(** * C58 The transform *)

(** Each sample of the spectrogram at the time [t] is the spectrum of the segment around the time [t * step] of the signal. *)
Theorem C58_transform : forall power modulo cpower cmodulo cjunk s w overlap step pad,
  wf_signal s -> wf_signal w -> 0 < count s -> 0 < count w -> count w = 1 \/ count s <= count w ->
  index overlap (length w) = Ok (length w - step) -> 0 < step <= length w -> length w <= length s -> sampling_rate s <> 0%R -> begins s mod step = 0 ->
  exists r, stft power modulo cpower cmodulo cjunk s w overlap pad = Ok r /\ stft_frame r s w step pad /\ sg_begins r = begins s / step /\
  forall c k t, 0 <= c < count s -> 0 <= k <= length w / 2 -> sg_begins r <= t < sg_ends r ->
    sg_at r c k t = Some (Cmul (C_of_R (/ Rabs (window_sum w c))) (segment_spectrum s w c (t * step - lead w pad) k)).
Proof. exact transform_ok. Qed.
Print Assumptions C58_transform.

Example C58_transform_case : wf_signal even /\ wf_signal hann4 /\ 0 < count even /\ 0 < count hann4 /\ (count hann4 = 1 \/ count even <= count hann4) /\
  index (NInt 2) (length hann4) = Ok (length hann4 - 2) /\ 0 < 2 <= length hann4 /\ length hann4 <= length even /\ sampling_rate even <> 0%R /\
  begins even mod 2 = 0 /\ 2 <= length hann4.
Proof. exact even_ok. Qed.

(** If the offset is not a multiple of the step, the offset is rounded to the nearest multiple, and the spectrums are multiplied with a factor
    that depends on the remainder. *)
Theorem C58_offset_remainder : forall power modulo cpower cmodulo cjunk s w overlap step pad,
  wf_signal s -> wf_signal w -> 0 < count s -> 0 < count w -> count w = 1 \/ count s <= count w ->
  index overlap (length w) = Ok (length w - step) -> 0 < step <= length w -> length w <= length s -> sampling_rate s <> 0%R -> 2 <= length w ->
  exists r, stft power modulo cpower cmodulo cjunk s w overlap pad = Ok r /\ stft_frame r s w step pad /\
  2 * Z.abs (begins s - sg_begins r * step) <= step /\
  forall c k t, 0 <= c < count s -> 0 <= k <= length w / 2 -> sg_begins r <= t < sg_ends r ->
    sg_at r c k t = Some (Cmul (cis (- (2 * PI * (IZR k * IZR (length w - 1) / IZR (length w / 2)) / IZR (length w) * IZR (begins s - sg_begins r * step))))
      (Cmul (C_of_R (/ Rabs (window_sum w c))) (segment_spectrum s w c (t * step + (begins s - sg_begins r * step) - lead w pad) k))).
Proof. exact remainder_ok. Qed.
Print Assumptions C58_offset_remainder.

Example C58_offset_remainder_case : wf_signal late /\ wf_signal rectangle4 /\ 0 < count late /\ 0 < count rectangle4 /\
  (count rectangle4 = 1 \/ count late <= count rectangle4) /\ index (NInt 0) (length rectangle4) = Ok (length rectangle4 - 4) /\
  0 < 4 <= length rectangle4 /\ length rectangle4 <= length late /\ sampling_rate late <> 0%R /\ 2 <= length rectangle4.
Proof. exact late_ok. Qed.

(** The documentation says, that the remainder is a constant addition to the group delay.  The group delay is larger: the frequencies in the
    compensation go up to [(length - 1) * resolution] rather than to half the sampling rate. *)
Theorem C58_group_delay_refuted : forall power modulo cpower cmodulo cjunk, exists s w overlap step pad r c k t,
  (wf_signal s /\ wf_signal w /\ 0 < count s /\ 0 < count w /\ (count w = 1 \/ count s <= count w) /\
   index overlap (length w) = Ok (length w - step) /\ 0 < step <= length w /\ length w <= length s /\ sampling_rate s <> 0%R /\ 2 <= length w) /\
  0 <= c < count s /\ 0 <= k <= length w / 2 /\ sg_begins r <= t < sg_ends r /\
  stft power modulo cpower cmodulo cjunk s w overlap pad = Ok r /\
  sg_at r c k t <> Some (Cmul (cis (- (2 * PI * IZR k / IZR (length w) * IZR (begins s - sg_begins r * step))))
    (Cmul (C_of_R (/ Rabs (window_sum w c))) (segment_spectrum s w c (t * step + (begins s - sg_begins r * step) - lead w pad) k))).
Proof. exact group_delay_wrong. Qed.
Print Assumptions C58_group_delay_refuted.

(** Also with [pad=True], a signal that is shorter than the window is rejected rather than padded. *)
Theorem C58_short_signal : forall power modulo cpower cmodulo cjunk s w overlap o pad,
  wf_signal s -> wf_signal w -> 0 < count s -> 0 < count w -> index overlap (length w) = Ok o -> length s < length w ->
  stft power modulo cpower cmodulo cjunk s w overlap pad = Err ValueError.
Proof. exact short_ok. Qed.
Print Assumptions C58_short_signal.

(** So are segments, that do not advance. *)
Theorem C58_full_overlap : forall power modulo cpower cmodulo cjunk s w overlap o pad,
  wf_signal s -> wf_signal w -> 0 < count s -> 0 < count w -> index overlap (length w) = Ok o -> length w <= o ->
  stft power modulo cpower cmodulo cjunk s w overlap pad = Err ValueError.
Proof. exact full_overlap_ok. Qed.
Print Assumptions C58_full_overlap.

Example C58_short_signal_case : wf_signal rectangle1 /\ wf_signal hann4 /\ 0 < count rectangle1 /\ 0 < count hann4 /\
  index (NFloat (1 # 2)) (length hann4) = Ok 2 /\ length rectangle1 < length hann4 /\ index (NFloat 1) (length hann4) = Ok 4.
Proof. split; [wf_now|]. split; [wf_now|]. repeat split; reflexivity. Qed.

(** If a window has more than one, but fewer channels than the signal, the signal's other channels are left out. *)
Theorem C58_surplus_channels : forall power modulo cpower cmodulo cjunk s w overlap step pad,
  wf_signal s -> wf_signal w -> 1 < count w <= count s ->
  index overlap (length w) = Ok (length w - step) -> 0 < step <= length w -> length w <= length s -> sampling_rate s <> 0%R -> 2 <= length w ->
  stft power modulo cpower cmodulo cjunk s w overlap pad = stft power modulo cpower cmodulo cjunk (first_channels (count w) s) w overlap pad.
Proof. exact surplus_ok. Qed.
Print Assumptions C58_surplus_channels.

Example C58_surplus_channels_case : wf_signal three /\ wf_signal stereo_window /\ 1 < count stereo_window <= count three /\
  index (NInt 1) (length stereo_window) = Ok (length stereo_window - 3) /\ 0 < 3 <= length stereo_window /\ length stereo_window <= length three /\
  sampling_rate three <> 0%R /\ 2 <= length stereo_window.
Proof.
  split; [wf_now|]. split; [wf_now|]. split; [change (1 < 2 <= 3); lia|]. split; [reflexivity|]. split; [change (0 < 3 <= 4); lia|]. split; [discriminate|].
  split; [cbn; lra|discriminate].
Qed.

(** * C58 The round trip *)

(** With padding, the inverse transform restores every sample and appends less than [step] zeros, if at every sample the sum of the squares
    of the overlapping windows is not tiny. *)
Theorem C58_round_trip : forall power modulo cpower cmodulo junk cjunk s w overlap step,
  wf_signal s -> wf_signal w -> 0 < count s -> 0 < count w -> count w = 1 \/ count s <= count w ->
  index overlap (length w) = Ok (length w - step) -> 0 < step <= length w -> length w <= length s -> sampling_rate s <> 0%R -> begins s mod step = 0 ->
  (forall c, 0 <= c < count s -> (0 < window_sum w c)%R) -> 2 <= length w ->
  (forall c t, 0 <= c < count s -> begins s <= t < ends s -> (1 / 10000000000 < window_energy s w step true c t)%R) ->
  exists g r, stft power modulo cpower cmodulo cjunk s w overlap true = Ok g /\ istft power modulo cpower cmodulo junk g w overlap true = Ok r /\
    wf_signal r /\ count r = count s /\ labels r = labels s /\ sampling_rate r = sampling_rate s /\ begins r = begins s /\
    ends s <= ends r < ends s + step /\
    forall c t, 0 <= c < count s -> (begins s <= t < ends s -> at_time r c t = at_time s c t) /\ (ends s <= t < ends r -> at_time r c t = Some 0%R).
Proof. exact round_trip_ok. Qed.
Print Assumptions C58_round_trip.

Example C58_round_trip_case : (forall c, 0 <= c < count even -> (0 < window_sum hann4 c)%R) /\
  (forall c t, 0 <= c < count even -> begins even <= t < ends even -> (1 / 10000000000 < window_energy even hann4 2 true c t)%R).
Proof. split; [intros c _; rewrite hann4_sum; lra|]. intros c t _. apply even_energy. Qed.

(** Without padding, the samples that do not fit a whole segment are missing, and those where the windows vanish are lost. *)
Theorem C58_round_trip_unpadded : forall power modulo cpower cmodulo junk cjunk s w overlap step,
  wf_signal s -> wf_signal w -> 0 < count s -> 0 < count w -> count w = 1 \/ count s <= count w ->
  index overlap (length w) = Ok (length w - step) -> 0 < step <= length w -> length w <= length s -> sampling_rate s <> 0%R -> begins s mod step = 0 ->
  (forall c, 0 <= c < count s -> (0 < window_sum w c)%R) ->
  exists g r, stft power modulo cpower cmodulo cjunk s w overlap false = Ok g /\ istft power modulo cpower cmodulo junk g w overlap false = Ok r /\
    wf_signal r /\ count r = count s /\ labels r = labels s /\ sampling_rate r = sampling_rate s /\ begins r = begins s /\
    ends s - step < ends r <= ends s /\
    forall c t, 0 <= c < count s -> begins r <= t < ends r -> (1 / 10000000000 < window_energy s w step false c t)%R -> at_time r c t = at_time s c t.
Proof. exact round_trip_unpadded. Qed.
Print Assumptions C58_round_trip_unpadded.

Example C58_round_trip_unpadded_case : segment_count even hann4 2 false = 1 /\ (forall c, 1 / 10000000000 < window_energy even hann4 2 false c 4)%R /\
  forall c, (window_energy even hann4 2 false c 2 = 0)%R.
Proof. exact even_unpadded. Qed.

(** With the default arguments, where the window is given by its length, every signal is restored. *)
Theorem C58_default_round_trip : forall power modulo cpower cmodulo junk cjunk wjunk s L,
  wf_signal s -> 0 < count s -> sampling_rate s <> 0%R -> 0 < L <= length s -> L mod 2 = 0 -> begins s mod (L / 2) = 0 ->
  exists w g w' r,
    real_get_window power modulo wjunk (WLength L) (NFloat (1 # 2)) false (sampling_rate s) = Ok w /\
    stft power modulo cpower cmodulo cjunk s w (NFloat (1 # 2)) true = Ok g /\
    real_get_window power modulo wjunk (WLength L) (NFloat (1 # 2)) false (sg_rate g) = Ok w' /\
    istft power modulo cpower cmodulo junk g w' (NFloat (1 # 2)) true = Ok r /\
    wf_signal r /\ count r = count s /\ labels r = labels s /\ sampling_rate r = sampling_rate s /\ begins r = begins s /\
    ends s <= ends r < ends s + L / 2 /\
    forall c t, 0 <= c < count s -> (begins s <= t < ends s -> at_time r c t = at_time s c t) /\ (ends s <= t < ends r -> at_time r c t = Some 0%R).
Proof. exact default_ok. Qed.
Print Assumptions C58_default_round_trip.

Example C58_default_round_trip_case : wf_signal even /\ 0 < count even /\ sampling_rate even <> 0%R /\ 0 < 4 <= length even /\ 4 mod 2 = 0 /\ begins even mod (4 / 2) = 0.
Proof. split; [wf_now|]. split; [reflexivity|]. split; [cbn; lra|]. split; [change (0 < 4 <= 5); lia|]. split; reflexivity. Qed.

(** With padding and a window of one sample, all samples are lost. *)
Theorem C58_single_sample : forall power modulo cpower cmodulo junk cjunk s w overlap step pad,
  wf_signal s -> wf_signal w -> 0 < count s -> 0 < count w -> count w = 1 \/ count s <= count w ->
  index overlap (length w) = Ok (length w - step) -> 0 < step <= length w -> length w <= length s -> sampling_rate s <> 0%R -> begins s mod step = 0 ->
  length w = 1 -> pad = true ->
  exists g r, stft power modulo cpower cmodulo cjunk s w overlap pad = Ok g /\ istft power modulo cpower cmodulo junk g w overlap pad = Ok r /\
    count r = count s /\ length r = 0.
Proof. exact inverse_single. Qed.
Print Assumptions C58_single_sample.

Example C58_single_sample_case : wf_signal rectangle1 /\ index (NFloat 0) (length rectangle1) = Ok (length rectangle1 - 1) /\ 0 < 1 <= length rectangle1 /\
  length rectangle1 <= length even /\ begins even mod 1 = 0 /\ length rectangle1 = 1.
Proof. split; [wf_now|]. split; [reflexivity|]. split; [change (0 < 1 <= 1); lia|]. split; [discriminate|]. split; reflexivity. Qed.
