(** Property C48: the Fourier transform in overlapping, windowed blocks.
    The samples are exact real numbers, the transforms are those that the documentation of numpy.fft defines (Spec/DftSpec.v).
    [power], [modulo], [cpower] and [cmodulo] are operations that are not used, [junk] and [cjunk] are the contents of freshly allocated
    memory.  [step] is the distance of the blocks: the length of the window minus the overlap. *)

From Coq Require Import String ZArith List Bool Lia Reals Lra.
From Verif.Model Require Import Py Numpy Functions Signal Spectrum Fft Fourier.
From Verif.Spec Require Import TimeSpec FrequencySpec RealSpec ComplexSpec DftSpec FourierSpec BlockSpec.
From Verif.Proofs Require Import BlockResults BlockCases FourierCases.
Import ListNotations.
Open Scope Z_scope.

(** With [pad=True], the blocks are all that overlap the signal.  The result is the Fourier transform of the signal, after each sample has
    been multiplied with the sum of the windows at its time and divided by the mean value of that sum for an endless signal. *)
Theorem C48_padded : forall power modulo cpower cmodulo junk cjunk s w overlap step,
  wf_signal s -> wf_signal w -> 0 < count s -> 0 < count w -> count s = count w \/ count s = 1 \/ count w = 1 ->
  sampling_rate w = sampling_rate s -> sampling_rate s <> 0%R -> index overlap (length w) = Ok (length w - step) -> 0 < step <= length w ->
  (forall c, 0 <= c < count w -> mean_overlap w c step <> 0%R) -> length w <= length s ->
  exists r, fourier_transform (real_ops power modulo) real_transforms (real_numbers cpower cmodulo) junk cjunk s (Some w) overlap true = Ok r /\
    wf_spectrum r /\ sp_count r = Z.max (count s) (count w) /\ sp_length r = length w / 2 + 1 /\
    resolution r = (sampling_rate s / IZR (length w))%R /\
    sp_labels r = labels s ++ zrepeat EmptyString (Z.max (count s) (count w) - count s) /\
    forall c k, 0 <= c < Z.max (count s) (count w) -> 0 <= k <= length w / 2 ->
      bin r c k = Some (weighted_fourier_sum s c
        (fun t => overlap_sum w c (overlapping_blocks (length w) (length s) step) (t - begins s) / mean_overlap w c step)%R (IZR k / IZR (length w))).
Proof. exact padded_ok. Qed.
Print Assumptions C48_padded.

Example C48_padded_case : wf_signal five /\ wf_signal hann4 /\ 0 < count five /\ 0 < count hann4 /\
  (count five = count hann4 \/ count five = 1 \/ count hann4 = 1) /\ sampling_rate hann4 = sampling_rate five /\ sampling_rate five <> 0%R /\
  index (NInt 2) (length hann4) = Ok (length hann4 - 2) /\ 0 < 2 <= length hann4 /\ length hann4 <= length five /\
  (forall c, 0 <= c < count hann4 -> mean_overlap hann4 c 2 <> 0%R) /\
  overlapping_blocks (length hann4) (length five) 2 = [-2; 0; 2; 4] /\ inner_blocks (length hann4) (length five) 2 = [0].
Proof. exact five_ok. Qed.

(** With [pad=False], the blocks are those that are completely inside of the signal. *)
Theorem C48_unpadded : forall power modulo cpower cmodulo junk cjunk s w overlap step,
  wf_signal s -> wf_signal w -> 0 < count s -> 0 < count w -> count s = count w \/ count s = 1 \/ count w = 1 ->
  sampling_rate w = sampling_rate s -> sampling_rate s <> 0%R -> index overlap (length w) = Ok (length w - step) -> 0 < step <= length w ->
  (forall c, 0 <= c < count w -> mean_overlap w c step <> 0%R) ->
  exists r, fourier_transform (real_ops power modulo) real_transforms (real_numbers cpower cmodulo) junk cjunk s (Some w) overlap false = Ok r /\
    wf_spectrum r /\ sp_count r = Z.max (count s) (count w) /\ sp_length r = length w / 2 + 1 /\
    resolution r = (sampling_rate s / IZR (length w))%R /\
    sp_labels r = labels s ++ zrepeat EmptyString (Z.max (count s) (count w) - count s) /\
    forall c k, 0 <= c < Z.max (count s) (count w) -> 0 <= k <= length w / 2 ->
      bin r c k = Some (weighted_fourier_sum s c
        (fun t => overlap_sum w c (inner_blocks (length w) (length s) step) (t - begins s) / mean_overlap w c step)%R (IZR k / IZR (length w))).
Proof. exact unpadded_ok. Qed.
Print Assumptions C48_unpadded.

(** If the overlapping windows have a constant sum, no sample is weighted: the result is the Fourier transform of the signal at the
    frequencies of the spectrum. *)
Theorem C48_constant_overlap : forall power modulo cpower cmodulo junk cjunk s w overlap step,
  wf_signal s -> wf_signal w -> 0 < count s -> 0 < count w -> index overlap (length w) = Ok (length w - step) -> 0 < step <= length w ->
  count s = count w \/ count s = 1 \/ count w = 1 -> sampling_rate w = sampling_rate s -> sampling_rate s <> 0%R ->
  forall d, constant_overlap_add w step d -> d <> 0%R -> length w <= length s ->
  exists r, fourier_transform (real_ops power modulo) real_transforms (real_numbers cpower cmodulo) junk cjunk s (Some w) overlap true = Ok r /\
    wf_spectrum r /\ sp_count r = Z.max (count s) (count w) /\ sp_length r = length w / 2 + 1 /\
    resolution r = (sampling_rate s / IZR (length w))%R /\
    sp_labels r = labels s ++ zrepeat EmptyString (Z.max (count s) (count w) - count s) /\
    forall c k, 0 <= c < Z.max (count s) (count w) -> 0 <= k <= length w / 2 ->
      bin r c k = Some (fourier_sum s (if count s =? 1 then 0 else c) (IZR k / IZR (length w))).
Proof. exact constant_transform_ok. Qed.
Print Assumptions C48_constant_overlap.

(** The case: [five] and the periodic Hann window of 4 samples (see above) *)
Example C48_constant_overlap_case : constant_overlap_add hann4 2 1.
Proof. exact hann4_constant. Qed.

(** A signal that is shorter than the window is not transformed as it is expected: the block that begins with the signal is left out. *)
Theorem C48_short_signal : forall power modulo cpower cmodulo junk cjunk s w overlap step,
  wf_signal s -> wf_signal w -> 0 < count s -> 0 < count w -> count s = count w \/ count s = 1 \/ count w = 1 ->
  sampling_rate w = sampling_rate s -> sampling_rate s <> 0%R -> index overlap (length w) = Ok (length w - step) -> 0 < step <= length w ->
  (forall c, 0 <= c < count w -> mean_overlap w c step <> 0%R) -> length s < length w ->
  exists r, fourier_transform (real_ops power modulo) real_transforms (real_numbers cpower cmodulo) junk cjunk s (Some w) overlap true = Ok r /\
    wf_spectrum r /\ sp_count r = Z.max (count s) (count w) /\ sp_length r = length w / 2 + 1 /\
    resolution r = (sampling_rate s / IZR (length w))%R /\
    sp_labels r = labels s ++ zrepeat EmptyString (Z.max (count s) (count w) - count s) /\
    forall c k, 0 <= c < Z.max (count s) (count w) -> 0 <= k <= length w / 2 ->
      bin r c k = Some (weighted_fourier_sum s c
        (fun t => overlap_sum w c (filter (fun b => negb (b =? 0)) (overlapping_blocks (length w) (length s) step)) (t - begins s) / mean_overlap w c step)%R
        (IZR k / IZR (length w))).
Proof. exact short_ok. Qed.
Print Assumptions C48_short_signal.

Example C48_short_signal_case : length pulse < length hann4 /\ overlapping_blocks (length hann4) (length pulse) 2 = [-2; 0] /\
  filter (fun b => negb (b =? 0)) (overlapping_blocks (length hann4) (length pulse) 2) = [-2].
Proof. exact short_case. Qed.

(** Without overlap, nothing remains: any signal that is shorter than the window is transformed to zeros. *)
Theorem C48_short_signal_refuted : forall power modulo cpower cmodulo junk cjunk s w overlap,
  wf_signal s -> wf_signal w -> 0 < count s -> 0 < count w -> count s = count w \/ count s = 1 \/ count w = 1 ->
  sampling_rate w = sampling_rate s -> sampling_rate s <> 0%R -> index overlap (length w) = Ok 0 -> length s < length w ->
  (forall c, 0 <= c < count w -> mean_overlap w c (length w) <> 0%R) ->
  exists r, fourier_transform (real_ops power modulo) real_transforms (real_numbers cpower cmodulo) junk cjunk s (Some w) overlap true = Ok r /\
    sp_count r = Z.max (count s) (count w) /\ sp_length r = length w / 2 + 1 /\
    forall c k, 0 <= c < Z.max (count s) (count w) -> 0 <= k <= length w / 2 -> bin r c k = Some (C_of_R 0).
Proof. exact lost_ok. Qed.
Print Assumptions C48_short_signal_refuted.

(** The case: one sample with the value 1 and a window of two ones *)
Example C48_short_signal_refuted_case : wf_signal unit /\ wf_signal ones2 /\ 0 < count unit /\ 0 < count ones2 /\
  (count unit = count ones2 \/ count unit = 1 \/ count ones2 = 1) /\ sampling_rate ones2 = sampling_rate unit /\ sampling_rate unit <> 0%R /\
  index (NInt 0) (length ones2) = Ok 0 /\ length unit < length ones2 /\ (forall c, 0 <= c < count ones2 -> mean_overlap ones2 c (length ones2) <> 0%R) /\
  at_time unit 0 0 = Some 1%R.
Proof. exact unit_ok. Qed.

(** Blocks that do not advance are refused. *)
Theorem C48_full_overlap : forall power modulo cpower cmodulo junk cjunk s w overlap, 0 < count s -> 0 < count w -> forall pad, 0 < length w ->
  index overlap (length w) = Ok (length w) ->
  fourier_transform (real_ops power modulo) real_transforms (real_numbers cpower cmodulo) junk cjunk s (Some w) overlap pad = Err ValueError.
Proof. exact full_overlap_raises. Qed.
Print Assumptions C48_full_overlap.

Example C48_full_overlap_case : 0 < count five /\ 0 < count hann4 /\ 0 < length hann4 /\ index (NInt 4) (length hann4) = Ok (length hann4).
Proof. repeat split; reflexivity. Qed.
