(** C62: the axes and the views of data sets. *)

From Coq Require Import String ZArith QArith Reals List Bool.
From Verif.Model Require Import Py Numpy Signal Spectrum Cube Spectrogram Tables Views.
From Verif.Spec Require Import ComplexSpec ViewsSpec.
From Verif.Proofs Require Import ViewsFacts ViewsCases.
Import ListNotations.
Open Scope list_scope.
Open Scope Z_scope.

(** * C62 Axes and views *)

(** The time of the first sample is [offset / sampling_rate], the distance between the samples is [1 / sampling_rate] and there is one value
    for each sample.  The duration is the number of samples divided by the sampling rate. *)
Theorem C62_signal_times : forall s : signal Q, wf_signal s -> ~ (sampling_rate s == 0)%Q ->
  exists l d, time_samples s = Ok l /\ evenly_spaced l (Signal.length s) (inject_Z (offset s) / sampling_rate s) (1 / sampling_rate s) /\
    signal_duration s = Ok d /\ (d * sampling_rate s == inject_Z (Signal.length s))%Q.
Proof. exact signal_axis. Qed.
Print Assumptions C62_signal_times.

(** The frequencies of a spectrum are the multiples of its resolution; the last one is the maximum frequency. *)
Theorem C62_spectrum_frequencies : forall A (s : spectrum A Q), wf_spectrum s ->
  exists l, frequency_samples s = Ok l /\ evenly_spaced l (sp_length s) 0 (resolution s) /\
    forall x, zth l (sp_length s - 1) = Some x -> (x == spectrum_maximum_frequency s)%Q.
Proof. exact @spectrum_axis. Qed.
Print Assumptions C62_spectrum_frequencies.

(** A spectrogram has both axes. *)
Theorem C62_spectrogram_axes : forall A (s : spectrogram A Q), wf_spectrogram s -> ~ (sg_rate s == 0)%Q ->
  exists f t d, spectrogram_frequency_samples s = Ok f /\ evenly_spaced f (sg_frequencies s) 0 (sg_resolution s) /\
    (forall x, zth f (sg_frequencies s - 1) = Some x -> (x == spectrogram_maximum_frequency s)%Q) /\
    spectrogram_time_samples s = Ok t /\ evenly_spaced t (sg_length s) (inject_Z (sg_offset s) / sg_rate s) (1 / sg_rate s) /\
    spectrogram_duration s = Ok d /\ (d * sg_rate s == inject_Z (sg_length s))%Q.
Proof. exact @spectrogram_axes. Qed.
Print Assumptions C62_spectrogram_axes.

(** For each sample [z], [magnitude * exp(1j * phase) = z] and [real + 1j * imaginary = z] with a magnitude that is not negative and a phase
    in the interval from -pi (excluded) to pi (included); the arrays have the shape of the spectrum's array, and [abs] of the spectrum has the
    samples of the magnitude. *)
Theorem C62_spectrum_views : forall X (s : spectrum C X),
  (forall view, In view [spectrum_magnitude numpy_functions s; spectrum_phase numpy_functions s; spectrum_real numpy_functions s; spectrum_imaginary numpy_functions s] ->
     nrows view = sp_count s /\ cols view = sp_length s) /\
  forall c k z, el (sp_channels s) c k = Some z ->
    views_of z (el (spectrum_magnitude numpy_functions s) c k) (el (spectrum_phase numpy_functions s) c k) (el (spectrum_real numpy_functions s) c k) (el (spectrum_imaginary numpy_functions s) c k) /\
    forall power modulo, el (sp_channels (spectrum_abs (complex_ops power modulo) s)) c k = option_map C_of_R (el (spectrum_magnitude numpy_functions s) c k).
Proof. exact spectrum_views. Qed.
Print Assumptions C62_spectrum_views.

Theorem C62_spectrogram_views : forall X (s : spectrogram C X),
  (forall view, In view [spectrogram_magnitude numpy_functions s; spectrogram_phase numpy_functions s; spectrogram_real numpy_functions s; spectrogram_imaginary numpy_functions s] ->
     dim0 view = sg_count s /\ dim1 view = sg_frequencies s /\ dim2 view = sg_length s) /\
  forall c f n z, cell (sg_channels s) c f n = Some z ->
    views_of z (cell (spectrogram_magnitude numpy_functions s) c f n) (cell (spectrogram_phase numpy_functions s) c f n)
      (cell (spectrogram_real numpy_functions s) c f n) (cell (spectrogram_imaginary numpy_functions s) c f n) /\
    forall power modulo, cell (sg_channels (spectrogram_abs (complex_ops power modulo) s)) c f n = option_map C_of_R (cell (spectrogram_magnitude numpy_functions s) c f n).
Proof. exact spectrogram_views. Qed.
Print Assumptions C62_spectrogram_views.

(** A number other than zero has no other polar form in this interval: a spectrum that is made with the magnitude [r] and the phase [t]
    has them as its magnitude and its phase. *)
Theorem C62_polar_form : forall r t z, (0 < r)%R -> (- PI < t <= PI)%R -> Cmul (C_of_R r) (cis t) = z -> r = modulus z /\ t = argument z.
Proof. exact polar_unique. Qed.
Print Assumptions C62_polar_form.

Example C62_example_axes :
  match time_samples demo_axis_signal, frequency_samples demo_axis_spectrum with
  | Ok t, Ok f => map Qred t = [(-1 # 2)%Q; 0%Q; (1 # 2)%Q] /\ map Qred f = [0%Q; (5 # 2)%Q; 5%Q; (15 # 2)%Q]
  | _, _ => False
  end /\ wf_signal demo_axis_signal /\ wf_spectrum demo_axis_spectrum.
Proof. exact demo_axes_ok. Qed.
Example C62_example_views :
  spectrum_phase numpy_functions (mk_spectrum (Arr [[(0, -2); (-3, 0)]%R] 2) 1%Q None) = Arr [[- (PI / 2); PI]%R] 2 /\
  spectrum_magnitude numpy_functions (mk_spectrum (Arr [[(0, -2); (-3, 0)]%R] 2) 1%Q None) = Arr [[2; 3]%R] 2.
Proof. exact demo_views_ok. Qed.
