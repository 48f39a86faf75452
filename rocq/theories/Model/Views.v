(** Model of the derived parameters of signals, spectrums and spectrograms: the axes (in exact rational arithmetic) and the arrays
    with the magnitudes, the phases, the real and the imaginary parts. *)

From Coq Require Import ZArith QArith List Bool.
From Verif.Model Require Import Py Numpy Signal Spectrum Cube Spectrogram Tables.
Import ListNotations.
Open Scope Z_scope.

(** ** Axes; a division by zero raises an error, because [sampling_rate()] is a float (not one of NumPy's). *)

(** _signals/_signal.py:281-286; [time_samples()] is modelled in Model/Tables.v *)
Definition signal_duration (s : signal Q) : result Q :=
  if Qeq_bool (sampling_rate s) 0 then Err ZeroDivisionError else Ok (inject_Z (Signal.length s) / sampling_rate s)%Q.

(** _spectrums/_spectrum.py:267-272; [frequency_samples()] is modelled in Model/Tables.v *)
Definition spectrum_maximum_frequency {A} (s : spectrum A Q) : Q := (inject_Z (sp_length s - 1) * resolution s)%Q.

(** _spectrograms/_spectrogram.py:241-253 *)
Definition spectrogram_maximum_frequency {A} (s : spectrogram A Q) : Q := (inject_Z (sg_frequencies s - 1) * sg_resolution s)%Q.
Definition spectrogram_duration {A} (s : spectrogram A Q) : result Q :=
  if Qeq_bool (sg_rate s) 0 then Err ZeroDivisionError else Ok (inject_Z (sg_length s) / sg_rate s)%Q.

(** _spectrograms/_spectrogram.py:290-304 *)
Definition spectrogram_frequency_samples {A} (s : spectrogram A Q) : result (list Q) :=
  linspace 0%Q (spectrogram_maximum_frequency s) (sg_frequencies s).
Definition spectrogram_time_samples {A} (s : spectrogram A Q) : result (list Q) :=
  if Qeq_bool (sg_rate s) 0 then Err ZeroDivisionError
  else linspace (inject_Z (sg_offset s) / sg_rate s)%Q (inject_Z (sg_length s + sg_offset s - 1) / sg_rate s)%Q (sg_length s).

(** ** Arrays *)

(** NumPy's functions for one complex number: [numpy.absolute], [numpy.angle], [numpy.real] and [numpy.imag] *)
Record complex_functions (K T : Type) := ComplexFunctions { absolute : K -> T; angle : K -> T; real_part : K -> T; imaginary_part : K -> T }.
Arguments ComplexFunctions {K T}. Arguments absolute {K T}. Arguments angle {K T}. Arguments real_part {K T}. Arguments imaginary_part {K T}.

Section Arrays.
Context {K T R : Type}.
Variable N : complex_functions K T.

(** _spectrums/_spectrum.py:274-303 *)
Definition spectrum_magnitude (s : spectrum K R) : arr T := ufunc1 (absolute N) (sp_channels s).
Definition spectrum_phase (s : spectrum K R) : arr T := ufunc1 (angle N) (sp_channels s).
Definition spectrum_real (s : spectrum K R) : arr T := ufunc1 (real_part N) (sp_channels s).
Definition spectrum_imaginary (s : spectrum K R) : arr T := ufunc1 (imaginary_part N) (sp_channels s).

(** _spectrograms/_spectrogram.py:255-284 *)
Definition spectrogram_magnitude (s : spectrogram K R) : cube T := map3 (absolute N) (sg_channels s).
Definition spectrogram_phase (s : spectrogram K R) : cube T := map3 (angle N) (sg_channels s).
Definition spectrogram_real (s : spectrogram K R) : cube T := map3 (real_part N) (sg_channels s).
Definition spectrogram_imaginary (s : spectrogram K R) : cube T := map3 (imaginary_part N) (sg_channels s).
End Arrays.
