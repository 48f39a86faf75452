(** Specification of data sets with different types, for the blocks Merge and Concatenate *)

From Coq Require Import String ZArith List Bool.
From Verif.Model Require Import Py Numpy Signal Spectrum Cube Spectrogram Terms Filter MixedBlocks.
From Verif.Spec Require Import TimeSpec FrequencySpec.
Import ListNotations.
Open Scope Z_scope.

Inductive kind := KSignal | KSpectrum | KSpectrogram | KFilter | KOther.

Section Kinds.
Context {A K X : Type}.

(** The type of a data set *)
Definition kind_of (d : dataset A K X) : kind :=
  match d with DSignal _ => KSignal | DSpectrum _ => KSpectrum | DSpectrogram _ => KSpectrogram | DFilter _ => KFilter | DOther _ => KOther end.

(** A proper data set with at least one channel; a spectrogram has at least two frequencies. *)
Definition proper (d : dataset A K X) : Prop :=
  match d with
  | DSignal s => wf_signal s /\ 1 <= count s
  | DSpectrum s => wf_spectrum s /\ 1 <= sp_count s
  | DSpectrogram s => wf_spectrogram s /\ 1 <= sg_count s /\ 2 <= sg_frequencies s
  | DFilter f => zlen (f_labels f) = f_count f /\ 1 <= f_count f
  | DOther _ => True
  end.

(** The data sets do not all have the same type. *)
Definition mixed (data : list (dataset A K X)) : Prop := exists a b, In a data /\ In b data /\ kind_of a <> kind_of b.
End Kinds.

(** The samples of a signal, as if they were those of a spectrum *)
Definition as_spectrum {A} (s : signal A) : spectrum A A := Spectrum (channels s) (sampling_rate s) (labels s).
