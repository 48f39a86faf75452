(** Property C73: data sets of different types in the blocks Merge and Concatenate.  [re] is the conversion of a sample to a real number, [junk] and
    [junk3] are the contents of freshly allocated memory. *)

From Coq Require Import String ZArith List Bool Lia.
From Verif.Model Require Import Py Numpy Functions Signal Spectrum Cube Spectrogram Terms Filter Merge Concatenate CubeBlocks MixedBlocks.
From Verif.Spec Require Import TimeSpec FrequencySpec SpectrogramSpec MergeSpec MixedSpec Demo.
From Verif.Proofs Require Import MixedMerge MixedConcatenate MixedCases.
Import ListNotations.
Open Scope Z_scope.

(** Data sets, that all have the same type, are merged as the theorems C12 say, ... *)
Theorem C73_merge_same_type : forall A K X (O : ops A) re junk junk3 mode,
  (forall l, merge_mixed (K := K) (X := X) O re junk junk3 mode (map DSignal l) = rmap DSignal (merge_signals O junk mode l)) /\
  (forall l, merge_mixed (K := K) (X := X) O re junk junk3 mode (map DSpectrum l) = rmap DSpectrum (merge_spectrums O junk mode l)) /\
  (forall l, merge_mixed (K := K) (X := X) O re junk junk3 mode (map DSpectrogram l) = rmap DSpectrogram (merge_spectrograms O junk3 mode l)) /\
  (forall l, merge_mixed (K := K) (X := X) O re junk junk3 mode (map DFilter l) = rmap DFilter (merge_filters mode l)).
Proof.
  exact (fun A K X O re junk junk3 mode => conj (merge_same_signals O re junk junk3 mode) (conj (merge_same_spectrums O re junk junk3 mode)
    (conj (merge_same_spectrograms O re junk junk3 mode) (merge_same_filters O re junk junk3 mode)))).
Qed.
Print Assumptions C73_merge_same_type.

(** ... others are refused, unless the first one is a spectrum and the others are spectrums or signals. *)
Theorem C73_merge_refused : forall A K X (O : ops A) re junk junk3 mode (data : list (dataset A K X)), Forall proper data -> mixed data ->
  (forall p l, data = DSpectrum p :: l -> exists d, In d l /\ kind_of d <> KSpectrum /\ kind_of d <> KSignal) ->
  exists e, merge_mixed O re junk junk3 mode data = Err e.
Proof. exact @merge_refused. Qed.
Print Assumptions C73_merge_refused.

Example C73_merge_refused_case : let data := [DSignal demo_ab; DSpectrogram demo_gram] : list (dataset Z Z Z) in
  Forall proper data /\ mixed data /\ (forall p l, data = DSpectrum p :: l -> exists d, In d l /\ kind_of d <> KSpectrum /\ kind_of d <> KSignal).
Proof.
  split; [repeat constructor; try apply demo_ab_proper; apply demo_gram_proper |]. split.
  - exists (DSignal demo_ab), (DSpectrogram demo_gram). split; [left; reflexivity | split; [right; left; reflexivity | discriminate]].
  - intros p l E. discriminate.
Qed.

(** In that case, the samples of the signals become those of a spectrum. *)
Theorem C73_merge_refuted : forall A K X (O : ops A) re junk junk3 mode (p : spectrum A A) (l : list (signal A)),
  wf_spectrum p -> 1 <= sp_count p -> Forall (fun s => wf_signal s /\ 1 <= count s) l ->
  exists r, merge_mixed (K := K) (X := X) O re junk junk3 mode (DSpectrum p :: map DSignal l) = Ok (DSpectrum r) /\ merged_spectrum O mode (p :: map as_spectrum l) r.
Proof. exact @spectrum_then_signals. Qed.
Print Assumptions C73_merge_refuted.

Example C73_merge_refuted_case :
  exists r, merge_mixed (K := Z) (X := Z) Zops (fun x => x) Zjunk (fun _ _ _ => 99) FIRST_DATASET_FIRST [DSpectrum demo_spectrum; DSignal demo_c] = Ok (DSpectrum r) /\
    rows (sp_channels r) = [[1; 2; 3]; [10; 20; 0]] /\ sp_labels r = ["p"; "c"]%string.
Proof. eexists. split; [vm_compute; reflexivity | split; reflexivity]. Qed.

(** Signals are concatenated with signals and spectrograms with spectrograms, as the theorems C14 say. *)
Theorem C73_concatenate_same_type : forall A K X (O : ops A) re junk junk3,
  (forall l, concatenate_mixed (K := K) (X := X) O re junk junk3 (map DSignal l) = rmap DSignal (concatenate_signals O junk l)) /\
  (forall l, concatenate_mixed (K := K) (X := X) O re junk junk3 (map DSpectrogram l) = rmap DSpectrogram (concatenate_spectrograms O junk3 l)).
Proof. exact (fun A K X O re junk junk3 => conj (concatenate_same_signals O re junk junk3) (concatenate_same_spectrograms O re junk junk3)). Qed.
Print Assumptions C73_concatenate_same_type.

(** If data sets of different types are concatenated nevertheless, the result is a spectrogram and the signals have one channel or as many channels as samples. *)
Theorem C73_concatenate_mixed : forall A K X (O : ops A) re junk junk3 (data : list (dataset A K X)) r, Forall proper data -> mixed data ->
  concatenate_mixed O re junk junk3 data = Ok r ->
  kind_of r = KSpectrogram /\ forall s, In (DSignal s) data -> count s = 1 \/ count s = Signal.length s.
Proof. exact @concatenate_mixed_result. Qed.
Print Assumptions C73_concatenate_mixed.

Example C73_concatenate_mixed_case : let data := [DSpectrogram demo_gram; DSignal demo_mono] : list (dataset Z Z Z) in
  Forall proper data /\ mixed data /\ exists r, concatenate_mixed Zops (fun x => x) Zjunk (fun _ _ _ => 99) data = Ok r.
Proof.
  split; [repeat constructor; try apply demo_mono_proper; apply demo_gram_proper |]. split.
  - exists (DSpectrogram demo_gram), (DSignal demo_mono). split; [left; reflexivity | split; [right; left; reflexivity | discriminate]].
  - destruct concatenated_gram_and_signal as (r & E & _). exists (DSpectrogram r). exact E.
Qed.

(** Signals with two channels and three samples are refused in all positions. *)
Example C73_concatenate_refused_case :
  (exists e, concatenate_mixed (K := Z) (X := Z) Zops (fun x => x) Zjunk (fun _ _ _ => 99) [DSpectrogram demo_gram; DSignal demo_ab] = Err e) /\
  (exists e, concatenate_mixed (K := Z) (X := Z) Zops (fun x => x) Zjunk (fun _ _ _ => 99) [DSignal demo_ab; DSpectrogram demo_gram] = Err e).
Proof. split; eexists; vm_compute; reflexivity. Qed.

(** This does happen: the signal is copied to each of as many frequencies as it has samples. *)
Theorem C73_concatenate_refuted : exists r,
  concatenate_mixed (K := Z) (X := Z) Zops (fun x => x) Zjunk (fun _ _ _ => 99) [DSpectrogram demo_gram; DSignal demo_mono] = Ok (DSpectrogram r) /\
  sg_frequencies demo_gram = 2 /\ sg_frequencies r = 3 /\
  forall f, 0 <= f < 3 -> sg_at r 0 f 2 = Some 7 /\ sg_at r 0 f 3 = Some 8 /\ sg_at r 0 f 4 = Some 9.
Proof. exact concatenated_gram_and_signal. Qed.
Print Assumptions C73_concatenate_refuted.
