(** Examples for the evaluation of representations *)

From Coq Require Import String ZArith List Bool Lia Reals Lra.
From Verif.Model Require Import Py Numpy Functions Signal Spectrum Cube Spectrogram Terms Filter Interpolation Bands Repr.
From Verif.Spec Require Import TermsSpec FilterSpec FrequencySpec InterpolationSpec ComplexSpec BandsSpec ReprSpec.
From Verif.Proofs Require Import PyFacts FilterExamples.
Import ListNotations.
Open Scope Z_scope.

Lemma demo_constructed : Forall (every constructed) (transfer_functions demo_filter) /\ finite_filter (fun _ => true) (fun _ => true) demo_filter /\
  In "Filter"%string reader_names /\ In "array"%string reader_names.
Proof.
  split; [|split; [|cbv [reader_names]; simpl; tauto]].
  - repeat constructor; discriminate.
  - repeat constructor.
Qed.

(** Two channels, two samples *)
Definition demo_signal : signal Z := Signal (Arr [[1; -2]; [3; 4]] 2) 48 (-7) ["a"; "b"]%string.
Definition demo_spectrum : spectrum Z Z := Spectrum (Arr [[1; -2; 5]] 3) 10 ["a"]%string.
Definition demo_spectrogram : spectrogram Z Z :=
  Spectrogram (Cube 1 2 2 (fun i j k => if inside 1 2 2 i j k then Some (10 * j + k) else None)) 10 20 (-3) ["a"]%string.

Lemma demo_data_ok : (wf_signal demo_signal /\ 0 < count demo_signal /\ 0 < length demo_signal) /\ (wf_spectrum demo_spectrum /\ 0 < sp_count demo_spectrum /\ 0 < sp_length demo_spectrum) /\
  (wf_spectrogram demo_spectrogram /\ 0 < sg_count demo_spectrogram /\ 0 < sg_frequencies demo_spectrogram /\ 0 < sg_length demo_spectrogram).
Proof.
  split; [|split]; (split; [|repeat split; reflexivity]).
  - split; [split; [discriminate|repeat constructor]|reflexivity].
  - split; [split; [discriminate|repeat constructor]|reflexivity].
  - split; [|reflexivity]. split; [discriminate|]. split; [discriminate|]. split; [discriminate|]. intros i j k. cbn [demo_spectrogram sg_channels cell dim0 dim1 dim2].
    destruct (inside 1 2 2 i j k); split; intros H; eauto; [destruct H; discriminate|discriminate].
Qed.

Lemma no_nan : ~ In "nan"%string all_names.
Proof.
  intros H. assert (E : existsb (String.eqb "nan") all_names = true) by (apply existsb_exists; exists "nan"%string; split; auto).
  vm_compute in E. discriminate.
Qed.
