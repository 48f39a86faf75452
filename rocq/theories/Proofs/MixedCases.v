(** Cases of data sets with different types *)

From Coq Require Import String ZArith List Bool Lia ZifyBool.
From Verif.Model Require Import Py Numpy Functions Signal Spectrum Cube Spectrogram Terms Filter Merge Concatenate CubeBlocks MixedBlocks.
From Verif.Spec Require Import TimeSpec FrequencySpec SpectrogramSpec MergeSpec MixedSpec Demo.
From Verif.Proofs Require Import PyFacts NumpyFacts MergeOrder MergeFacts MixedMerge MixedConcatenate.
Import ListNotations.
Open Scope Z_scope.

Lemma spectrum_then_signals {A K X} (O : ops A) re junk junk3 mode (p : spectrum A A) (l : list (signal A)) :
  wf_spectrum p -> 1 <= sp_count p -> Forall (fun s => wf_signal s /\ 1 <= count s) l ->
  exists r, merge_mixed (K := K) (X := X) O re junk junk3 mode (DSpectrum p :: map DSignal l) = Ok (DSpectrum r) /\ merged_spectrum O mode (p :: map as_spectrum l) r.
Proof.
  intros W C F. destruct (merge_spectrum_first (K := K) (X := X) O re junk junk3 mode p (map DSignal l)) as (r & E & M).
  - rewrite Forall_map. apply Forall_forall. intros x _. right. reflexivity.
  - constructor; [split; assumption |]. rewrite Forall_map. exact F.
  - exists r. split; [exact E |]. rewrite map_map in M. exact M.
Qed.

Definition demo_spectrum : spectrum Z Z := Spectrum (Arr [[1; 2; 3]] 3) 10 ["p"%string].
(** One channel, two frequencies, two frames *)
Definition demo_gram : spectrogram Z Z :=
  Spectrogram (Cube 1 2 2 (fun i j k => if inside 1 2 2 i j k then Some (10 * j + k) else None)) 10 2 0 ["g"%string].
(** One channel with three samples *)
Definition demo_mono : signal Z := Signal (Arr [[7; 8; 9]] 3) 48000 0 ["s"%string].

Lemma demo_gram_proper : proper (K := Z) (X := Z) (DSpectrogram demo_gram).
Proof.
  cbn. unfold wf_spectrogram, wf_cube. cbn [sg_channels demo_gram dim0 dim1 dim2 cell sg_labels].
  repeat split; try (vm_compute; congruence); try lia.
  - intros (x & E). destruct (inside 1 2 2 i j k); congruence.
  - intros E. rewrite E. eexists. reflexivity.
Qed.
Lemma demo_mono_proper : proper (K := Z) (X := Z) (DSignal demo_mono).
Proof. repeat split; try (vm_compute; congruence). repeat constructor. Qed.
Lemma demo_ab_proper : proper (K := Z) (X := Z) (DSignal demo_ab).
Proof. split; [exact demo_ab_wf | vm_compute; congruence]. Qed.

Definition demo_result : result (dataset Z Z Z) :=
  concatenate_mixed Zops (fun x => x) Zjunk (fun _ _ _ => 99) [DSpectrogram demo_gram; DSignal demo_mono].

Lemma demo_result_cells : match demo_result with
  | Ok (DSpectrogram r) => (sg_frequencies r, map (fun f => map (fun t => sg_at r 0 f t) [2; 3; 4]) [0; 1; 2])
  | _ => (0, [])
  end = (3, [[Some 7; Some 8; Some 9]; [Some 7; Some 8; Some 9]; [Some 7; Some 8; Some 9]]).
Proof. vm_compute. reflexivity. Qed.

Lemma concatenated_gram_and_signal : exists r,
  concatenate_mixed (K := Z) (X := Z) Zops (fun x => x) Zjunk (fun _ _ _ => 99) [DSpectrogram demo_gram; DSignal demo_mono] = Ok (DSpectrogram r) /\
  sg_frequencies demo_gram = 2 /\ sg_frequencies r = 3 /\
  forall f, 0 <= f < 3 -> sg_at r 0 f 2 = Some 7 /\ sg_at r 0 f 3 = Some 8 /\ sg_at r 0 f 4 = Some 9.
Proof.
  pose proof demo_result_cells as H. fold demo_result. destruct demo_result as [[s | s | r | f | o] | e]; try discriminate.
  exists r. split; [reflexivity |]. split; [reflexivity |]. cbn [map] in H. injection H as H0 H1 H2 H3 H4 H5 H6 H7 H8 H9.
  split; [exact H0 |]. intros f H. assert (E : f = 0 \/ f = 1 \/ f = 2) by lia. destruct E as [-> | [-> | ->]]; auto.
Qed.
