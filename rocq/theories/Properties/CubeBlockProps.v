(** The properties C12, C13 and C14 (merging, histories, concatenating) for spectrograms and filters. *)

From Coq Require Import String ZArith QArith List Bool Lia ZifyBool.
From Verif.Model Require Import Py Numpy Functions Signal Cube Spectrogram Terms Filter Merge Concatenate CubeBlocks.
From Verif.Spec Require Import TimeSpec SpectrogramSpec FilterSpec MergeSpec ConcatSpec CubeBlocksSpec Demo.
From Verif.Proofs Require Import PyFacts MergeHistory CubeMerge CubeConcat.
From Verif.Properties Require Import SpectrogramProps.
Import ListNotations.
Open Scope Z_scope.

(** * C12 Merging *)

Theorem C12_merge_spectrograms : forall A R (O : ops A) junk mode (data : list (spectrogram A R)),
  data <> [] -> Forall wf_spectrogram data ->
  (mode = FIRST_CHANNELS_FIRST -> Forall (fun d => 1 <= sg_count d) data) ->
  exists r, merge_spectrograms O junk mode data = Ok r /\ merged_spectrogram O mode data r.
Proof. exact @merge_spectrograms_ok. Qed.
Print Assumptions C12_merge_spectrograms.

Theorem C12_merge_filters : forall K X mode (data : list (filter K X)),
  data <> [] -> Forall labelled data ->
  (mode = FIRST_CHANNELS_FIRST -> Forall (fun d => 1 <= f_count d) data) ->
  exists r, merge_filters mode data = Ok r /\ merged_filter mode data r.
Proof. exact @merge_filters_ok. Qed.
Print Assumptions C12_merge_filters.

Theorem C12_trivial_cases_of_spectrograms_and_filters : forall A R K X (O : ops A) junk mode (s : spectrogram A R) (F : filter K X),
  merge_spectrograms O junk mode [s] = Ok s /\ merge_filters mode [F] = Ok F /\
  @merge_spectrograms A R O junk mode [] = Err RuntimeError /\ @merge_filters K X mode [] = Err RuntimeError.
Proof. intros. repeat split. Qed.
Print Assumptions C12_trivial_cases_of_spectrograms_and_filters.

(** A spectrogram of two channels at the times 5, 6, 7 and one of a single channel at the times 7, 8. *)
Example C12_spectrogram_example :
  Forall wf_spectrogram [demo_sg; demo_sg_1] /\ Forall (fun d => 1 <= sg_count d) [demo_sg; demo_sg_1] /\
  exists r, merge_spectrograms Zops Zjunk3 FIRST_CHANNELS_FIRST [demo_sg; demo_sg_1] = Ok r /\
    sg_begins r = 5 /\ sg_ends r = 9 /\ sg_labels r = ["x"; "z"; "y"]%string /\
    elements3 (sg_channels r) = [1; 2; 3; 0; 4; 5; 6; 0;  0; 0; 100; 200; 0; 0; 300; 400;  7; 8; 9; 0; 10; 11; 12; 0].
Proof.
  pose proof C22_hypotheses as (_ & _ & W1 & W2 & _). split; [auto|].
  split; [apply Forall_cons; [vm_compute; discriminate|apply Forall_cons; [vm_compute; discriminate|constructor]]|].
  eexists. split; [vm_compute; reflexivity|]. repeat split; vm_compute; reflexivity.
Qed.

Example C12_filter_example :
  let F := mk_filter [@Constant Z Q 1; Constant 2] ["a"; "b"]%string in
  let G := mk_filter [@Exp Z Q 3 false] ["c"]%string in
  Forall labelled [F; G] /\ Forall (fun d => 1 <= f_count d) [F; G] /\
  merge_filters FIRST_CHANNELS_FIRST [F; G] = Ok (Filter [Constant 1; Exp 3 false; Constant 2] ["a"; "c"; "b"]%string) /\
  merge_filters FIRST_DATASET_FIRST [G; F] = Ok (Filter [Exp 3 false; Constant 1; Constant 2] ["c"; "a"; "b"]%string).
Proof.
  intros F G. split; [repeat constructor|].
  split; [apply Forall_cons; [vm_compute; discriminate|apply Forall_cons; [vm_compute; discriminate|constructor]]|].
  split; vm_compute; reflexivity.
Qed.

(** * C13 Histories *)

Theorem C13_history_spectrograms : forall A R (O : ops A) junk mode (h : list (call (spectrogram A R))), sensible [] h ->
  remaining h <> [] -> Forall wf_spectrogram (remaining h) -> Forall (fun d => 1 <= sg_count d) (remaining h) ->
  exists r, merge_output_spectrograms O junk (run (Merger [] mode) h) = Ok r /\
    merged_spectrogram O (latest_mode mode h) (remaining h) r.
Proof. exact @history_spectrograms. Qed.
Print Assumptions C13_history_spectrograms.

Theorem C13_history_filters : forall K X mode (h : list (call (filter K X))), sensible [] h ->
  remaining h <> [] -> Forall labelled (remaining h) -> Forall (fun d => 1 <= f_count d) (remaining h) ->
  exists r, merge_output_filters (run (Merger [] mode) h) = Ok r /\ merged_filter (latest_mode mode h) (remaining h) r.
Proof. exact @history_filters. Qed.
Print Assumptions C13_history_filters.

Theorem C13_history_concatenation_of_spectrograms : forall A R (O : ops A) junk mode (h : list (call (spectrogram A R))),
  exact_addition O -> sensible [] h -> 2 <= zlen (remaining h) -> Forall wf_spectrogram (remaining h) ->
  exists r, concatenate_spectrograms O junk (multi_values (mg_data (run (Merger [] mode) h))) = Ok r /\
    concatenated_spectrogram O (remaining h) r.
Proof. exact @history_concatenated_spectrograms. Qed.
Print Assumptions C13_history_concatenation_of_spectrograms.

(** Replacing a data set, that is not there, adds it behind the others. *)
Theorem C13_replace_unknown : forall D (h : list (call D)) mode i d,
  ~ In i (multi_ids (mg_data (run (Merger [] mode) h))) ->
  exists s', perform (run (Merger [] mode) h) (Replace i d) = Ok s' /\
    multi_values (mg_data s') = multi_values (mg_data (run (Merger [] mode) h)) ++ [d] /\
    mg_mode s' = mg_mode (run (Merger [] mode) h).
Proof. intros. now apply replace_unknown. Qed.
Print Assumptions C13_replace_unknown.

Example C13_spectrogram_example :
  let h := [Add 7 demo_sg_1; Add 3 demo_sg; Replace 7 demo_sg; Add 4 demo_sg_1; Remove 3] in
  sensible [] h /\ remaining h = [demo_sg; demo_sg_1] /\ Forall wf_spectrogram (remaining h) /\
  Forall (fun d => 1 <= sg_count d) (remaining h) /\ 2 <= zlen (remaining h) /\
  (exists i, ~ In i (multi_ids (mg_data (run (Merger [] FIRST_DATASET_FIRST) h)))).
Proof.
  intros h. pose proof C22_hypotheses as (_ & _ & W1 & W2 & _).
  split; [cbn; repeat split; auto; lia|]. split; [reflexivity|]. split; [change (remaining h) with [demo_sg; demo_sg_1]; auto|].
  split; [apply Forall_cons; [vm_compute; discriminate|apply Forall_cons; [vm_compute; discriminate|constructor]]|].
  split; [vm_compute; discriminate|]. exists 3. vm_compute. intros [E|[E|[]]]; discriminate E.
Qed.

(** * C14 Concatenating *)

Theorem C14_concatenate_spectrograms : forall A R (O : ops A) junk (data : list (spectrogram A R)), exact_addition O ->
  2 <= zlen data -> Forall wf_spectrogram data ->
  exists r, concatenate_spectrograms O junk data = Ok r /\ concatenated_spectrogram O data r.
Proof. exact @concatenate_spectrograms_ok. Qed.
Print Assumptions C14_concatenate_spectrograms.

Theorem C14_trivial_cases_of_spectrograms : forall A R (O : ops A) junk (s : spectrogram A R),
  concatenate_spectrograms O junk [s] = Ok s /\ @concatenate_spectrograms A R O junk [] = Err RuntimeError.
Proof. intros. repeat split. Qed.
Print Assumptions C14_trivial_cases_of_spectrograms.

(** The second spectrogram overlaps with the first one; the gap before the third one is filled with zeros. *)
Example C14_spectrogram_example :
  let a := Spectrogram (sg_channels demo_sg) 10 100 0 ["x"; "y"]%string in
  let b := Spectrogram (sg_channels demo_sg_1) 10 100 (-1) ["z"]%string in
  let c := Spectrogram (sg_channels demo_sg_1) 10 100 1 ["z"]%string in
  exact_addition Zops /\ Forall wf_spectrogram [a; b; c] /\
  exists r, concatenate_spectrograms Zops Zjunk3 [a; b; c] = Ok r /\ sg_begins r = 0 /\
    elements3 (sg_channels r) = [1; 2; 103; 200; 0; 100; 200;  4; 5; 306; 400; 0; 300; 400;
                                 7; 8; 9; 0; 0; 0; 0;  10; 11; 12; 0; 0; 0; 0] /\
    sg_labels r = ["Concatenation 1"; "Concatenation 2"]%string.
Proof.
  intros a b c. pose proof C22_hypotheses as (_ & _ & [W1 _] & [W2 _] & _). split; [|split].
  - unfold exact_addition. cbn. repeat split; intros; lia.
  - repeat (apply Forall_cons; [split; [assumption|vm_compute; reflexivity]|]). constructor.
  - eexists. split; [vm_compute; reflexivity|]. repeat split; vm_compute; reflexivity.
Qed.
