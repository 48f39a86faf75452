(** The properties C12 (merging), C13 (histories of add, remove, replace) and C14 (concatenating). *)

From Coq Require Import String ZArith List Bool Lia ZifyBool Sorting.Sorted.
From Verif.Model Require Import Py Numpy Functions Signal Spectrum Merge Concatenate.
From Verif.Spec Require Import TimeSpec FrequencySpec MergeSpec ConcatSpec Demo.
From Verif.Proofs Require Import PyFacts NumpyFacts MergeOrder MergeFacts MergeHistory ConcatFacts.
Import ListNotations.
Open Scope Z_scope.

(** * C12 Merging *)

(** The specification of the order determines it completely. *)
Theorem C12_order_is_unique : forall mode counts order order',
  arrangement mode counts order -> arrangement mode counts order' -> order = order'.
Proof. exact arrangement_unique. Qed.
Print Assumptions C12_order_is_unique.

Theorem C12_merge_signals : forall A (O : ops A) junk mode (data : list (signal A)),
  data <> [] -> Forall wf_signal data ->
  (mode = FIRST_CHANNELS_FIRST -> Forall (fun d => 1 <= count d) data) ->
  exists r, merge_signals O junk mode data = Ok r /\ merged_signal O mode data r.
Proof. exact @merge_signals_ok. Qed.
Print Assumptions C12_merge_signals.

Theorem C12_merge_spectrums : forall A R (O : ops A) junk mode (data : list (spectrum A R)),
  data <> [] -> Forall wf_spectrum data ->
  (mode = FIRST_CHANNELS_FIRST -> Forall (fun d => 1 <= sp_count d) data) ->
  exists r, merge_spectrums O junk mode data = Ok r /\ merged_spectrum O mode data r.
Proof. exact @merge_spectrums_ok. Qed.
Print Assumptions C12_merge_spectrums.

(** A single data set is returned as it is; merging nothing raises an exception. *)
Theorem C12_trivial_cases : forall A R (O : ops A) junk mode (s : signal A) (p : spectrum A R),
  merge_signals O junk mode [s] = Ok s /\ merge_spectrums O junk mode [p] = Ok p /\
  merge_signals O junk mode [] = Err RuntimeError /\ @merge_spectrums A R O junk mode [] = Err RuntimeError.
Proof. intros. repeat split. Qed.
Print Assumptions C12_trivial_cases.

Example C12_example :
  (exists r, merge_signals Zops Zjunk FIRST_CHANNELS_FIRST [demo_ab; demo_c] = Ok r /\
     begins r = -1 /\ labels r = ["a"; "c"; "b"]%string /\
     rows (channels r) = [[1; 2; 3; 0]; [0; 0; 10; 20]; [4; 5; 6; 0]]) /\
  (exists r, merge_signals Zops Zjunk FIRST_DATASET_FIRST [demo_c; demo_ab] = Ok r /\
     begins r = -1 /\ labels r = ["c"; "a"; "b"]%string /\
     rows (channels r) = [[0; 0; 10; 20]; [1; 2; 3; 0]; [4; 5; 6; 0]]).
Proof. split; eexists; (split; [vm_compute; reflexivity|]); repeat split. Qed.

(** The condition on FIRST_CHANNELS_FIRST is needed: with an empty data set, the merge fails, although
    it succeeds in the other mode. *)
Theorem C12_empty_data_set_refuted : exists data : list (signal Z),
  Forall wf_signal data /\ (exists r, merge_signals Zops Zjunk FIRST_DATASET_FIRST data = Ok r) /\
  merge_signals Zops Zjunk FIRST_CHANNELS_FIRST data = Err IndexError.
Proof.
  exists [Signal (Arr [] 2) 48000 1 []; demo_c]. split; [|split; [eexists|]; vm_compute; reflexivity].
  repeat constructor; cbn; lia.
Qed.
Print Assumptions C12_empty_data_set_refuted.

(** * C13 Histories *)

(** After any history of calls, the output is the output for the data sets that remain
    according to the history, and for the merge mode that has been set last. *)
Theorem C13_history_signals : forall A (O : ops A) junk mode (h : list (call (signal A))), sensible [] h ->
  remaining h <> [] -> Forall wf_signal (remaining h) -> Forall (fun d => 1 <= count d) (remaining h) ->
  exists r, merge_output_signals O junk (run (Merger [] mode) h) = Ok r /\
    merged_signal O (latest_mode mode h) (remaining h) r.
Proof. exact @history_signals. Qed.
Print Assumptions C13_history_signals.

Theorem C13_history_spectrums : forall A R (O : ops A) junk mode (h : list (call (spectrum A R))), sensible [] h ->
  remaining h <> [] -> Forall wf_spectrum (remaining h) -> Forall (fun d => 1 <= sp_count d) (remaining h) ->
  exists r, merge_output_spectrums O junk (run (Merger [] mode) h) = Ok r /\
    merged_spectrum O (latest_mode mode h) (remaining h) r.
Proof. exact @history_spectrums. Qed.
Print Assumptions C13_history_spectrums.

Theorem C13_history_concatenation : forall A (O : ops A) junk mode (h : list (call (signal A))), exact_addition O ->
  sensible [] h -> 2 <= zlen (remaining h) -> Forall wf_signal (remaining h) ->
  exists r, concatenate_signals O junk (multi_values (mg_data (run (Merger [] mode) h))) = Ok r /\
    concatenated O (remaining h) r.
Proof. exact @history_concatenation. Qed.
Print Assumptions C13_history_concatenation.

(** When everything has been removed again, or nothing has been added. *)
Theorem C13_history_empty : forall A (O : ops A) junk mode (h : list (call (signal A))), sensible [] h ->
  remaining h = [] -> merge_output_signals O junk (run (Merger [] mode) h) = Err RuntimeError.
Proof. exact @history_empty. Qed.
Print Assumptions C13_history_empty.

(** Removing a data set that is not there. *)
Theorem C13_remove_unknown : forall D (h : list (call D)) mode i,
  ~ In i (multi_ids (mg_data (run (Merger [] mode) h))) ->
  perform (run (Merger [] mode) h) (Remove i) = Err KeyError.
Proof. intros. now apply remove_unknown. Qed.
Print Assumptions C13_remove_unknown.

(** Two data sets are added, the first one is replaced, a third one is added, the second one is removed. *)
Example C13_example :
  let h := [Add 7 demo_c; Add 3 demo_ab; Replace 7 demo_ab; SetMode FIRST_CHANNELS_FIRST; Add 4 demo_c; Remove 3] in
  sensible [] h /\ remaining h = [demo_ab; demo_c] /\ latest_mode FIRST_DATASET_FIRST h = FIRST_CHANNELS_FIRST /\
  Forall wf_signal (remaining h) /\ Forall (fun d => 1 <= count d) (remaining h).
Proof.
  intros h. split; [cbn; repeat split; auto; lia|]. split; [reflexivity|]. split; [reflexivity|]. split.
  - apply Forall_cons; [apply demo_ab_wf|]. apply Forall_cons; [apply demo_c_wf|]. constructor.
  - apply Forall_cons; [vm_compute; discriminate|]. apply Forall_cons; [vm_compute; discriminate|]. constructor.
Qed.

(** * C14 Concatenating *)

Theorem C14_concatenate : forall A (O : ops A) junk (data : list (signal A)), exact_addition O ->
  2 <= zlen data -> Forall wf_signal data ->
  exists r, concatenate_signals O junk data = Ok r /\ concatenated O data r.
Proof. exact @concatenate_signals_ok. Qed.
Print Assumptions C14_concatenate.

Theorem C14_trivial_cases : forall A (O : ops A) junk (s : signal A),
  concatenate_signals O junk [s] = Ok s /\ concatenate_signals O junk [] = Err RuntimeError.
Proof. intros. repeat split. Qed.
Print Assumptions C14_trivial_cases.

(** An overlap, a gap, and a data set within an earlier one. *)
Example C14_example :
  let a := Signal (Arr [[1; 2; 3; 4]] 4) 48000 0 ["a"%string] in
  let b := Signal (Arr [[10; 20]; [30; 40]] 2) 48000 (-1) ["b"; "c"]%string in
  let c := Signal (Arr [[100]] 1) 48000 (-4) ["d"%string] in
  let d := Signal (Arr [[1000]] 1) 48000 5 ["e"%string] in
  exact_addition Zops /\ Forall wf_signal [a; b; c; d] /\
  exists r, concatenate_signals Zops Zjunk [a; b; c; d] = Ok r /\ begins r = 0 /\
    rows (channels r) = [[1; 102; 3; 14; 20; 0; 0; 1000]; [0; 0; 0; 30; 40; 0; 0; 0]] /\
    labels r = ["Concatenation 1"; "Concatenation 2"]%string.
Proof.
  intros a b c d. split; [|split].
  - unfold exact_addition. cbn. repeat split; intros; lia.
  - repeat constructor; cbn; lia.
  - eexists. split; [vm_compute; reflexivity|]. repeat split.
Qed.
