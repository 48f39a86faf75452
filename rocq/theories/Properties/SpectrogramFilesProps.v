(** C61: spectrograms in files. *)

From Coq Require Import String Ascii ZArith QArith Reals List Bool.
From Verif.Model Require Import Py Numpy Cube Spectrogram SpectrogramFiles.
From Verif.Spec Require Import ComplexSpec SpectrogramFilesSpec.
From Verif.Proofs Require Import SpectrogramFilesFacts SpectrogramFilesCases.
Import ListNotations.
Open Scope list_scope.
Open Scope Z_scope.

(** * C61 Spectrograms in files *)

(** Whatever the memory contains, that has been allocated for the samples: the spectrogram that is read from a JSON file has the samples
    [real + 1j * imaginary] and the parameters in the file; parameters that are not in the file have their default value. *)
Theorem C61_json_reads : forall junk (d : spectrogram_dictionary) data channels bins samples, sj_channels d = Some data -> zlen data = channels ->
  0 < channels -> 0 < bins -> 0 < samples ->
  (forall c l l', zth data c = Some (l, l') -> rectangle bins samples l /\ rectangle bins samples l') ->
  exists s, read_spectrogram_json C_of_R j Cmul Cadd junk d = Ok (Loaded s) /\ wf_spectrogram s /\
    sg_count s = channels /\ sg_frequencies s = bins /\ sg_length s = samples /\ describes_dictionary d (fun x y => (x, y)) s.
Proof. exact json_reads. Qed.
Print Assumptions C61_json_reads.

(** A spectrogram with at least one sample is the same, after it has been stored in a JSON file. *)
Theorem C61_json : forall junk (s : spectrogram C Q), wf_spectrogram s -> 0 < sg_count s -> 0 < sg_frequencies s -> 0 < sg_length s ->
  exists t, read_spectrogram_json C_of_R j Cmul Cadd junk (spectrogram_as_dict re im s) = Ok (Loaded t) /\ same_spectrogram s t.
Proof. exact json_round. Qed.
Print Assumptions C61_json.

(** A spectrogram without samples is not: the result has a two dimensional array of channels. *)
Theorem C61_json_empty_refuted : forall junk (s : spectrogram C Q), wf_spectrogram s -> sg_count s = 0 \/ sg_frequencies s = 0 \/ sg_length s = 0 ->
  exists m resolution rate offset labels,
    read_spectrogram_json C_of_R j Cmul Cadd junk (spectrogram_as_dict re im s) = Ok (Flat m resolution rate offset labels) /\ nrows m = 1 /\ cols m = 0.
Proof. exact (fun junk s => json_empty C_of_R j Cmul Cadd junk re im s). Qed.
Print Assumptions C61_json_empty_refuted.

(** Every spectrogram is the same, after it has been stored in an npz file, if no label ends with a NUL character. *)
Theorem C61_npz : forall K (junk : Z -> Z -> Z -> K) (s : spectrogram K Q), wf_spectrogram s -> Forall no_nul_at_the_end (sg_labels s) ->
  exists t, read_spectrogram_npz junk (write_spectrogram_npz s) = Ok t /\ same_spectrogram s t.
Proof. exact @npz_same. Qed.
Print Assumptions C61_npz.

(** The NUL character at the end of a label is lost. *)
Theorem C61_npz_labels_refuted : forall K (junk : Z -> Z -> Z -> K) (s : spectrogram K Q) c l, wf_spectrogram s ->
  zth (sg_labels s) c = Some (l ++ String "000" EmptyString)%string ->
  exists t l', read_spectrogram_npz junk (write_spectrogram_npz s) = Ok t /\ zth (sg_labels t) c = Some l' /\ l' <> (l ++ String "000" EmptyString)%string.
Proof. exact @npz_nul. Qed.
Print Assumptions C61_npz_labels_refuted.

(** Two channels with two frequencies and three samples *)
Example C61_example : wf_spectrogram demo_stored_spectrogram /\
  sg_count demo_stored_spectrogram = 2 /\ sg_frequencies demo_stored_spectrogram = 2 /\ sg_length demo_stored_spectrogram = 3 /\
  Forall no_nul_at_the_end (sg_labels demo_stored_spectrogram).
Proof. exact demo_stored_ok. Qed.
(** The same code with integers as real and imaginary parts *)
Example C61_example_computed :
  let m := match read_spectrogram_json (fun x => (x, 0)) (0, 1) (fun a b => (fst a * fst b - snd a * snd b, fst a * snd b + snd a * fst b))
                   (fun a b => (fst a + fst b, snd a + snd b)) (fun _ _ _ => (99, 99))
                   (SpectrogramDictionary (Some [([[1; 2; 3]; [4; 5; 6]], [[-1; -2; -3]; [-4; -5; -6]])]) None (Some 44100%Q) None None) with
           | Ok (Loaded s) => Some (elements3 (sg_channels s), sg_resolution s, sg_rate s, sg_offset s, sg_labels s) | _ => None end in
  m = Some ([(1, -1); (2, -2); (3, -3); (4, -4); (5, -5); (6, -6)], 1%Q, 44100%Q, 0, [""%string]).
Proof. vm_compute. reflexivity. Qed.
Example C61_example_empty : wf_spectrogram demo_empty_spectrogram /\ sg_length demo_empty_spectrogram = 0.
Proof. exact demo_empty_ok. Qed.
