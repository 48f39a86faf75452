(** C71: sound files, that are written with the library soundfile.

    The library is not part of the repository.  The theorems hold for each function [encode], that says which samples are in the file afterwards. *)

From Coq Require Import String ZArith QArith List Bool.
From Verif.Model Require Import Py Numpy Signal FileFormats Pcm Soundfile.
From Verif.Spec Require Import SoundfileSpec.
From Verif.Proofs Require Import SoundfileData SoundfileCases.
Import ListNotations.
Open Scope string_scope.
Open Scope list_scope.
Open Scope Z_scope.

(** For each format, for which there is a writer with this library, the library is called with the format and the encoding, of which the name of the
    format consists, with the samples frame by frame, and with a sampling rate, which the format supports.  It is the one, which is nearest to that of
    the signal, with one exception. *)
Theorem C71_saved : forall encode name s e, In e signal_writers -> e_name e = "SoundfileWriter" -> In name (e_supported e) -> wf_signal s ->
  exists format suffix subtype rate data, name = (format ++ "_" ++ suffix)%string /\ In (suffix, subtype) encoding_names
    /\ supported format rate
    /\ (is_nearest format (sampling_rate s) rate
        \/ format = "FLAC" /\ (131071 # 2 <= sampling_rate s)%Q /\ (sampling_rate s < 131075 # 2)%Q /\ rate = 65540)
    /\ is_interleaved (channels s) data
    /\ write_soundfile encode name s = match encode format subtype rate (count s) data with
                                       | Ok d => Ok (Sound format subtype rate (count s) d)
                                       | Err e => Err e
                                       end.
Proof. exact saved_spec. Qed.
Print Assumptions C71_saved.
Example C71_saved_case : wf_signal stereo /\ 1 <= count stereo.
Proof. exact stereo_wf. Qed.
Example C71_saved_case_result : write_soundfile as_is "FLAC_INT16" stereo = Ok (Sound "FLAC" "PCM_16" 96000 2 [1 # 2; 1; -1 # 4; 3 # 4; 0; -1]%Q).
Proof. exact stereo_saved. Qed.
Example C71_saved_case_rates : is_nearest "FLAC" (96004 # 1) 96000 /\ is_nearest "OGG" (1 # 2) 1000 /\ is_nearest "WAV" (-3 # 1) 1.
Proof. exact nearest_case. Qed.

(** The exception: between 65535.5 Hz and 65537.5 Hz, 65535 Hz are nearer than 65540 Hz, which the docstring of the conversion does not mention. *)
Theorem C71_flac_refuted : exists s f, wf_signal s /\ write_soundfile as_is "FLAC_INT16" s = Ok f /\ sampling_rate s = 65536%Q
  /\ ~ is_nearest (so_format f) (sampling_rate s) (so_rate f).
Proof. exact gap_refuted. Qed.
Print Assumptions C71_flac_refuted.

(** Each file with complete frames can be loaded. *)
Theorem C71_loaded : forall junk path f n, 1 <= so_channels f -> zlen (so_data f) = so_channels f * n ->
  exists s, read_soundfile junk path f = Ok s /\ is_loaded path f n s.
Proof. exact loaded. Qed.
Print Assumptions C71_loaded.
Example C71_loaded_case : (s <- write_soundfile as_is "FLAC_INT16" stereo ;; read_soundfile (fun _ _ => 0%Q) "a/b.flac" s)
  = Ok (Signal (channels stereo) 96000%Q 0 ["b.flac 1"; "b.flac 2"]).
Proof. exact stereo_loaded. Qed.

(** If the encoding changes each sample on its own, with a function [g], like the integer and the floating point formats, then the loaded signal has the
    samples of the saved one, changed by [g], in the same order. *)
Theorem C71_round_trip : forall (g : string -> string -> Q -> Q) name s junk path f,
  wf_signal s -> 1 <= count s -> write_soundfile (fun format subtype _ _ data => Ok (map (g format subtype) data)) name s = Ok f ->
  exists t, read_soundfile junk path f = Ok t
    /\ wf_signal t /\ count t = count s /\ Signal.length t = Signal.length s /\ sampling_rate t = inject_Z (so_rate f) /\ offset t = 0
    /\ labels t = map (file_label path) (zseq 1 (count s))
    /\ forall c i x, el (channels s) c i = Some x -> el (channels t) c i = Some (g (so_format f) (so_subtype f) x).
Proof. exact round_trip. Qed.
Print Assumptions C71_round_trip.
