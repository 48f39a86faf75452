(** C70: wav files byte by byte.

    Which signals can be saved, which bytes the file has then, which files can be loaded, what is loaded from a file, whose saving has been interrupted
    after any number of bytes, and from a file with arbitrary contents. *)

From Coq Require Import String ZArith QArith List Bool.
From Verif.Model Require Import Py Numpy Signal Persistence Pcm Json Riff.
From Verif.Spec Require Import PcmSpec RiffSpec.
From Verif.Proofs Require Import RiffResults RiffAnything RiffCases.
Import ListNotations.
Open Scope list_scope.
Open Scope Z_scope.

(** ** Saving *)

(** A signal can be saved, if and only if its samples are in the range of the integers, and the numbers in the header do not overflow. *)
Theorem C70_writable : forall F junk s, In F wav_formats -> wf_signal s -> 1 <= count s ->
  exists rate, is_frame_rate (sampling_rate s) rate /\
    (fst (write_wave F junk s) = Ok tt <->
     (forall c t x, el (channels s) c t = Some x -> in_range F x) /\ header_fits (count s) (p_bits F / 8) rate (Signal.length s)).
Proof. exact writable_spec. Qed.
Print Assumptions C70_writable.

(** The file has a header, which is right, and then the samples. *)
Theorem C70_written : forall F junk s, In F wav_formats -> wf_signal s -> 1 <= count s -> fst (write_wave F junk s) = Ok tt ->
  exists rate codes, is_frame_rate (sampling_rate s) rate /\ quantised F s codes
    /\ contents (snd (write_wave F junk s)) = wav_file (count s) (p_bits F / 8) rate (frames_of F codes 0 (Signal.length s)).
Proof. exact written_spec. Qed.
Print Assumptions C70_written.
Example C70_written_case : wf_signal short /\ 1 <= count short.
Proof. exact short_wf. Qed.
Example C70_written_case_formats : forall F, In F wav_formats -> fst (write_wave F zeros short) = Ok tt.
Proof. exact short_saved. Qed.

(** If it cannot be saved, although the header is fine, then there is a file with the blocks of 2048 samples before the one with the first sample,
    that is out of range, and this file can be loaded. *)
Theorem C70_failed : forall ext F junk s e rjunk path, In F wav_formats -> wf_signal s -> 1 <= count s -> fst (write_wave F junk s) = Err e ->
  e = StructError /\ exists rate codes, is_frame_rate (sampling_rate s) rate /\ quantised F s codes /\
  (~ header_fits (count s) (p_bits F / 8) rate (Signal.length s)
   \/ exists k, 0 <= k < Signal.length s /\ (2048 | k)
        /\ (exists c t x, k <= t < k + 2048 /\ el (channels s) c t = Some x /\ ~ in_range F x)
        /\ contents (snd (write_wave F junk s)) = wav_file (count s) (p_bits F / 8) rate (frames_of F codes 0 k)
        /\ exists t, read_wave ext (contents (snd (write_wave F junk s))) rjunk path = Ok t /\ beginning F path s k t).
Proof. exact failed_spec. Qed.
Print Assumptions C70_failed.
Example C70_failed_case : wf_signal loud /\ 1 <= count loud /\ fst (write_wave wav_int16 zeros loud) = Err StructError
  /\ contents (snd (write_wave wav_int16 zeros loud)) = wav_file 1 2 44100 [].
Proof. exact loud_case. Qed.

(** ** Loading *)

(** Files by other programs, with other chunks, with a description of the samples in the extended form and with trailing contents *)
Theorem C70_reader : forall ext F ch rate codes leftover file junk path, In F wav_formats -> Forall (fun b => 0 <= b < 256) file -> wf codes -> nrows codes = ch ->
  (forall c t z, el codes c t = Some z -> storable F z) -> zlen leftover < ch * (p_bits F / 8) ->
  is_wav ext ch (p_bits F / 8) rate (frames_of F codes 0 (cols codes) ++ leftover) file ->
  exists t, read_wave ext file junk path = Ok t /\ decoded F path rate codes t.
Proof. exact reader. Qed.
Print Assumptions C70_reader.
Example C70_reader_case : is_wav false 2 (p_bits wav_int16 / 8) 48000 (frames_of wav_int16 (Arr [[1; -32768]; [-1; 32767]] 2) 0 2 ++ [7; 7; 7]) foreign.
Proof. exact foreign_case. Qed.
Example C70_reader_case_bytes : Forall (fun b => 0 <= b < 256) foreign.
Proof. exact foreign_bytes. Qed.
Example C70_reader_case_storable : forall c t z, el (Arr [[1; -32768]; [-1; 32767]] 2) c t = Some z -> storable wav_int16 z.
Proof. exact foreign_storable. Qed.

(** The files, that are saved, are among them. *)
Theorem C70_standard : forall ext ch width rate frames data, 1 <= ch -> 1 <= width <= 4 -> 0 <= rate -> zlen data = ch * width * frames ->
  header_fits ch width rate frames -> is_wav ext ch width rate data (wav_file ch width rate data).
Proof. exact wav_file_is_wav. Qed.
Print Assumptions C70_standard.

Theorem C70_round_trip : forall ext F junk s rjunk path, In F wav_formats -> wf_signal s -> 1 <= count s -> fst (write_wave F junk s) = Ok tt ->
  exists t, read_wave ext (contents (snd (write_wave F junk s))) rjunk path = Ok t /\ beginning F path s (Signal.length s) t.
Proof. exact round_trip. Qed.
Print Assumptions C70_round_trip.

(** Each sequence of bytes is either refused with an exception, or it is loaded as a signal. *)
Theorem C70_anything : forall ext file junk path, Forall (fun b => 0 <= b < 256) file ->
  (exists e, read_wave ext file junk path = Err e /\ In e [RuntimeError; KeyError; StructError])
  \/ exists t, read_wave ext file junk path = Ok t /\ wf_signal t /\ 1 <= count t.
Proof. exact anything. Qed.
Print Assumptions C70_anything.

(** ** Interruptions *)

(** Whenever the saving of a signal is interrupted, be it in the midst of a header, and also if saving fails: the file is refused, or the signal, that is loaded,
    has the first samples of the one, that was to be saved. *)
Theorem C70_crash : forall F, In F wav_formats -> forall junk s, wf_signal s -> 1 <= count s -> forall ext k rjunk path,
  let file := contents (ztake k (snd (write_wave F junk s))) in
  read_wave ext file rjunk path = Err RuntimeError \/ read_wave ext file rjunk path = Err StructError
  \/ exists t n, read_wave ext file rjunk path = Ok t /\ 0 <= n <= Signal.length s /\ beginning F path s n t.
Proof. exact crash. Qed.
Print Assumptions C70_crash.

(** A file, that has been saved and of which then only the first bytes remain, is refused. *)
Theorem C70_truncated : forall ext F ch rate frames data k rjunk path, In F wav_formats -> 1 <= ch -> 0 <= rate ->
  header_fits ch (p_bits F / 8) rate frames -> zlen data = ch * (p_bits F / 8) * frames -> Forall (fun b => 0 <= b < 256) data ->
  0 <= k < zlen (wav_file ch (p_bits F / 8) rate data) ->
  let file := ztake k (wav_file ch (p_bits F / 8) rate data) in
  read_wave ext file rjunk path = Err RuntimeError \/ read_wave ext file rjunk path = Err StructError.
Proof. exact truncated. Qed.
Print Assumptions C70_truncated.
Example C70_truncated_case : header_fits 2 (p_bits wav_int16 / 8) 44100 3 /\ zlen (zrepeat 7 12) = 2 * (p_bits wav_int16 / 8) * 3.
Proof. vm_compute. repeat split. Qed.

(** But an interrupted saving is not always noticed: after the first block of 2048 samples, the file can be loaded. *)
Theorem C70_interrupted_refuted : exists s file t, wf_signal s /\ fst (write_wave wav_uint8 zeros s) = Ok tt /\ interrupted (snd (write_wave wav_uint8 zeros s)) file
  /\ read_wave true file zeros2 "x.wav" = Ok t /\ Signal.length t < Signal.length s.
Proof. exact interrupted_refuted. Qed.
Print Assumptions C70_interrupted_refuted.

(** And there are signals, which cannot be saved, although their samples are in range. *)
Theorem C70_limits_refuted : wf_signal fast /\ (forall c t x, el (channels fast) c t = Some x -> in_range wav_int16 x)
  /\ fst (write_wave wav_int16 zeros fast) = Err StructError
  /\ contents (snd (write_wave wav_int16 zeros fast)) = codes "RIFFRIFF"
  /\ read_wave true (contents (snd (write_wave wav_int16 zeros fast))) zeros2 "x.wav" = Err RuntimeError.
Proof. exact fast_refused. Qed.
Print Assumptions C70_limits_refuted.
