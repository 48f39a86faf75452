(** Model of the writing and the reading of sound files with the library [soundfile]:
    /repo/sumpf/_internal/_persistence/_signal_writers.py:328-404 and _signal_readers.py:264-285.

    Simplifications: samples and sampling rates are rational numbers; infinite sampling rates and NaN are left out.  A file is what the library returns
    about it: the format, the encoding, the sampling rate, the number of channels and the samples.  The encoding of the samples is a parameter of the
    model, because the library is not part of the repository; it may refuse to encode them. *)

From Coq Require Import String ZArith QArith List Bool.
From Verif.Model Require Import Py Numpy Functions Signal Persistence Pcm.
Import ListNotations.
Open Scope string_scope.
Open Scope list_scope.
Open Scope Z_scope.

(** ** The sampling rates *)

(** [x < y] for numbers *)
Definition qltb (x y : Q) : bool := negb (Qle_bool y x).

(** [round(x, -1)]: to tens, a tie to the even ten *)
Definition round_tens (x : Q) : Z := 10 * py_round (x / 10)%Q.

(** _signal_writers.py:382-386 *)
Definition int_greater_zero (sampling_rate : Q) : Z := Z.max 1 (py_round sampling_rate).

(** _signal_writers.py:388-395 *)
Definition flac (sampling_rate : Q) : Z :=
  if qltb sampling_rate (131071 # 2) then Z.max 1 (py_round sampling_rate)
  else Z.min (round_tens sampling_rate) 655350.

(** _signal_writers.py:397-401 *)
Definition vorbis (sampling_rate : Q) : Z := Z.max 1000 (Z.min (py_round sampling_rate) 200000).

(** ** Writing *)

(** _signal_writers.py:347-367 *)
Definition settings : list (string * (string * string * (Q -> Z))) :=
  [("WAV_UINT8", ("WAV", "PCM_U8", int_greater_zero));
   ("WAV_INT16", ("WAV", "PCM_16", int_greater_zero));
   ("WAV_INT24", ("WAV", "PCM_24", int_greater_zero));
   ("WAV_INT32", ("WAV", "PCM_32", int_greater_zero));
   ("WAV_FLOAT32", ("WAV", "FLOAT", int_greater_zero));
   ("WAV_FLOAT64", ("WAV", "DOUBLE", int_greater_zero));
   ("WAV_ULAW", ("WAV", "ULAW", int_greater_zero));
   ("WAV_ALAW", ("WAV", "ALAW", int_greater_zero));
   ("AIFF_UINT8", ("AIFF", "PCM_U8", int_greater_zero));
   ("AIFF_INT8", ("AIFF", "PCM_S8", int_greater_zero));
   ("AIFF_INT16", ("AIFF", "PCM_16", int_greater_zero));
   ("AIFF_INT24", ("AIFF", "PCM_24", int_greater_zero));
   ("AIFF_INT32", ("AIFF", "PCM_32", int_greater_zero));
   ("AIFF_FLOAT32", ("AIFF", "FLOAT", int_greater_zero));
   ("AIFF_FLOAT64", ("AIFF", "DOUBLE", int_greater_zero));
   ("AIFF_ULAW", ("AIFF", "ULAW", int_greater_zero));
   ("AIFF_ALAW", ("AIFF", "ALAW", int_greater_zero));
   ("FLAC_INT8", ("FLAC", "PCM_S8", flac));
   ("FLAC_INT16", ("FLAC", "PCM_16", flac));
   ("FLAC_INT24", ("FLAC", "PCM_24", flac));
   ("OGG_VORBIS", ("OGG", "VORBIS", vorbis))].

(** A file: the format, the encoding, the sampling rate, the number of the channels and the samples, frame by frame, as the library returns them *)
Record sound := Sound { so_format : string; so_subtype : string; so_rate : Z; so_channels : Z; so_data : list Q }.

(** [m.transpose()], the elements of which are enumerated row by row *)
Definition transposed {A} (m : arr A) : list A :=
  flat_map (fun t => flat_map (fun r => match zth r t with Some x => [x] | None => [] end) (rows m)) (zseq 0 (cols m)).

Section Writing.
(** [encode format subtype samplerate channels data]: the samples, which are in the file, after [soundfile.write] has written [data] *)
Variable encode : string -> string -> Z -> Z -> list Q -> result (list Q).

(** _signal_writers.py:336-380, [__init__] and [__call__] *)
Definition write_soundfile (file_format : string) (s : signal Q) : result sound :=
  match lookup String.eqb file_format settings with
  | None => Err KeyError
  | Some (format, subtype, sampling_rate_conversion) =>
      let samplerate := sampling_rate_conversion (sampling_rate s) in
      data <- encode format subtype samplerate (count s) (transposed (channels s)) ;;
      Ok (Sound format subtype samplerate (count s) data)
  end.
End Writing.

(** ** Reading *)

(** [f.frames] *)
Definition so_frames (f : sound) : Z := zlen (so_data f) / so_channels f.

(** [a.reshape((r, c))] *)
Definition reshape {A} (a : list A) (r c : Z) : result (arr A) :=
  if zlen a =? r * c then Ok (Arr (map (fun i => subseq (between (i * c) ((i + 1) * c)) a) (zseq 0 r)) c)
  else Err ValueError.

(** [m.transpose()] *)
Definition transpose {A} (m : arr A) : arr A :=
  Arr (map (fun j => flat_map (fun r => match zth r j with Some x => [x] | None => [] end) (rows m)) (zseq 0 (cols m))) (nrows m).

(** _signal_readers.py:272-285, [__call__]; [channels.transpose()[:] = a] is [channels[:] = a.transpose()]. *)
Definition read_soundfile (junk : Z -> Z -> Q) (path : string) (f : sound) : result (signal Q) :=
  channels <- allocate junk (so_channels f) (so_frames f) ;;
  a <- reshape (so_data f) (so_frames f) (so_channels f) ;;
  channels <- set_block channels everything everything (transpose a) ;;
  Ok (mk_signal channels (inject_Z (so_rate f)) 0 (Some (map (file_label path) (zseq 1 (so_channels f))))).
