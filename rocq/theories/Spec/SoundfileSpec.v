(** The sampling rates, which the formats of sound files support, and what a sound file and the loaded signal contain *)

From Coq Require Import String ZArith QArith Qabs List Bool.
From Verif.Model Require Import Py Numpy Signal Pcm Soundfile.
Import ListNotations.
Open Scope string_scope.
Open Scope list_scope.
Open Scope Z_scope.

(** The integers, which are a sampling rate in the format: FLAC files store up to 65535 Hz as such and more in tens of Hertz, with 16 bits. *)
Definition supported (format : string) (r : Z) : Prop :=
  if String.eqb format "FLAC" then 1 <= r <= 65535 \/ exists k, r = 10 * k /\ 1 <= k <= 65535
  else if String.eqb format "OGG" then 1000 <= r <= 200000
  else 1 <= r.

(** [r] is the supported sampling rate, that is nearest to [rate]. *)
Definition is_nearest (format : string) (rate : Q) (r : Z) : Prop :=
  supported format r /\ forall k, supported format k -> (Qabs (rate - inject_Z r) <= Qabs (rate - inject_Z k))%Q.

(** The name of an encoding of samples in the enumeration of the file formats, after the name of the format *)
Definition encoding_names : list (string * string) :=
  [("UINT8", "PCM_U8"); ("INT8", "PCM_S8"); ("INT16", "PCM_16"); ("INT24", "PCM_24"); ("INT32", "PCM_32");
   ("FLOAT32", "FLOAT"); ("FLOAT64", "DOUBLE"); ("ULAW", "ULAW"); ("ALAW", "ALAW"); ("VORBIS", "VORBIS")].

(** [data] are the samples frame by frame. *)
Definition is_interleaved {A} (m : arr A) (data : list A) : Prop :=
  zlen data = nrows m * cols m /\ forall c t x, el m c t = Some x -> zth data (t * nrows m + c) = Some x.

(** The loaded signal has the samples [data]. *)
Definition is_loaded (path : string) (f : sound) (n : Z) (s : signal Q) : Prop :=
  wf_signal s /\ count s = so_channels f /\ Signal.length s = n /\ sampling_rate s = inject_Z (so_rate f) /\ offset s = 0 /\
  labels s = map (file_label path) (zseq 1 (so_channels f)) /\ is_interleaved (channels s) (so_data f).
