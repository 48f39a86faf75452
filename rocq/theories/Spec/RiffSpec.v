(** What a wav file with integers is, byte by byte.  Independent of the functions, that write and read one. *)

From Coq Require Import String ZArith QArith List Bool.
From Verif.Model Require Import Py Numpy Functions Signal Pcm Json Riff.
From Verif.Spec Require Import PcmSpec.
Import ListNotations.
Open Scope list_scope.
Open Scope Z_scope.

(** The formats *)
Definition wav_formats : list pcm := [wav_int32; wav_int16; wav_uint8].

(** A number with [n] bytes, the least significant one first *)
Definition number (n z : Z) : list Z := map (fun i => (z / 256 ^ i) mod 256) (zseq 0 n).

(** ** The files, that are written *)

(** The description of the samples: integers, the numbers of the channels, the frames per second, the bytes per second, the bytes per frame
    and the bits per sample *)
Definition format (channels width rate : Z) : list Z :=
  number 2 1 ++ number 2 channels ++ number 4 rate ++ number 4 (channels * width * rate) ++ number 2 (channels * width) ++ number 2 (8 * width).

Definition wav_file (channels width rate : Z) (data : list Z) : list Z :=
  codes "RIFF" ++ number 4 (36 + zlen data) ++ codes "WAVE"
    ++ codes "fmt " ++ number 4 16 ++ format channels width rate
    ++ codes "data" ++ number 4 (zlen data) ++ data.

(** The numbers in the header do not overflow. *)
Definition header_fits (channels width rate frames : Z) : Prop :=
  channels * width < 2 ^ 16 /\ channels * width * rate < 2 ^ 32 /\ 36 + channels * width * frames < 2 ^ 32.

(** ** The files, that are read *)

(** A chunk with a name and contents; it is padded to an even size. *)
Definition is_chunk (name body chunk : list Z) : Prop :=
  zlen name = 4 /\ zlen body < 2 ^ 32 /\
  exists pad, zlen pad = zlen body mod 2 /\ chunk = name ++ number 4 (zlen body) ++ body ++ pad.

(** A chunk, that does not matter *)
Definition other_chunk (chunk : list Z) : Prop :=
  exists name body, is_chunk name body chunk /\ name <> codes "fmt " /\ name <> codes "data".

(** A description of integer samples; [extensible]: also in the extended form.  The bytes per second, the bytes per frame, the number of the valid bits,
    the assignment of the channels to the loudspeakers and further contents do not matter. *)
Definition is_format (extensible : bool) (channels width rate : Z) (body : list Z) : Prop :=
  1 <= channels < 2 ^ 16 /\ 0 <= rate < 2 ^ 32 /\
  exists bytes bits more, zlen bytes = 6 /\ 8 * (width - 1) < bits <= 8 * width /\
    let described tag := number 2 tag ++ number 2 channels ++ number 4 rate ++ bytes ++ number 2 bits in
    (body = described 1 ++ more
     \/ extensible = true /\ exists mask, zlen mask = 8 /\ body = described 65534 ++ mask ++ pcm_subtype ++ more).

(** A file with chunks, among which there are a description of the samples and, somewhere after that, the samples.  The size in the header reaches
    at least to the end of the samples. *)
Definition is_wav (extensible : bool) (channels width rate : Z) (data file : list Z) : Prop :=
  exists size before fmt chunk between rest,
    file = codes "RIFF" ++ number 4 size ++ codes "WAVE" ++ concat before ++ chunk ++ concat between ++ codes "data" ++ number 4 (zlen data) ++ data ++ rest
    /\ zlen file - 8 - zlen rest <= size < 2 ^ 32
    /\ Forall other_chunk before /\ Forall other_chunk between
    /\ is_chunk (codes "fmt ") fmt chunk /\ is_format extensible channels width rate fmt.

(** ** What is loaded *)

(** [t] is the signal with the integers [m]. *)
Definition decoded (F : pcm) (path : string) (rate : Z) (m : arr Z) (t : signal Q) : Prop :=
  wf_signal t /\ count t = nrows m /\ Signal.length t = cols m /\ sampling_rate t = inject_Z rate /\ offset t = 0 /\
  labels t = map (file_label path) (zseq 1 (nrows m)) /\
  forall c i z, el m c i = Some z -> exists y, el (channels t) c i = Some y /\ (y == sample_of F z)%Q.

(** [t] has the first [n] samples of each channel of [s], rounded to integers. *)
Definition beginning (F : pcm) (path : string) (s : signal Q) (n : Z) (t : signal Q) : Prop :=
  wf_signal t /\ count t = count s /\ Signal.length t = n /\
  (exists rate, is_frame_rate (sampling_rate s) rate /\ sampling_rate t = inject_Z rate) /\ offset t = 0 /\
  labels t = map (file_label path) (zseq 1 (count s)) /\
  forall c i x, 0 <= i < n -> el (channels s) c i = Some x ->
    exists y z, el (channels t) c i = Some y /\ is_code F x z /\ (y == sample_of F z)%Q.

(** The contents of a file, whose writing has been interrupted after a number of bytes *)
Definition interrupted (h : history) (file : list Z) : Prop := exists k, 0 <= k < zlen h /\ file = contents (ztake k h).
