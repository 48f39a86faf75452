(** What a sound file with integers contains.  Independent of the loops of the model. *)

From Coq Require Import String ZArith QArith Qabs List Bool.
From Verif.Model Require Import Py Numpy Functions Signal Pcm.
Import ListNotations.
Open Scope list_scope.
Open Scope Z_scope.

(** The six formats, that are written with the standard library *)
Definition written_formats : list pcm := [wav_int32; wav_int16; wav_uint8; aiff_int32; aiff_int16; aiff_int8].
Definition reader_for (F : pcm) : reader_module := if p_big F then Aifc else Wave.

(** The bytes of an integer in the two's complement, the least significant one first or last *)
Definition bytes_of (F : pcm) (z : Z) : list Z :=
  let little := map (fun i => (z / 256 ^ i) mod 256) (zseq 0 (p_bits F / 8)) in
  if p_big F then rev little else little.

(** The integers, that can be stored *)
Definition storable (F : pcm) (z : Z) : Prop :=
  if p_signed F then - 2 ^ (p_bits F - 1) <= z < 2 ^ (p_bits F - 1) else 0 <= z < 2 ^ p_bits F.

(** The bytes of a matrix of integers, frame by frame; a frame has one integer for each channel. *)
Definition frames_of (F : pcm) (m : arr Z) (first last : Z) : list Z :=
  flat_map (fun t => flat_map (fun c => match el m c t with Some z => bytes_of F z | None => [] end) (zseq 0 (nrows m)))
    (zseq first (last - first)).

(** The sample, for which the integer stands: the full scale is 1, and unsigned integers are shifted by it. *)
Definition sample_of (F : pcm) (z : Z) : Q :=
  (inject_Z z / inject_Z (2 ^ (p_bits F - 1)) - (if p_signed F then 0 else 1))%Q.

(** The quantisation step *)
Definition quantum (F : pcm) : Q := (1 / inject_Z (2 ^ (p_bits F - 1)))%Q.

(** [z] is the integer, the sample of which is nearest to [x]; the even one of two. *)
Definition is_code (F : pcm) (x : Q) (z : Z) : Prop :=
  (Qabs (x - sample_of F z) <= quantum F / 2)%Q
  /\ ((Qabs (x - sample_of F z) == quantum F / 2)%Q -> Z.even z = true).

(** The samples, that can be written *)
Definition in_range (F : pcm) (x : Q) : Prop := (- (1) - quantum F / 2 <= x /\ x < 1 - quantum F / 2)%Q.

(** [codes] are the integers for the samples of the signal. *)
Definition quantised (F : pcm) (s : signal Q) (codes : arr Z) : Prop :=
  wf codes /\ nrows codes = count s /\ cols codes = Signal.length s /\
  forall c t x, el (channels s) c t = Some x -> exists z, el codes c t = Some z /\ is_code F x z.

(** The sampling rate of the file: the nearest positive integer *)
Definition is_frame_rate (rate : Q) (r : Z) : Prop :=
  1 <= r /\ forall k, 1 <= k -> (Qabs (rate - inject_Z r) <= Qabs (rate - inject_Z k))%Q.

(** The samples of a frame *)
Definition frame_in_range (F : pcm) (s : signal Q) (t : Z) : Prop := forall c x, el (channels s) c t = Some x -> in_range F x.
