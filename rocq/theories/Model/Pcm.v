(** Model of the writing and the reading of sound files with the modules [wave] and [aifc] of the standard library:
    /repo/sumpf/_internal/_persistence/_signal_writers.py:225-325 and _signal_readers.py:185-261.

    Simplifications: samples and sampling rates are rational numbers, the arithmetic of which is exact, instead of floats.
    A file is the triple of its parameters and the bytes of its frames; the headers, in which the modules store the parameters, are not modelled.
    [wave.Error] and [aifc.Error] are not among the exceptions of the model, [RuntimeError] stands for them.
    [junk] is the contents of freshly allocated memory. *)

From Coq Require Import Ascii String ZArith QArith List Bool.
From Verif.Model Require Import Py Numpy Vector Functions Signal Text Persistence.
Import ListNotations.
Open Scope string_scope.
Open Scope list_scope.
Open Scope Z_scope.

(** ** The standard library *)

(** An integer format: the number of bits, whether the integers are signed and whether the most significant byte comes first *)
Record pcm := Pcm { p_bits : Z; p_signed : bool; p_big : bool }.

(** The bytes per sample: [int(math.ceil(bits / 8))], _signal_writers.py:239 *)
Definition p_bytes (F : pcm) : Z := - ((- p_bits F) / 8).

(** [struct.pack] with one integer *)
Fixpoint little_endian (n : nat) (z : Z) : list Z :=
  match n with O => [] | S k => z mod 256 :: little_endian k (z / 256) end.

Definition pack_one (F : pcm) (z : Z) : result (list Z) :=
  let low := if p_signed F then - 2 ^ (8 * p_bytes F - 1) else 0 in
  let high := if p_signed F then 2 ^ (8 * p_bytes F - 1) else 2 ^ (8 * p_bytes F) in
  if (low <=? z) && (z <? high) then
    let b := little_endian (Z.to_nat (p_bytes F)) z in
    Ok (if p_big F then rev b else b)
  else Err StructError.

(** [struct.pack(mask, *l)] with a mask for [n] integers *)
Definition pack (F : pcm) (n : Z) (l : list Z) : result (list Z) :=
  if zlen l =? n then
    b <- sequence (map (pack_one F) l) ;; Ok (concat b)
  else Err StructError.

Fixpoint little_value (b : list Z) : Z :=
  match b with [] => 0 | x :: t => x + 256 * little_value t end.

Definition unpack_one (F : pcm) (b : list Z) : Z :=
  let v := little_value (if p_big F then rev b else b) in
  if p_signed F && (2 ^ (8 * p_bytes F - 1) <=? v) then v - 2 ^ (8 * p_bytes F) else v.

(** [struct.unpack(mask, b)] with a mask for [n] integers *)
Definition unpack (F : pcm) (n : Z) (b : list Z) : result (list Z) :=
  if zlen b =? n * p_bytes F then
    Ok (map (fun i => unpack_one F (subseq (between (i * p_bytes F) ((i + 1) * p_bytes F)) b)) (zseq 0 n))
  else Err StructError.

(** A sound file *)
Record sound_file := SoundFile { f_channels : Z; f_width : Z; f_rate : Z; f_data : list Z }.

(** [f.getnframes()] *)
Definition f_frames (f : sound_file) : Z := zlen (f_data f) / (f_channels f * f_width f).

(** [f.readframes(n)] at the frame [position] *)
Definition read_frames (f : sound_file) (position n : Z) : list Z :=
  let size := f_channels f * f_width f in
  subseq (between (position * size) ((position + n) * size)) (f_data f).

(** ** NumPy *)

(** [v[ps] = src] for distinct positions *)
Fixpoint put_all {A} (v : list A) (ps : list Z) (src : list A) : result (list A) :=
  match ps, src with
  | p :: ps, x :: src => v <- vput v p x ;; put_all v ps src
  | _, _ => Ok v
  end.

(** [v[s] = src], where an array with one element is repeated *)
Definition vset_slice {A} (v : list A) (s : slice) (src : list A) : result (list A) :=
  let ps := slice_positions s (zlen v) in
  if zlen src =? zlen ps then put_all v ps src
  else match src with
       | [x] => put_all v ps (zrepeat x (zlen ps))
       | _ => Err ValueError
       end.

(** ** Writing *)

Section Writing.
Variable F : pcm.
Variable junk : Z -> Q.
Variable s : signal Q.

(** _signal_writers.py:243 *)
Definition scale : Q := inject_Z (2 ^ (p_bits F - 1)).

(** _signal_writers.py:265-266 and 281-282: [for c in range(number_of_channels): array[c:None:number_of_channels] = signal.channels()[c, b]] *)
Definition fill_buffer (array : list Q) (b : bounds) : result (list Q) :=
  for_each (zseq 0 (count s)) (fun array c =>
    r <- getitem (rows (channels s)) c ;;
    vset_slice array (Slice (Some c) None (Some (count s))) (subseq b r)) array.

(** _signal_writers.py:267-270 and 283-286: the contents of the buffer after the conversion and the bytes *)
Definition convert (array : list Q) (n : Z) : result (list Q * list Z) :=
  let array := if p_signed F then array else map (fun x => x + 1)%Q array in
  let array := map (fun x => x * scale)%Q array in
  chunk <- pack F n (map py_round array) ;;
  Ok (array, chunk).

(** _signal_writers.py:264-272: the loop, cut off after [fuel] iterations; [data] are the bytes, that have been written so far *)
Fixpoint write_chunks (fuel : nat) (chunk_size : Z) (array : list Q) (i : Z) (data : list Z) : result (list Q * Z) * list Z :=
  if i + chunk_size <=? Signal.length s then
    match fuel with
    | O => (Err Hangs, data)
    | S fuel =>
        match (array <- fill_buffer array (between i (i + chunk_size)) ;; convert array (count s * chunk_size)) with
        | Ok (array, chunk) => write_chunks fuel chunk_size array (i + chunk_size) (data ++ chunk)
        | Err e => (Err e, data)
        end
    end
  else (Ok (array, i), data).

(** _signal_writers.py:273-287: the remaining samples *)
Definition write_rest (array : list Q) (i : Z) (data : list Z) : result unit * list Z :=
  let remaining_samples := Signal.length s - i in
  if negb (remaining_samples =? 0) then
    let remaining_chunk_size := count s * remaining_samples in
    match (array <- (if zlen array <? remaining_chunk_size then vector junk remaining_chunk_size
                     else Ok (subseq (between 0 remaining_chunk_size) array)) ;;
           array <- fill_buffer array (from i) ;;
           convert array remaining_chunk_size) with
    | Ok (_, chunk) => (Ok tt, data ++ chunk)
    | Err e => (Err e, data)
    end
  else (Ok tt, data).

(** _signal_writers.py:247-287, [__call__]: the file, which exists afterwards, if its parameters have been set *)
Definition write_file_with (chunk_size : Z) : result unit * option sound_file :=
  match vector junk (count s * chunk_size) with
  | Err e => (Err e, None)
  | Ok array =>
      if count s <? 1 then (Err RuntimeError, None)
      else
        let file data := Some (SoundFile (count s) (p_bytes F) (Z.max 1 (py_round (sampling_rate s))) data) in
        match write_chunks (Z.to_nat (Signal.length s)) chunk_size array 0 [] with
        | (Err e, data) => (Err e, file data)
        | (Ok (array, i), data) => let '(r, data) := write_rest array i data in (r, file data)
        end
  end.

Definition write_file : result unit * option sound_file := write_file_with 2048.
End Writing.

(** _signal_writers.py:290-325: the formats *)
Definition wav_int32 := Pcm 32 true false.
Definition wav_int16 := Pcm 16 true false.
Definition wav_uint8 := Pcm 8 false false.
Definition aiff_int32 := Pcm 32 true true.
Definition aiff_int16 := Pcm 16 true true.
Definition aiff_int8 := Pcm 8 true true.

(** ** Reading *)

(** _signal_readers.py:242-261: the format for a sample width, [None] for a key error; bytes are unsigned in wav files and signed in aiff files *)
Inductive reader_module := Wave | Aifc.
Definition format_of_width (m : reader_module) (width : Z) : option pcm :=
  let big := match m with Wave => false | Aifc => true end in
  if width =? 1 then Some (Pcm 8 big big)
  else if width =? 2 then Some (Pcm 16 true big)
  else if width =? 4 then Some (Pcm 32 true big)
  else None.

Section Reading.
Variable junk : Z -> Z -> Q.

(** [os.path.split(path)[-1]] *)
Definition basename (path : string) : string :=
  let p := list_ascii_of_string path in string_of_list_ascii (zdrop (rfind "/"%char p + 1) p).

Definition file_label (path : string) (i : Z) : string := (basename path ++ " " ++ py_str i)%string.

Section File.
Variable F : pcm.
Variable f : sound_file.

(** _signal_readers.py:217 *)
Definition step : Q := (1 / inject_Z (2 ^ (8 * f_width f - 1)))%Q.

(** _signal_readers.py:220-223 and 229-232: read [n] frames and store them in the columns [b] of the channels *)
Definition store_frames (position n : Z) (b : bounds) (m : arr Q) : result (arr Q) :=
  chunk <- unpack F (f_channels f * n) (read_frames f position n) ;;
  let decoded := map (fun z => inject_Z z * step)%Q chunk in
  for_each (zseq 0 (f_channels f)) (fun m c =>
    d <- getslice decoded (Slice (Some c) None (Some (f_channels f))) ;;
    set_row_block m c b (Arr [d] (zlen d))) m.

(** _signal_readers.py:218-224: the loop, cut off after [fuel] iterations; the position in the file is the number of the frames, that have been read *)
Fixpoint read_chunks (fuel : nat) (chunk_size : Z) (m : arr Q) (i position : Z) : result (arr Q * Z * Z) :=
  if i + chunk_size <? f_frames f then
    match fuel with
    | O => Err Hangs
    | S fuel =>
        m <- store_frames position chunk_size (between i (i + chunk_size)) m ;;
        read_chunks fuel chunk_size m (i + chunk_size) (position + chunk_size)
    end
  else Ok (m, i, position).

(** _signal_readers.py:210-234 *)
Definition read_channels (chunk_size : Z) : result (arr Q) :=
  m <- allocate junk (f_channels f) (f_frames f) ;;
  r <- read_chunks (Z.to_nat (f_frames f)) chunk_size m 0 0 ;;
  let '(m, i, position) := r in
  let remaining_samples := f_frames f - i in
  m <- (if negb (remaining_samples =? 0) then store_frames position remaining_samples (from i) m else Ok m) ;;
  Ok (if negb (p_signed F) then ufunc1 (fun x => x - 1)%Q m else m).
End File.

(** _signal_readers.py:201-239, [__call__] *)
Definition read_sound_with (chunk_size : Z) (module : reader_module) (path : string) (f : sound_file) : result (signal Q) :=
  if f_channels f <? 1 then Err RuntimeError
  else match format_of_width module (f_width f) with
       | None => Err KeyError
       | Some F =>
           m <- read_channels F f chunk_size ;;
           Ok (mk_signal m (inject_Z (f_rate f)) 0 (Some (map (file_label path) (zseq 1 (f_channels f)))))
       end.

Definition read_sound : reader_module -> string -> sound_file -> result (signal Q) := read_sound_with 2048.
End Reading.
