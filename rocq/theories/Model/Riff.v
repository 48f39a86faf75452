(** Model of wav files byte by byte: the writing and the reading of sound files with the module [wave] of the standard library,
    /repo/sumpf/_internal/_persistence/_signal_writers.py:225-310 and _signal_readers.py:185-249.  Model/Pcm.v has the conversion of the samples;
    here are the headers, the order, in which the bytes get into the file, and the search for the data in a file.

    The functions of the standard library are those of Lib/wave.py of Python 3.12 (the class [_Chunk] is the module [chunk] before Python 3.12);
    [extensible] tells, if the module knows the format "WAVE_FORMAT_EXTENSIBLE", which it does since Python 3.12.

    Simplifications: samples and sampling rates are rational numbers as in Model/Pcm.v.  [RuntimeError] also stands for [wave.Error] and [EOFError].
    The memory suffices for each number of frames, that a header can announce.  The machine is a little endian one.
    The bytes get into the file in the order, in which the program writes them; buffers only delay them. *)

From Coq Require Import String ZArith QArith List Bool.
From Verif.Model Require Import Py Numpy Vector Functions Signal Persistence Pcm Json.
Import ListNotations.
Open Scope list_scope.
Open Scope Z_scope.

(** ** Files *)

(** The history of a file since it has been opened for writing, and therefore emptied: the bytes with the positions, at which they have been written *)
Definition history := list (Z * Z).

(** A byte is written at a position. *)
Definition put_byte (c : list Z) (e : Z * Z) : list Z :=
  let '(position, b) := e in
  if position <? zlen c then ztake position c ++ b :: zdrop (position + 1) c
  else c ++ zrepeat 0 (position - zlen c) ++ [b].

(** The contents of the file *)
Definition contents (h : history) : list Z := fold_left put_byte h [].

(** ** wave.Wave_write *)

Record writer := Writer {
  w_channels : Z; w_width : Z; w_rate : Z; w_nframes : Z; w_datalength : Z; w_datawritten : Z;
  w_header : bool; w_form_position : Z; w_data_position : Z;
  w_position : Z; (* of the file *)
  w_history : history }.

(** Lib/wave.py, [initfp], [setnchannels], [setsampwidth], [setframerate]: a writer for valid parameters *)
Definition new_writer (channels width rate : Z) : writer := Writer channels width rate 0 0 0 false 0 0 0 [].

(** [self._file.write] *)
Definition put (w : writer) (b : list Z) : writer :=
  Writer (w_channels w) (w_width w) (w_rate w) (w_nframes w) (w_datalength w) (w_datawritten w) (w_header w) (w_form_position w) (w_data_position w)
    (w_position w + zlen b) (w_history w ++ combine (zseq (w_position w) (zlen b)) b).

(** [self._file.seek] *)
Definition seek (w : writer) (position : Z) : writer :=
  Writer (w_channels w) (w_width w) (w_rate w) (w_nframes w) (w_datalength w) (w_datawritten w) (w_header w) (w_form_position w) (w_data_position w)
    position (w_history w).

(** The assignments to the attributes *)
Definition set_length (w : writer) (nframes datalength : Z) : writer :=
  Writer (w_channels w) (w_width w) (w_rate w) nframes datalength (w_datawritten w) (w_header w) (w_form_position w) (w_data_position w)
    (w_position w) (w_history w).
Definition set_written (w : writer) (n : Z) : writer :=
  Writer (w_channels w) (w_width w) (w_rate w) (w_nframes w) (w_datalength w) n (w_header w) (w_form_position w) (w_data_position w)
    (w_position w) (w_history w).
Definition set_form_position (w : writer) (p : Z) : writer :=
  Writer (w_channels w) (w_width w) (w_rate w) (w_nframes w) (w_datalength w) (w_datawritten w) (w_header w) p (w_data_position w)
    (w_position w) (w_history w).
Definition set_data_position (w : writer) (p : Z) : writer :=
  Writer (w_channels w) (w_width w) (w_rate w) (w_nframes w) (w_datalength w) (w_datawritten w) (w_header w) (w_form_position w) p
    (w_position w) (w_history w).
Definition set_header (w : writer) : writer :=
  Writer (w_channels w) (w_width w) (w_rate w) (w_nframes w) (w_datalength w) (w_datawritten w) true (w_form_position w) (w_data_position w)
    (w_position w) (w_history w).

(** [struct.pack("<H", z)] with two bytes, [struct.pack("<L", z)] with four *)
Definition pack_unsigned (n : nat) (z : Z) : result (list Z) :=
  if (0 <=? z) && (z <? 256 ^ Z.of_nat n) then Ok (little_endian n z) else Err StructError.

(** Lib/wave.py, [_write_header]: the format string "<L4s4sLHHLLHH4s" *)
Definition pack_header (channels width rate datalength : Z) : result (list Z) :=
  l <- sequence [pack_unsigned 4 (36 + datalength); Ok (codes "WAVE"); Ok (codes "fmt "); pack_unsigned 4 16;
                 pack_unsigned 2 1; pack_unsigned 2 channels; pack_unsigned 4 rate; pack_unsigned 4 (channels * rate * width);
                 pack_unsigned 2 (channels * width); pack_unsigned 2 (width * 8); Ok (codes "data")] ;;
  Ok (concat l).

(** Lib/wave.py, [_write_header]: what has been done, when an exception is raised, remains *)
Definition write_header (w : writer) (initlength : Z) : result unit * writer :=
  let w := put w (codes "RIFF") in
  let nframes := if w_nframes w =? 0 then initlength / (w_channels w * w_width w) else w_nframes w in
  let w := set_length w nframes (nframes * w_channels w * w_width w) in
  let w := set_form_position w (w_position w) in
  match pack_header (w_channels w) (w_width w) (w_rate w) (w_datalength w) with
  | Err e => (Err e, w)
  | Ok b =>
      let w := put w b in
      let w := set_data_position w (w_position w) in
      match pack_unsigned 4 (w_datalength w) with
      | Err e => (Err e, w)
      | Ok b => (Ok tt, set_header (put w b))
      end
  end.

(** Lib/wave.py, [_ensure_header_written] *)
Definition ensure_header (w : writer) (datasize : Z) : result unit * writer :=
  if w_header w then (Ok tt, w)
  else if (w_channels w =? 0) || (w_width w =? 0) || (w_rate w =? 0) then (Err RuntimeError, w)
  else write_header w datasize.

(** Lib/wave.py, [_patchheader] *)
Definition patch_header (w : writer) : result unit * writer :=
  if w_datawritten w =? w_datalength w then (Ok tt, w)
  else
    let current := w_position w in
    let w := seek w (w_form_position w) in
    match pack_unsigned 4 (36 + w_datawritten w) with
    | Err e => (Err e, w)
    | Ok b =>
        let w := seek (put w b) (w_data_position w) in
        match pack_unsigned 4 (w_datawritten w) with
        | Err e => (Err e, w)
        | Ok b => (Ok tt, set_length (seek (put w b) current) (w_nframes w) (w_datawritten w))
        end
    end.

(** Lib/wave.py, [writeframesraw] and [writeframes] *)
Definition write_frames (w : writer) (data : list Z) : result unit * writer :=
  match ensure_header w (zlen data) with
  | (Err e, w) => (Err e, w)
  | (Ok _, w) =>
      let w := put w data in
      let w := set_written w (w_datawritten w + zlen data) in
      if negb (w_datalength w =? w_datawritten w) then patch_header w else (Ok tt, w)
  end.

(** Lib/wave.py, [close] *)
Definition close_writer (w : writer) : result unit * writer :=
  match ensure_header w 0 with
  | (Err e, w) => (Err e, w)
  | (Ok _, w) => if negb (w_datalength w =? w_datawritten w) then patch_header w else (Ok tt, w)
  end.

(** ** Saving a signal *)

Section Writing.
Variable F : pcm.
Variable junk : Z -> Q.
Variable s : signal Q.

(** _signal_writers.py:264-272: the loop, cut off after [fuel] iterations *)
Fixpoint write_blocks (fuel : nat) (chunk_size : Z) (array : list Q) (i : Z) (w : writer) : result (list Q * Z) * writer :=
  if i + chunk_size <=? Signal.length s then
    match fuel with
    | O => (Err Hangs, w)
    | S fuel =>
        match (array <- fill_buffer s array (between i (i + chunk_size)) ;; convert F array (count s * chunk_size)) with
        | Err e => (Err e, w)
        | Ok (array, chunk) =>
            match write_frames w chunk with
            | (Err e, w) => (Err e, w)
            | (Ok _, w) => write_blocks fuel chunk_size array (i + chunk_size) w
            end
        end
    end
  else (Ok (array, i), w).

(** _signal_writers.py:273-287: the remaining samples *)
Definition write_remainder (array : list Q) (i : Z) (w : writer) : result unit * writer :=
  let remaining_samples := Signal.length s - i in
  if negb (remaining_samples =? 0) then
    let remaining_chunk_size := count s * remaining_samples in
    match (array <- (if zlen array <? remaining_chunk_size then vector junk remaining_chunk_size
                     else Ok (subseq (between 0 remaining_chunk_size) array)) ;;
           array <- fill_buffer s array (from i) ;;
           convert F array remaining_chunk_size) with
    | Err e => (Err e, w)
    | Ok (_, chunk) => write_frames w chunk
    end
  else (Ok tt, w).

(** The end of the with statement: the file is closed, an exception of that replaces another one. *)
Definition leave (r : result unit) (w : writer) : result unit * history :=
  match close_writer w with
  | (Err e, w) => (Err e, w_history w)
  | (Ok _, w) => (r, w_history w)
  end.

(** _signal_writers.py:247-287, [__call__]: the result and the history of the file.  [setnchannels] refuses a signal without channels;
    closing the file fails, too, then. *)
Definition write_wave_with (chunk_size : Z) : result unit * history :=
  match vector junk (count s * chunk_size) with
  | Err e => (Err e, [])
  | Ok array =>
      if count s <? 1 then (Err RuntimeError, [])
      else
        let w := new_writer (count s) (p_bytes F) (Z.max 1 (py_round (sampling_rate s))) in
        match write_blocks (Z.to_nat (Signal.length s)) chunk_size array 0 w with
        | (Err e, w) => leave (Err e) w
        | (Ok (array, i), w) => let '(r, w) := write_remainder array i w in leave r w
        end
  end.

Definition write_wave : result unit * history := write_wave_with 2048.
End Writing.

(** ** wave._Chunk *)

(** A file is read from a position on. *)
Definition file_read (file : list Z) (n position : Z) : list Z * Z :=
  let data := subseq (between position (position + n)) file in (data, position + zlen data).

(** Lib/wave.py, [_Chunk.read], for a size, that is not negative: [already] is the attribute [size_read], [under] reads from the file of the chunk,
    which has the state [u]. *)
Definition chunk_read {U} (under : Z -> U -> list Z * U) (size n : Z) (state : Z * U) : list Z * (Z * U) :=
  let '(already, u) := state in
  if size <=? already then ([], state)
  else
    let n := if size - already <? n then size - already else n in
    let '(data, u) := under n u in
    let already := already + zlen data in
    if (already =? size) && Z.odd size then
      let '(dummy, u) := under 1 u in (data, (already + zlen dummy, u))
    else (data, (already, u)).

(** Lib/wave.py, [_Chunk.__init__]: the name and the size, [None] for an [EOFError] *)
Definition chunk_open {U} (under : Z -> U -> list Z * U) (u : U) : option (list Z * Z) * U :=
  let '(name, u) := under 4 u in
  if zlen name <? 4 then (None, u)
  else
    let '(size, u) := under 4 u in
    if zlen size <? 4 then (None, u) else (Some (name, little_value size), u).

(** ** wave.Wave_read *)

(** Lib/wave.py: KSDATAFORMAT_SUBTYPE_PCM *)
Definition pcm_subtype : list Z := [1; 0; 0; 0; 0; 0; 16; 0; 128; 0; 0; 170; 0; 56; 155; 113].

Section Reading.
Variable extensible : bool.
Variable file : list Z.

(** The chunk, which is the whole file: its attribute [size_read] and the position in the file *)
Definition outer := (Z * Z)%type.
Definition outer_read (form : Z) : Z -> outer -> list Z * outer := chunk_read (file_read file) form.

(** Lib/wave.py, [_Chunk.skip] of a chunk in this chunk, and [_Chunk.seek] of this chunk; its contents start at the position 8. *)
Definition skip (form size already : Z) (o : outer) : result outer :=
  let n := size - already + (if Z.odd size then 1 else 0) in
  let p := fst o + n in
  if (p <? 0) || (form <? p) then Err RuntimeError else Ok (p, 8 + p).

(** Lib/wave.py, [_read_fmt_chunk]: the number of the channels, the frame rate and the sample width *)
Definition read_format (form size : Z) (o : outer) : result (Z * Z * Z * (Z * outer)) :=
  let '(b, st) := chunk_read (outer_read form) size 14 (0, o) in
  if zlen b <? 14 then Err RuntimeError
  else
    let field first last := little_value (subseq (between first last) b) in
    let tag := field 0 2 in
    if negb ((tag =? 1) || (extensible && (tag =? 65534))) then Err RuntimeError
    else
      let '(bits, st) := chunk_read (outer_read form) size 2 st in
      if zlen bits <? 2 then Err RuntimeError
      else
        st <- (if tag =? 65534 then
                 let '(b, st) := chunk_read (outer_read form) size 8 st in
                 if zlen b <? 8 then Err RuntimeError
                 else
                   let '(subtype, st) := chunk_read (outer_read form) size 16 st in
                   if zlen subtype <? 16 then Err RuntimeError
                   else if negb (if list_eq_dec Z.eq_dec subtype pcm_subtype then true else false) then Err RuntimeError
                   else Ok st
               else Ok st) ;;
        let width := (little_value bits + 7) / 8 in
        if width =? 0 then Err RuntimeError
        else if field 2 4 =? 0 then Err RuntimeError
        else Ok (field 2 4, field 4 8, width, st).

(** An opened file: the number of the channels, the frame rate, the sample width, the size of the chunk with the data and the state of that chunk *)
Record wave_reader := WaveReader { r_channels : Z; r_rate : Z; r_width : Z; r_size : Z; r_state : Z * outer }.

(** Lib/wave.py, [initfp]: the loop, cut off after [fuel] iterations; [fmt] are the contents of the format chunk *)
Fixpoint find_data (fuel : nat) (form : Z) (fmt : option (Z * Z * Z)) (o : outer) : result wave_reader :=
  match fuel with
  | O => Err Hangs
  | S fuel =>
      match chunk_open (outer_read form) o with
      | (None, _) => Err RuntimeError
      | (Some (name, size), o) =>
          if list_eq_dec Z.eq_dec name (codes "fmt ") then
            r <- read_format form size o ;;
            let '(channels, rate, width, (already, o)) := r in
            o <- skip form size already o ;;
            find_data fuel form (Some (channels, rate, width)) o
          else if list_eq_dec Z.eq_dec name (codes "data") then
            match fmt with
            | None => Err RuntimeError
            | Some (channels, rate, width) => Ok (WaveReader channels rate width size (0, o))
            end
          else
            o <- skip form size 0 o ;;
            find_data fuel form fmt o
      end
  end.

(** Lib/wave.py, [initfp] *)
Definition open_wave : result (Z * wave_reader) :=
  match chunk_open (file_read file) 0 with
  | (None, _) => Err RuntimeError
  | (Some (name, form), position) =>
      if list_eq_dec Z.eq_dec name (codes "RIFF") then
        let '(b, o) := outer_read form 4 (0, position) in
        if list_eq_dec Z.eq_dec b (codes "WAVE") then
          r <- find_data (S (List.length file)) form None o ;;
          Ok (form, r)
        else Err RuntimeError
      else Err RuntimeError
  end.

(** ** Loading a signal *)

Section File.
Variable junk : Z -> Z -> Q.
Variable F : pcm.
Variable form : Z.
Variable r : wave_reader.

(** [f.getnframes()] *)
Definition nframes : Z := r_size r / (r_channels r * r_width r).

(** [f.readframes(n)] *)
Definition readframes (n : Z) (st : Z * outer) : list Z * (Z * outer) :=
  if n =? 0 then ([], st) else chunk_read (outer_read form) (r_size r) (n * (r_channels r * r_width r)) st.

(** _signal_readers.py:220-223 and 229-232 *)
Definition store_block (n : Z) (b : bounds) (m : arr Q) (st : Z * outer) : result (arr Q * (Z * outer)) :=
  let '(data, st) := readframes n st in
  chunk <- unpack F (r_channels r * n) data ;;
  let decoded := map (fun z => inject_Z z * (1 / inject_Z (2 ^ (8 * r_width r - 1))))%Q chunk in
  m <- for_each (zseq 0 (r_channels r)) (fun m c =>
         d <- getslice decoded (Slice (Some c) None (Some (r_channels r))) ;;
         set_row_block m c b (Arr [d] (zlen d))) m ;;
  Ok (m, st).

(** _signal_readers.py:218-224: the loop, cut off after [fuel] iterations *)
Fixpoint read_blocks (fuel : nat) (chunk_size : Z) (m : arr Q) (i : Z) (st : Z * outer) : result (arr Q * Z * (Z * outer)) :=
  if i + chunk_size <? nframes then
    match fuel with
    | O => Err Hangs
    | S fuel =>
        x <- store_block chunk_size (between i (i + chunk_size)) m st ;;
        let '(m, st) := x in
        read_blocks fuel chunk_size m (i + chunk_size) st
    end
  else Ok (m, i, st).

(** _signal_readers.py:210-234 *)
Definition read_data (chunk_size : Z) : result (arr Q) :=
  m <- allocate junk (r_channels r) nframes ;;
  x <- read_blocks (Z.to_nat nframes) chunk_size m 0 (r_state r) ;;
  let '(m, i, st) := x in
  let remaining_samples := nframes - i in
  m <- (if negb (remaining_samples =? 0) then
          x <- store_block remaining_samples (from i) m st ;; Ok (fst x)
        else Ok m) ;;
  Ok (if negb (p_signed F) then ufunc1 (fun x => x - 1)%Q m else m).
End File.

(** _signal_readers.py:201-239, [__call__] *)
Definition read_wave_with (chunk_size : Z) (junk : Z -> Z -> Q) (path : string) : result (signal Q) :=
  x <- open_wave ;;
  let '(form, r) := x in
  match format_of_width Wave (r_width r) with
  | None => Err KeyError
  | Some F =>
      m <- read_data junk F form r chunk_size ;;
      Ok (mk_signal m (inject_Z (r_rate r)) 0 (Some (map (file_label path) (zseq 1 (r_channels r)))))
  end.

Definition read_wave : (Z -> Z -> Q) -> string -> result (signal Q) := read_wave_with 2048.
End Reading.
