(** Model of /repo/sumpf/_blocks/_merge.py and /repo/sumpf/_blocks/_concatenate.py for data sets, which need not have the same type.

    The samples of signals, spectrums and spectrograms have one type here; [re] is what remains of a sample of a spectrum or a spectrogram, when it is
    stored in an array of real numbers (NumPy discards the imaginary part with a warning).  [junk] is the contents of freshly allocated memory.
    Simplification: the attributes of all data sets are looked up; the code does not look up those of data sets without channels at the end of the
    sequence, when it merges filters. *)

From Coq Require Import String ZArith List Bool.
From Verif.Model Require Import Py Numpy Functions Signal Spectrum Cube Spectrogram Terms Filter Merge Concatenate CubeBlocks.
Import ListNotations.
Open Scope Z_scope.

Section Mixed.
Context {A K X : Type}.
Variable O : ops A.
Variable re : A -> A.
Variable junk : Z -> Z -> A.
Variable junk3 : Z -> Z -> Z -> A.

(** A data set; the last case is an object of another type, with its length, if it has one. *)
Inductive dataset :=
| DSignal (s : signal A)
| DSpectrum (s : spectrum A A)
| DSpectrogram (s : spectrogram A A)
| DFilter (f : filter K X)
| DOther (n : option Z).

(** ** The attributes *)

(** [len(d)]: _sampled_data.py:39-44, _filter.py:159-164 *)
Definition d_count (d : dataset) : result Z :=
  match d with
  | DSignal s => Ok (count s) | DSpectrum s => Ok (sp_count s) | DSpectrogram s => Ok (sg_count s) | DFilter f => Ok (f_count f)
  | DOther (Some n) => Ok n | DOther None => Err TypeError
  end.

(** [d.offset()]: _signal.py:267-272, _spectrogram.py:227-232 *)
Definition d_offset (d : dataset) : result Z :=
  match d with DSignal s => Ok (offset s) | DSpectrogram s => Ok (sg_offset s) | _ => Err AttributeError end.

(** [d.length()]: _sampled_data.py:161-166 *)
Definition d_length (d : dataset) : result Z :=
  match d with
  | DSignal s => Ok (Signal.length s) | DSpectrum s => Ok (sp_length s) | DSpectrogram s => Ok (sg_length s)
  | _ => Err AttributeError
  end.

(** [d.labels()]: _sampled_data.py:150-155, _filter.py:396-401 *)
Definition d_labels (d : dataset) : result (list string) :=
  match d with
  | DSignal s => Ok (labels s) | DSpectrum s => Ok (sp_labels s) | DSpectrogram s => Ok (sg_labels s) | DFilter f => Ok (f_labels f)
  | DOther _ => Err AttributeError
  end.

(** [for channel in d.channels()]: the number [len(channel)] and the channel, as an array with one row, if it has one dimension *)
Definition line (r : list A) : Z * arr A := (zlen r, Arr [r] (zlen r)).
Definition sheet (m : cube A) (i : Z) : arr A :=
  Arr (map (fun j => flat_map (fun k => match cell m i j k with Some x => [x] | None => [] end) (zseq 0 (dim2 m))) (zseq 0 (dim1 m))) (dim2 m).
Definition d_channels (d : dataset) : result (list (Z * arr A)) :=
  match d with
  | DSignal s => Ok (map line (rows (channels s)))
  | DSpectrum s => Ok (map line (rows (sp_channels s)))
  | DSpectrogram s => Ok (map (fun i => (dim1 (sg_channels s), sheet (sg_channels s) i)) (zseq 0 (sg_count s)))
  | _ => Err AttributeError
  end.

(** What is left of a channel of a data set in an array of real numbers *)
Definition d_real_channels (d : dataset) : result (list (Z * arr A)) :=
  c <- d_channels d ;;
  Ok (match d with DSignal _ => c | _ => map (fun x => (fst x, ufunc1 re (snd x))) c end).

(** The methods, that only spectrograms have, and those, that only filters have: _spectrogram.py:206-211, _filter.py:389-394 *)
Definition only_spectrogram (d : dataset) : result (spectrogram A A) := match d with DSpectrogram s => Ok s | _ => Err AttributeError end.
Definition only_filter (d : dataset) : result (filter K X) := match d with DFilter f => Ok f | _ => Err AttributeError end.

(** ** Merging *)

(** The loop body _merge.py:79-84 *)
Definition mixed_signal_step (merged_offset : Z) (st : arr A * list string) (item : Z * ((Z * arr A) * (Z * string)))
  : result (arr A * list string) :=
  let '(m, labels) := st in
  let '(index, ((n, channel), (offset, label))) := item in
  let start := offset - merged_offset in
  let stop := start + n in
  m <- set_row_block m index (between 0 start) (scalar (o_zero O)) ;;
  m <- set_row_block m index (between start stop) channel ;;
  m <- set_row_block m index (from stop) (scalar (o_zero O)) ;;
  labels <- setitem labels index label ;;
  Ok (m, labels).

(** The loop body _merge.py:95-97 *)
Definition mixed_spectrum_step (st : arr A * list string) (item : Z * ((Z * arr A) * string)) : result (arr A * list string) :=
  let '(m, labels) := st in
  let '(index, ((n, channel), label)) := item in
  m <- set_row_block m index (between 0 n) channel ;;
  m <- set_row_block m index (from n) (scalar (o_zero O)) ;;
  labels <- setitem labels index label ;;
  Ok (m, labels).

(** _merge.py:57-131, [output] *)
Definition merge_mixed (mode : merge_mode) (data : list dataset) : result dataset :=
  match data with
  | [] => Err RuntimeError
  | [d] => Ok d
  | first :: _ =>
      counts <- sequence (map d_count data) ;;
      let number_of_channels := zsum counts in
      let labels := zrepeat EmptyString number_of_channels in
      match first with
      | DSignal s =>
          offsets <- sequence (map d_offset data) ;;
          lengths <- sequence (map d_length data) ;;
          let merged_offset := zminimum (offset s) offsets in
          let len := zmaximum (offset s + Signal.length s) (map2 Z.add offsets lengths) - merged_offset in
          m <- allocate junk number_of_channels len ;;
          channels <- sequence (map d_real_channels data) ;;
          all_labels <- sequence (map d_labels data) ;;
          let items := combine (merge_indices mode counts)
                         (combine (concat channels)
                            (combine (concat (map2 (fun o c => map (fun _ => o) c) offsets channels)) (concat all_labels))) in
          st <- for_each items (mixed_signal_step merged_offset) (m, labels) ;;
          Ok (DSignal (mk_signal (fst st) (sampling_rate s) merged_offset (Some (snd st))))
      | DSpectrum s =>
          lengths <- sequence (map d_length data) ;;
          let len := zmaximum (sp_length s) lengths in
          m <- allocate junk number_of_channels len ;;
          channels <- sequence (map d_channels data) ;;
          all_labels <- sequence (map d_labels data) ;;
          let items := combine (merge_indices mode counts) (combine (concat channels) (concat all_labels)) in
          st <- for_each items mixed_spectrum_step (m, labels) ;;
          Ok (DSpectrum (mk_spectrum (fst st) (resolution s) (Some (snd st))))
      | DSpectrogram _ =>
          spectrograms <- sequence (map only_spectrogram data) ;;
          r <- merge_spectrograms O junk3 mode spectrograms ;;
          Ok (DSpectrogram r)
      | DFilter _ =>
          filters <- sequence (map only_filter data) ;;
          r <- merge_filters mode filters ;;
          Ok (DFilter r)
      | DOther _ => Err ValueError
      end
  end.

(** ** Concatenating *)

(** [(start, stop, s.channels())], before the indices are known *)
Inductive array := Array2 (m : arr A) | Array3 (m : cube A).
Record part := Part { part_offset : Z; part_length : Z; part_array : array }.

(** _concatenate.py:65-70: the attributes, that are looked up *)
Definition part_of (d : dataset) : result part :=
  match d with
  | DSignal s => Ok (Part (offset s) (Signal.length s) (Array2 (channels s)))
  | DSpectrogram s => Ok (Part (sg_offset s) (sg_length s) (Array3 (sg_channels s)))
  | _ => Err AttributeError
  end.

(** [a.shape[0]], [a.shape[1]], [a.shape[-1]] *)
Definition shape0 (a : array) : Z := match a with Array2 m => nrows m | Array3 m => dim0 m end.
Definition shape1 (a : array) : Z := match a with Array2 m => cols m | Array3 m => dim1 m end.
Definition shape_last (a : array) : Z := match a with Array2 m => cols m | Array3 m => dim2 m end.

(** [m[r, c] = a] (NumPy): the first dimension of a three dimensional array is dropped, if it has the size one. *)
Definition assign2 (m : arr A) (r c : bounds) (a : array) : result (arr A) :=
  match a with
  | Array2 x => set_block m r c x
  | Array3 x => if dim0 x =? 1 then set_block m r c (ufunc1 re (sheet x 0)) else Err ValueError
  end.
(** [m[r, c] += a] (NumPy): an array with three dimensions cannot be added to one with two. *)
Definition add2 (m : arr A) (r c : bounds) (a : array) : result (arr A) :=
  match a with Array2 x => add_block O m r c x | Array3 _ => Err ValueError end.
(** [a[:, b]]; a three dimensional array keeps its third dimension. *)
Definition columns (a : array) (b : bounds) : array :=
  match a with Array2 x => Array2 (block x everything b) | Array3 x => Array3 (sub3 x everything b everything) end.

(** [m[b0, b1, b2] = a] and [m[b0, b1, b2] += a] for a three dimensional array [m] *)
Definition operand (a : array) : cube A := match a with Array2 x => cube_of x | Array3 x => x end.
(** [a[:, :, b]]: too many indices for a two dimensional array *)
Definition frames (a : array) (b : bounds) : result array :=
  match a with Array2 _ => Err IndexError | Array3 x => Ok (Array3 (sub3 x everything everything b)) end.

(** _concatenate.py:98-129, where [signal] is true *)
Definition mixed_concatenate_signal_step (offset number_of_channels : Z) (st : arr A * Z) (item : ((Z * Z) * part) * ((Z * Z) * part))
  : result (arr A * Z) :=
  let '(m, last_index) := st in
  let '(((start, stop), s), ((_, previous_stop), _)) := item in
  let d := part_array s in
  let start := start - offset in
  let stop := stop - offset in
  let l := shape0 d in
  let last_index := Z.max last_index (previous_stop - offset) in
  let copy m start d :=
    m <- assign2 m (between 0 l) (between start stop) d ;;
    m <- (if shape0 d <? number_of_channels then set_block m (from l) (between start stop) (scalar (o_zero O)) else Ok m) ;;
    Ok (m, last_index) in
  if start <? last_index then
    if stop <=? last_index then
      m <- add2 m (between 0 l) (between start (start + shape_last d)) d ;;
      Ok (m, last_index)
    else
      m <- add2 m (between 0 l) (between start last_index) (columns d (between 0 (last_index - start))) ;;
      copy m last_index (columns d (from (last_index - start)))
  else if last_index <? start then
    m <- set_block m everything (between last_index start) (scalar (o_zero O)) ;;
    copy m start d
  else copy m start d.

(** _concatenate.py:98-134, where [signal] is false *)
Definition mixed_copy (number_of_channels number_of_frequencies : Z) (m : cube A) (l f : Z) (t : bounds) (d : array) : result (cube A) :=
  copy_spectrogram O number_of_channels number_of_frequencies m l f t (operand d).
Definition mixed_concatenate_spectrogram_step (offset number_of_channels number_of_frequencies : Z) (st : cube A * Z)
    (item : ((Z * Z) * part) * ((Z * Z) * part)) : result (cube A * Z) :=
  let '(m, last_index) := st in
  let '(((start, stop), s), ((_, previous_stop), _)) := item in
  let d := part_array s in
  let start := start - offset in
  let stop := stop - offset in
  let l := shape0 d in
  let f := shape1 d in
  let last_index := Z.max last_index (previous_stop - offset) in
  if start <? last_index then
    if stop <=? last_index then
      m <- add3 O m (between 0 l) (between 0 f) (between start (start + shape_last d)) (operand d) ;;
      Ok (m, last_index)
    else
      x <- frames d (between 0 (last_index - start)) ;;
      m <- add3 O m (between 0 l) (between 0 f) (between start last_index) (operand x) ;;
      x <- frames d (from (last_index - start)) ;;
      m <- mixed_copy number_of_channels number_of_frequencies m l f (between last_index stop) x ;;
      Ok (m, last_index)
  else if last_index <? start then
    m <- set3 m everything everything (between last_index start) (scalar3 (o_zero O)) ;;
    m <- mixed_copy number_of_channels number_of_frequencies m l f (between start stop) d ;;
    Ok (m, last_index)
  else
    m <- mixed_copy number_of_channels number_of_frequencies m l f (between start stop) d ;;
    Ok (m, last_index).

(** [first.sampling_rate()] and [first.resolution()]: _signal.py:260-265, _spectrum.py:256-261, _spectrogram.py:213-225 *)
Definition d_rate (d : dataset) : result A :=
  match d with DSignal s => Ok (sampling_rate s) | DSpectrogram s => Ok (sg_rate s) | _ => Err AttributeError end.
Definition d_resolution (d : dataset) : result A :=
  match d with DSpectrum s => Ok (resolution s) | DSpectrogram s => Ok (sg_resolution s) | _ => Err AttributeError end.

(** _concatenate.py:50-146, [output] *)
Definition concatenate_mixed (data : list dataset) : result dataset :=
  match data with
  | [] => Err RuntimeError
  | [d] => Ok d
  | first :: _ =>
      parts <- sequence (map part_of data) ;;
      let number_of_channels := zmaximum 0 (map (fun p => shape0 (part_array p)) parts) in
      match sort_spans (spans part_offset part_length 0 parts) with
      | [] => Err IndexError
      | (((start, stop), p) :: others) as indices =>
          let offset := zminimum start (map (fun i => fst (fst i)) indices) in
          let len := zmaximum stop (map (fun i => snd (fst i)) indices) - offset in
          match part_array p with
          | Array2 d =>
              m <- allocate junk number_of_channels len ;;
              let c := between (start - offset) (stop - offset) in
              m <- set_block m (between 0 (nrows d)) c d ;;
              m <- (if nrows d <? number_of_channels then set_block m (from (nrows d)) c (scalar (o_zero O)) else Ok m) ;;
              st <- for_each (combine others indices) (mixed_concatenate_signal_step offset number_of_channels) (m, 0) ;;
              rate <- d_rate first ;;
              Ok (DSignal (mk_signal (fst st) rate offset (Some (concatenation_labels number_of_channels))))
          | Array3 d =>
              let number_of_frequencies := zmaximum (dim1 d) (map (fun i => shape1 (part_array (snd i))) indices) in
              m <- allocate3 junk3 number_of_channels number_of_frequencies len ;;
              m <- copy_spectrogram O number_of_channels number_of_frequencies m (dim0 d) (dim1 d) (between (start - offset) (stop - offset)) d ;;
              st <- for_each (combine others indices) (mixed_concatenate_spectrogram_step offset number_of_channels number_of_frequencies) (m, 0) ;;
              resolution <- d_resolution first ;;
              rate <- d_rate first ;;
              Ok (DSpectrogram (mk_spectrogram (fst st) resolution rate offset (Some (concatenation_labels number_of_channels))))
          end
      end
  end.

End Mixed.
Arguments dataset : clear implicits.
