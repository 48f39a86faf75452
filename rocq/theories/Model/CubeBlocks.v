(** Model of /repo/sumpf/_blocks/_merge.py and /repo/sumpf/_blocks/_concatenate.py for spectrograms, and of _merge.py for filters.
    The order of the merged channels, the spans of the concatenated data sets and their sorting are in Merge.v and Concatenate.v.

    [junk] is the contents of freshly allocated memory. *)

From Coq Require Import String ZArith List Bool.
From Verif.Model Require Import Py Numpy Functions Signal Cube Spectrogram Merge Concatenate Terms Filter.
Import ListNotations.
Open Scope Z_scope.

(** [m[i, b1, b2] = src] (NumPy) *)
Definition set_layer {A} (m : cube A) (i : Z) (b1 b2 : bounds) (src : cube A) : result (cube A) :=
  let i' := if i <? 0 then i + dim0 m else i in
  if (i' <? 0) || (dim0 m <=? i') then Err IndexError
  else set3 m (between i' (i' + 1)) b1 b2 src.

(** [for c in m] (NumPy): the layers of a three dimensional array. *)
Definition layers {A} (m : cube A) : list (cube A) :=
  map (fun i => Cube 1 (dim1 m) (dim2 m) (fun a j k => if a =? 0 then cell m i j k else None)) (zseq 0 (dim0 m)).

Section Blocks.
Context {A R : Type}.
Variable O : ops A.
Variable junk : Z -> Z -> Z -> A.

(** The loop body _merge.py:112-116; the state is the array and the list of labels. *)
Definition merge_spectrogram_step (merged_offset : Z) (st : cube A * list string) (item : Z * (cube A * (Z * string)))
  : result (cube A * list string) :=
  let '(m, labels) := st in
  let '(index, (channel, (offset, label))) := item in
  let start := offset - merged_offset in
  let stop := start + dim2 channel in
  m <- set_layer m index (between 0 (dim1 channel)) (between start stop) channel ;;
  labels <- setitem labels index label ;;
  Ok (m, labels).

(** _merge.py:62-70 and 101-121 for spectrograms. *)
Definition merge_spectrograms (mode : merge_mode) (data : list (spectrogram A R)) : result (spectrogram A R) :=
  match data with
  | [] => Err RuntimeError
  | [s] => Ok s
  | first :: _ =>
      let number_of_channels := zsum (map sg_count data) in
      let merged_offset := zminimum (sg_offset first) (map sg_offset data) in
      let len := zmaximum (sg_offset first + sg_length first) (map (fun s => sg_offset s + sg_length s) data) - merged_offset in
      let number_of_frequencies := zmaximum (sg_frequencies first) (map sg_frequencies data) in
      m <- allocate3 junk number_of_channels number_of_frequencies len ;;
      m <- set3 m everything everything everything (scalar3 (o_zero O)) ;;
      let items := combine (merge_indices mode (map sg_count data))
                     (combine (flat_map (fun d => layers (sg_channels d)) data)
                        (combine (flat_map (fun d => map (fun _ => sg_offset d) (layers (sg_channels d))) data)
                                 (flat_map sg_labels data))) in
      st <- for_each items (merge_spectrogram_step merged_offset) (m, zrepeat EmptyString number_of_channels) ;;
      Ok (mk_spectrogram (fst st) (sg_resolution first) (sg_rate first) merged_offset (Some (snd st)))
  end.

(** [m[b0, b1, b2] += src] (NumPy) *)
Definition add3 (m : cube A) (b0 b1 b2 : bounds) (src : cube A) : result (cube A) :=
  ufunc3_into (o_add O) (sub3 m b0 b1 b2) src m b0 b1 b2.

(** _concatenate.py:90-95 and 130-134: copying the values [d] of a data set and filling missing frequencies and channels with zeros. *)
Definition copy_spectrogram (number_of_channels number_of_frequencies : Z) (m : cube A) (l f : Z) (t : bounds) (d : cube A) : result (cube A) :=
  m <- set3 m (between 0 l) (between 0 f) t d ;;
  m <- (if f <? number_of_frequencies then set3 m (between 0 l) (from f) t (scalar3 (o_zero O)) else Ok m) ;;
  (if l <? number_of_channels then set3 m (from l) everything t (scalar3 (o_zero O)) else Ok m).

(** The loop body _concatenate.py:98-134 for spectrograms; the state is the array and [last_index]. *)
Definition concatenate_spectrogram_step (offset number_of_channels number_of_frequencies : Z) (st : cube A * Z)
  (item : ((Z * Z) * spectrogram A R) * ((Z * Z) * spectrogram A R)) : result (cube A * Z) :=
  let '(m, last_index) := st in
  let '(((start, stop), s), ((_, previous_stop), _)) := item in
  let d := sg_channels s in
  let start := start - offset in
  let stop := stop - offset in
  let l := dim0 d in
  let f := dim1 d in
  let last_index := Z.max last_index (previous_stop - offset) in
  if start <? last_index then
    if stop <=? last_index then
      m <- add3 m (between 0 l) (between 0 f) (between start (start + dim2 d)) d ;;
      Ok (m, last_index)
    else
      m <- add3 m (between 0 l) (between 0 f) (between start last_index) (sub3 d everything everything (between 0 (last_index - start))) ;;
      m <- copy_spectrogram number_of_channels number_of_frequencies m l f (between last_index stop)
             (sub3 d everything everything (from (last_index - start))) ;;
      Ok (m, last_index)
  else if last_index <? start then
    m <- set3 m everything everything (between last_index start) (scalar3 (o_zero O)) ;;
    m <- copy_spectrogram number_of_channels number_of_frequencies m l f (between start stop) d ;;
    Ok (m, last_index)
  else
    m <- copy_spectrogram number_of_channels number_of_frequencies m l f (between start stop) d ;;
    Ok (m, last_index).

(** _concatenate.py:56-95 and 141-146 for spectrograms. *)
Definition concatenate_spectrograms (data : list (spectrogram A R)) : result (spectrogram A R) :=
  match data with
  | [] => Err RuntimeError
  | [s] => Ok s
  | first :: _ =>
      let number_of_channels := zmaximum 0 (map sg_count data) in
      match sort_spans (spans sg_offset sg_length 0 data) with
      | [] => Err IndexError
      | (((start, stop), s) :: others) as indices =>
          let offset := zminimum start (map (fun i => fst (fst i)) indices) in
          let len := zmaximum stop (map (fun i => snd (fst i)) indices) - offset in
          let d := sg_channels s in
          let number_of_frequencies := zmaximum (dim1 d) (map (fun i => dim1 (sg_channels (snd i))) indices) in
          m <- allocate3 junk number_of_channels number_of_frequencies len ;;
          m <- copy_spectrogram number_of_channels number_of_frequencies m (dim0 d) (dim1 d) (between (start - offset) (stop - offset)) d ;;
          st <- for_each (combine others indices) (concatenate_spectrogram_step offset number_of_channels number_of_frequencies) (m, 0) ;;
          Ok (mk_spectrogram (fst st) (sg_resolution first) (sg_rate first) offset (Some (concatenation_labels number_of_channels)))
      end
  end.

End Blocks.

Section Filters.
Context {K X : Type}.

(** The loop body _merge.py:127-128; the state is the list of transfer functions, in which [None] has not been replaced yet, and the list of labels. *)
Definition merge_filter_step (st : list (option (term K X)) * list string) (item : Z * (term K X * string))
  : result (list (option (term K X)) * list string) :=
  let '(tfs, labels) := st in
  let '(index, (transfer_function, label)) := item in
  tfs <- setitem tfs index (Some transfer_function) ;;
  labels <- setitem labels index label ;;
  Ok (tfs, labels).

(** A list, in which no [None] is left; a filter with a [None] as a transfer function raises a TypeError, when it is called
    (the constructor does not look at the transfer functions). *)
Definition complete (tfs : list (option (term K X))) : result (list (term K X)) :=
  sequence (map (fun t => match t with Some t => Ok t | None => Err TypeError end) tfs).

(** _merge.py:62-70 and 122-129 for filters. *)
Definition merge_filters (mode : merge_mode) (data : list (filter K X)) : result (filter K X) :=
  match data with
  | [] => Err RuntimeError
  | [s] => Ok s
  | _ =>
      let number_of_channels := zsum (map f_count data) in
      let items := combine (merge_indices mode (map f_count data))
                     (combine (flat_map transfer_functions data) (flat_map f_labels data)) in
      st <- for_each items merge_filter_step (zrepeat None number_of_channels, zrepeat EmptyString number_of_channels) ;;
      tfs <- complete (fst st) ;;
      Ok (mk_filter tfs (snd st))
  end.

End Filters.

(** The method output of a Merge or a Concatenate instance: _merge.py:57-131, _concatenate.py:50-146. *)
Definition merge_output_spectrograms {A R} (O : ops A) junk (m : merger (spectrogram A R)) : result (spectrogram A R) :=
  merge_spectrograms O junk (mg_mode m) (multi_values (mg_data m)).
Definition merge_output_filters {K X} (m : merger (filter K X)) : result (filter K X) :=
  merge_filters (mg_mode m) (multi_values (mg_data m)).
