(** Model of signals and spectrums, that are stored as tables or as dictionaries:
    /repo/sumpf/_internal/_persistence/_signal_writers.py:122-181, _signal_readers.py:35-158, _spectrum_writers.py:85-145 and
    _spectrum_readers.py:32-185.

    Simplifications: times, frequencies, sampling rates and resolutions are rational numbers, the arithmetic of which is exact.
    A CSV file is the list of its rows, each of which is the list of the texts of its cells; the quoting of the cells is not modelled.
    The conversions between numbers and texts are parameters.  An npy file is the array, that is stored in it.
    JSON files and npz files are dictionaries; their representation in the file is not modelled.
    [junk] is the contents of freshly allocated memory. *)

From Coq Require Import String ZArith QArith Qabs List Bool.
From Verif.Model Require Import Py Numpy Functions Signal Spectrum Text Persistence Pcm.
Import ListNotations.
Open Scope string_scope.
Open Scope list_scope.
Open Scope Z_scope.

(** ** NumPy and Python *)

(** [numpy.linspace(start, stop, n)] *)
Definition linspace (start stop : Q) (n : Z) : result (list Q) :=
  if n <? 0 then Err ValueError
  else
    let step := ((stop - start) / inject_Z (n - 1))%Q in
    Ok (map (fun k => if (1 <? n) && (k =? n - 1) then stop else (inject_Z k * step + start)%Q) (zseq 0 n)).

(** [sorted(l)] for numbers *)
Fixpoint insert_number (x : Q) (l : list Q) : list Q :=
  match l with
  | [] => [x]
  | y :: t => if Qle_bool x y then x :: l else y :: insert_number x t
  end.
Definition sort_numbers (l : list Q) : list Q := fold_right insert_number [] l.

(** [numpy.array_equal(l, m)] *)
Fixpoint equal_numbers (l m : list Q) : bool :=
  match l, m with
  | [], [] => true
  | x :: l, y :: m => Qeq_bool x y && equal_numbers l m
  | _, _ => false
  end.

Section Pairs.
Context {A : Type}.
Variable eqb : A -> A -> bool.
Variable less : A -> A -> result bool.

(** [p < q] for tuples of a number and a sample; samples are only compared, if the numbers are equal *)
Definition pair_less (p q : Q * A) : result bool :=
  if Qeq_bool (fst p) (fst q) then
    if eqb (snd p) (snd q) then Ok false else less (snd p) (snd q)
  else Ok (negb (Qle_bool (fst q) (fst p))).

(** [sorted(l)].  (Which pairs are compared depends on the algorithm; each algorithm compares those, that are neighbors in the result.) *)
Fixpoint insert_pair (p : Q * A) (l : list (Q * A)) : result (list (Q * A)) :=
  match l with
  | [] => Ok [p]
  | q :: t => b <- pair_less q p ;; if (b : bool) then r <- insert_pair p t ;; Ok (q :: r) else Ok (p :: l)
  end.
Fixpoint sort_pairs (l : list (Q * A)) : result (list (Q * A)) :=
  match l with
  | [] => Ok []
  | p :: t => r <- sort_pairs t ;; insert_pair p r
  end.

(** [[e for _, e in sorted(zip(column, data_row))]] *)
Definition sort_by (column : list Q) (data_row : list A) : result (list A) :=
  r <- sort_pairs (combine column data_row) ;; Ok (map snd r).

(** _signal_readers.py:70-73 and _spectrum_readers.py:64-67: the rows, and whether they are an array (and not a list of lists) *)
Definition sorted_rows (column sorted_column : list Q) (data : arr A) : result (arr A * bool) :=
  if equal_numbers column sorted_column then Ok (data, true)
  else
    r <- sequence (map (sort_by column) (rows data)) ;;
    Ok (Arr r (Z.min (zlen column) (cols data)), false).
End Pairs.

(** [numpy.transpose(rows)]; rows of different lengths raise a [ValueError]. *)
Definition transposed {A} (rows : list (list A)) : result (arr A) :=
  match rows with
  | [] => Ok (Arr [] 0)
  | r :: _ =>
      if forallb (fun s => zlen s =? zlen r) rows then
        c <- sequence (map (fun i => sequence (map (fun s => getitem s i) rows)) (zseq 0 (zlen r))) ;;
        Ok (Arr c (zlen rows))
      else Err ValueError
  end.

(** _signal_readers.py:76-79 and _spectrum_readers.py:82-85 *)
Definition adapt_labels (labels : list string) (n : Z) : list string :=
  if zlen labels <? n then labels ++ zrepeat "" (n - zlen labels)
  else if n <? zlen labels then subseq (between 0 n) labels
  else labels.

(** ** Rows of texts *)

Definition csv := list (list string).

Section Csv.
Context {A : Type}.
Variable parse : string -> option Q.       (* float(text); None is a ValueError *)
Variable parse_sample : string -> option A.   (* float(text) or complex(text) *)

Definition parsed {X} (x : option X) : result X := match x with Some x => Ok x | None => Err ValueError end.

(** _signal_readers.py:118-120 and _spectrum_readers.py:127-129: the loop over the remaining rows *)
Definition parse_row (row : list string) : result (Q * list A) :=
  cell <- getitem row 0 ;;
  t <- parsed (parse cell) ;;
  samples <- sequence (map (fun c => parsed (parse_sample c)) (subseq (from 1) row)) ;;
  Ok (t, samples).

(** _signal_readers.py:106-123 and _spectrum_readers.py:114-132: the column, the matrix of samples and the labels; [header_less] are the labels
    for a file without a header.  (In an empty file, [next] raises a [StopIteration], which is not among the exceptions of the model.) *)
Definition read_csv (header_less : Z -> list string) (file : csv) : result (list Q * arr A * list string) :=
  match file with
  | [] => Err RuntimeError
  | first_row :: others =>
      first_cell <- getitem first_row 0 ;;
      let header := subseq (from 1) first_row in
      let '(times, samples, labels) :=
        match parse first_cell with
        | None => ([], [], header)
        | Some t =>
            match sequence (map (fun c => parsed (parse_sample c)) header) with
            | Ok samples => ([t], [samples], header_less (zlen first_row))
            | Err _ => ([t], [], header)      (* the time has been appended already *)
            end
        end in
      others <- sequence (map parse_row others) ;;
      data <- transposed (samples ++ map snd others) ;;
      Ok (times ++ map fst others, data, labels)
  end.
End Csv.

Section Writing.
Context {A : Type}.
Variable show : Q -> string.
Variable show_sample : A -> string.

(** _signal_writers.py:143-148 and _spectrum_writers.py:107-112; [title] is the text in the first cell *)
Definition write_csv (title : string) (column : list Q) (channels : arr A) (labels : list string) : result csv :=
  samples <- sequence (map (fun i => sequence (map (fun r => getitem r i) (rows channels))) (zseq 0 (cols channels))) ;;
  Ok ((title :: labels) :: map2 (fun t row => show t :: map show_sample row) column samples).
End Writing.

(** ** Signals *)

(** _signal.py:292-299, [time_samples()] *)
Definition time_samples (s : signal Q) : result (list Q) :=
  if Qeq_bool (sampling_rate s) 0 then Err ZeroDivisionError
  else linspace (inject_Z (offset s) / sampling_rate s)%Q (inject_Z (Signal.length s + offset s - 1) / sampling_rate s)%Q (Signal.length s).

(** [sumpf.Signal()]: _signal.py:82-93 *)
Definition default_signal : signal Q := mk_signal (Arr [[]] 0) 48000%Q 0 None.

(** [a < b] for two floats *)
Definition less_number (a b : Q) : result bool := Ok (negb (Qle_bool b a)).

Section Signals.
Variable junk : Z -> Z -> Q.

(** [channels = allocate_array(shape=numpy.shape(m)); channels[:] = m] *)
Definition copy_array {A} (junk : Z -> Z -> A) (m : arr A) : result (arr A) :=
  c <- allocate junk (nrows m) (cols m) ;; set_block c everything everything m.

(** _signal_readers.py:48-82.  (If all times are equal, the sampling rate of a CSV file cannot be computed because of a [ZeroDivisionError].
    For an npy file, it is infinite and the conversion of the offset to an integer raises an exception; the model does not distinguish these.) *)
Definition signal_from_rows (time_column : list Q) (data_rows : arr Q) (labels : list string) : result (signal Q) :=
  if negb (nrows data_rows =? 0) && negb (cols data_rows =? 0) then
    let sorted_time_row := sort_numbers time_column in
    minimum_time <- getitem sorted_time_row 0 ;;
    maximum_time <- getitem sorted_time_row (-1) ;;
    sampling_rate <-
      (if zlen sorted_time_row <=? 1 then
         if Qeq_bool minimum_time 0 then Ok 48000%Q else Ok (1 / Qabs minimum_time)%Q
       else if Qeq_bool (maximum_time - minimum_time) 0 then Err ZeroDivisionError
       else Ok (inject_Z (zlen sorted_time_row - 1) / (maximum_time - minimum_time))%Q) ;;
    let offset := py_round (minimum_time * sampling_rate) in
    sorted_data_rows <- sorted_rows Qeq_bool less_number time_column sorted_time_row data_rows ;;
    channels <- copy_array junk (fst sorted_data_rows) ;;
    Ok (mk_signal channels sampling_rate offset (Some (adapt_labels labels (nrows channels))))
  else Ok default_signal.

(** _signal_writers.py:136-148, CsvWriter, and _signal_readers.py:100-123, CsvReader; a file without a header has no labels *)
Definition write_signal_csv (show : Q -> string) (s : signal Q) : result csv :=
  times <- time_samples s ;;
  write_csv show show "time" times (channels s) (labels s).
Definition read_signal_csv (parse : string -> option Q) (file : csv) : result (signal Q) :=
  r <- read_csv parse parse (fun _ => []) file ;;
  let '(times, data, labels) := r in
  signal_from_rows times data labels.

(** _signal_writers.py:171-181, NumpyNpyWriter, and _signal_readers.py:153-158, NumpyReader for npy files *)
Definition write_signal_npy (s : signal Q) : result (arr Q) :=
  array <- allocate junk (count s + 1) (Signal.length s) ;;
  times <- time_samples s ;;
  array <- set_row_block array 0 everything (Arr [times] (zlen times)) ;;
  set_block array (from 1) everything (channels s).
Definition read_signal_npy (path : string) (array : arr Q) : result (signal Q) :=
  times <- getitem (rows array) 0 ;;
  signal_from_rows times (block array (from 1) everything) (map (file_label path) (zseq 1 (nrows array - 1))).

(** _signal_writers.py:122-127, as_dict.  The entries of the dictionary are those of a record; an entry might be missing in a dictionary, that is read.
    The channels are a list of tuples. *)
Record signal_dictionary := SignalDictionary {
  d_channels : option (list (list Q));
  d_sampling_rate : option Q;
  d_offset : option Z;
  d_labels : option (list string) }.
Definition signal_as_dict (s : signal Q) : signal_dictionary :=
  SignalDictionary (Some (rows (channels s))) (Some (sampling_rate s)) (Some (offset s)) (Some (labels s)).

(** _signal_readers.py:35-45, from_dict.  (Channels of different lengths raise a [ValueError]; an empty list of channels has only one dimension.) *)
Definition get {X} (x : option X) (default : X) : X := match x with Some x => x | None => default end.
Definition signal_from_dict (d : signal_dictionary) : result (signal Q) :=
  channels <-
    (match d_channels d with
     | None => Ok (Arr [[]] 0)
     | Some [] => Err IndexError
     | Some ((r :: _) as l) => if forallb (fun s => zlen s =? zlen r) l then copy_array junk (Arr l (zlen r)) else Err ValueError
     end) ;;
  Ok (mk_signal channels (get (d_sampling_rate d) 48000%Q) (get (d_offset d) 0) (Some (get (d_labels d) []))).
End Signals.

(** ** Spectrums *)

Section Spectrums.
Context {A : Type}.
Variable zero : A.
Variable eqb : A -> A -> bool.
Variable junk : Z -> Z -> A.

(** [sumpf.Spectrum()]: _spectrum.py:79-86 *)
Definition default_spectrum : spectrum A Q := mk_spectrum (Arr [[]] 0) 1%Q None.

(** [a < b] for two complex numbers *)
Definition less_complex (a b : A) : result bool := Err TypeError.

(** _spectrum.py:267-272 and 309-314, [frequency_samples()] *)
Definition frequency_samples (s : spectrum A Q) : result (list Q) :=
  linspace 0%Q (inject_Z (sp_length s - 1) * resolution s)%Q (sp_length s).

(** _spectrum_readers.py:39-89 *)
Definition spectrum_from_rows (frequency_column : list Q) (data_rows : arr A) (labels : list string) : result (spectrum A Q) :=
  if negb (nrows data_rows =? 0) && negb (cols data_rows =? 0) then
    let sorted_frequency_row := sort_numbers frequency_column in
    minimum_frequency <- getitem sorted_frequency_row 0 ;;
    maximum_frequency <- getitem sorted_frequency_row (-1) ;;
    let resolution :=
      if zlen sorted_frequency_row <=? 1 then 0%Q
      else ((maximum_frequency - minimum_frequency) / inject_Z (zlen sorted_frequency_row - 1))%Q in
    let offset := if Qeq_bool resolution 0 then 0 else py_round (minimum_frequency / resolution)%Q in
    r <- sorted_rows eqb less_complex frequency_column sorted_frequency_row data_rows ;;
    let '(sorted_data_rows, is_array) := r in
    channels <-
      (if offset =? 0 then copy_array junk sorted_data_rows
       else if offset <? 0 then
         channels <- allocate junk (nrows sorted_data_rows) (cols sorted_data_rows - offset) ;;
         if (is_array : bool) then set_block channels everything everything (block sorted_data_rows everything (from offset))
         else Err TypeError     (* a list cannot be indexed with a tuple *)
       else
         channels <- allocate junk (nrows sorted_data_rows) (cols sorted_data_rows + offset) ;;
         channels <- set_block channels everything (between 0 offset) (scalar zero) ;;
         set_block channels everything (from offset) sorted_data_rows) ;;
    Ok (mk_spectrum channels resolution (Some (adapt_labels labels (nrows channels))))
  else Ok default_spectrum.

(** _spectrum_writers.py:100-112, CsvWriter, and _spectrum_readers.py:108-132, CsvReader *)
Definition write_spectrum_csv (show : Q -> string) (show_sample : A -> string) (s : spectrum A Q) : result csv :=
  frequencies <- frequency_samples s ;;
  write_csv show show_sample "frequency" frequencies (sp_channels s) (sp_labels s).
Definition read_spectrum_csv (parse : string -> option Q) (parse_sample : string -> option A) (path : string) (file : csv)
  : result (spectrum A Q) :=
  r <- read_csv parse parse_sample (fun n => map (file_label path) (zseq 1 (n - 1))) file ;;
  let '(frequencies, data, labels) := r in
  spectrum_from_rows frequencies data labels.

(** _spectrum_writers.py:135-145, NumpyNpyWriter, and _spectrum_readers.py:180-185, NumpyReader for npy files; [complex] is the conversion of
    a number to a complex number and [real] the real part. *)
Definition write_spectrum_npy (complex : Q -> A) (s : spectrum A Q) : result (arr A) :=
  array <- allocate junk (sp_count s + 1) (sp_length s) ;;
  frequencies <- frequency_samples s ;;
  array <- set_row_block array 0 everything (Arr [map complex frequencies] (zlen frequencies)) ;;
  set_block array (from 1) everything (sp_channels s).
Definition read_spectrum_npy (real : A -> Q) (path : string) (array : arr A) : result (spectrum A Q) :=
  frequencies <- getitem (rows array) 0 ;;
  spectrum_from_rows (map real frequencies) (block array (from 1) everything) (map (file_label path) (zseq 1 (nrows array - 1))).

End Spectrums.

(** ** Spectrums in JSON files *)

(** A complex number is the pair of its real and its imaginary part. *)
Definition times (a b : Q * Q) : Q * Q := (fst a * fst b - snd a * snd b, fst a * snd b + snd a * fst b)%Q.
Definition plus (a b : Q * Q) : Q * Q := (fst a + fst b, snd a + snd b)%Q.

(** _spectrum_writers.py:85-91, as_dict; each channel is a dictionary with the entries "real" and "imaginary". *)
Record spectrum_dictionary := SpectrumDictionary {
  j_channels : option (list (list Q * list Q));
  j_resolution : option Q;
  j_labels : option (list string) }.
Definition spectrum_as_dict (s : spectrum (Q * Q) Q) : spectrum_dictionary :=
  SpectrumDictionary (Some (map (fun r => (map fst r, map snd r)) (rows (sp_channels s)))) (Some (resolution s)) (Some (sp_labels s)).

(** _spectrum_readers.py:145-162 and 32-36.  (A dictionary, in which the real or the imaginary part of a channel is missing, is not modelled.) *)
Definition read_spectrum_json (junk : Z -> Z -> Q * Q) (d : spectrum_dictionary) : result (spectrum (Q * Q) Q) :=
  channels <-
    (match j_channels d with
     | None | Some [] => Ok (Arr [[]] 0)
     | Some ((c0 :: _) as data) =>
         let number_of_samples := zlen (fst c0) in
         if number_of_samples =? 0 then Ok (Arr [[]] 0)
         else
           channels <- allocate junk (zlen data) number_of_samples ;;
           for_each (combine (zseq 0 (zlen data)) data) (fun channels ic =>
             let '(i, c) := ic in
             let imaginary := Arr [map (fun x => (x, 0)%Q) (snd c)] (zlen (snd c)) in
             let real := Arr [map (fun x => (x, 0)%Q) (fst c)] (zlen (fst c)) in
             channels <- set_row_block channels i everything (ufunc1 (times (0, 1)%Q) imaginary) ;;
             view <- row channels i ;;
             sum <- ufunc2 plus view real 1 (cols channels) ;;
             set_row_block channels i everything sum) channels
     end) ;;
  Ok (mk_spectrum channels (get (j_resolution d) 1%Q) (Some (get (j_labels d) []))).
