(** Model of the files, in which spectrograms are stored:
    /repo/sumpf/_internal/_persistence/_spectrogram_writers.py:80-124 and _spectrogram_readers.py:31-101.

    JSON files and npz files are dictionaries; their representation in the file is not modelled.
    Neither are dtypes: the samples are double precision complex numbers ([json.dump] raises a
    TypeError for the parts of single precision complex numbers), that are neither infinite nor
    not-a-number.  Pickle files are not modelled.
    [junk] is the contents of freshly allocated memory.

    The samples have the type [K], their real and imaginary parts the type [T]. *)

From Coq Require Import String Ascii ZArith QArith List Bool.
From Verif.Model Require Import Py Numpy Functions Cube Spectrogram Tables.
Import ListNotations.
Open Scope string_scope.
Open Scope list_scope.
Open Scope Z_scope.

Section Files.
Context {K T : Type}.
(** [complex(x)], [1j], [x * y], [x + y], [x.real] and [x.imag] *)
Variable of_real : T -> K.
Variable unit_j : K.
Variables mul add : K -> K -> K.
Variables real imag : K -> T.
Variable junk : Z -> Z -> Z -> K.

(** ** JSON files *)

(** The dictionary in a JSON file; an entry of [sj_channels] is the dictionary with the entries "real" and "imaginary" for a channel. *)
Record spectrogram_dictionary := SpectrogramDictionary {
  sj_channels : option (list (list (list T) * list (list T)));
  sj_resolution : option Q;
  sj_rate : option Q;
  sj_offset : option Z;
  sj_labels : option (list string) }.

(** The rows of [f(channels[i])] as tuples *)
Definition tuples (f : K -> T) (m : cube K) (i : Z) : list (list T) :=
  map (fun j => flat_map (fun k => match cell m i j k with Some x => [f x] | None => [] end) (zseq 0 (dim2 m))) (zseq 0 (dim1 m)).

(** _spectrogram_writers.py:80-91, [as_dict(spectrogram)] *)
Definition spectrogram_as_dict (s : spectrogram K Q) : spectrogram_dictionary :=
  SpectrogramDictionary (Some (map (fun i => (tuples real (sg_channels s) i, tuples imag (sg_channels s) i)) (zseq 0 (sg_count s))))
    (Some (sg_resolution s)) (Some (sg_rate s)) (Some (sg_offset s)) (Some (sg_labels s)).

(** A list of lists of numbers, that is passed to a function of NumPy.  An empty list becomes a one dimensional array, here one with one row.
    (A list with rows of different lengths does not become an array of numbers.  Older versions of NumPy make an array of lists, from which the
    multiplication with 1j raises a TypeError, newer ones raise the ValueError.) *)
Definition array_of_lists (l : list (list T)) : result (arr K) :=
  match l with
  | [] => Ok (Arr [[]] 0)
  | r :: _ => if forallb (fun r' => zlen r' =? zlen r) l then Ok (Arr (map (map of_real) l) (zlen r)) else Err ValueError
  end.

(** The reader passes a two dimensional array to the constructor of [Spectrogram], when there are no samples.  The constructor does not complain. *)
Inductive loaded :=
| Loaded (s : spectrogram K Q)
| Flat (channels : arr K) (resolution rate : Q) (offset : Z) (labels : list string).

(** _spectrogram_readers.py:31-37, [from_dict(channels, dictionary)] *)
Definition spectrogram_from_dict (channels : cube K) (resolution rate : option Q) (offset : option Z) (labels : option (list string)) : spectrogram K Q :=
  mk_spectrogram channels (get resolution 1%Q) (get rate 48000%Q) (get offset 0) (Some (get labels [])).

(** _spectrogram_readers.py:53-84, JsonReader.  (A dictionary, in which the real or the imaginary part of a channel is missing, is not modelled.) *)
Definition read_spectrogram_json (d : spectrogram_dictionary) : result loaded :=
  let empty :=
    Ok (Flat (Arr [[]] 0) (get (sj_resolution d) 1%Q) (get (sj_rate d) 48000%Q) (get (sj_offset d) 0)
         (sanitize_labels (Some (get (sj_labels d) [])) 1)) in
  match sj_channels d with
  | None => empty
  | Some [] => empty
  | Some (((c0, _) :: _) as data) =>
      match c0 with
      | [] => empty
      | r0 :: _ =>
          let number_of_samples := zlen r0 in
          if number_of_samples =? 0 then empty
          else
            channels <- allocate3 junk (zlen data) (zlen c0) number_of_samples ;;
            channels <- for_each (combine (zseq 0 (zlen data)) data) (fun channels ic =>
              let '(i, c) := ic in
              imaginary <- array_of_lists (snd c) ;;
              channels <- ufunc3_into mul (scalar3 unit_j) (cube_of imaginary) channels (between i (i + 1)) everything everything ;;
              view <- layer channels i ;;
              real_part <- array_of_lists (fst c) ;;
              ufunc3_into add view (cube_of real_part) channels (between i (i + 1)) everything everything) channels ;;
            Ok (Loaded (spectrogram_from_dict channels (sj_resolution d) (sj_rate d) (sj_offset d) (sj_labels d)))
      end
  end.

(** ** npz files *)

(** NumPy's arrays of strings drop the NUL characters at the end of a string. *)
Fixpoint without_nul (s : string) : string :=
  match s with
  | EmptyString => EmptyString
  | String c s' =>
      match without_nul s' with
      | EmptyString => if Ascii.eqb c "000"%char then EmptyString else String c EmptyString
      | t => String c t
      end
  end.

Record spectrogram_archive := SpectrogramArchive {
  sz_channels : cube K;
  sz_resolution : option Q;
  sz_rate : option Q;
  sz_offset : option Z;
  sz_labels : option (list string) }.

(** _spectrogram_writers.py:108-124, NumpyNpzWriter *)
Definition write_spectrogram_npz (s : spectrogram K Q) : spectrogram_archive :=
  SpectrogramArchive (sg_channels s) (Some (sg_resolution s)) (Some (sg_rate s)) (Some (sg_offset s)) (Some (map without_nul (sg_labels s))).

(** _spectrogram_readers.py:87-101, NumpyReader *)
Definition read_spectrogram_npz (a : spectrogram_archive) : result (spectrogram K Q) :=
  channels <- allocate3 junk (dim0 (sz_channels a)) (dim1 (sz_channels a)) (dim2 (sz_channels a)) ;;
  channels <- set3 channels everything everything everything (sz_channels a) ;;
  Ok (spectrogram_from_dict channels (sz_resolution a) (sz_rate a) (sz_offset a) (sz_labels a)).
End Files.
Arguments SpectrogramDictionary {T}. Arguments sj_channels {T}. Arguments sj_resolution {T}. Arguments sj_rate {T}.
Arguments sj_offset {T}. Arguments sj_labels {T}.
