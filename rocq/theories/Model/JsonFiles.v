(** Model of JSON files with signals, spectrums, spectrograms and filters, as texts:
    /repo/sumpf/_internal/_persistence/_signal_writers.py:122-127, 155-162 and _signal_readers.py:35-45, 130-137,
    _spectrum_writers.py:85-91, 119-126 and _spectrum_readers.py:139-162, _spectrogram_writers.py:80-105 and _spectrogram_readers.py:53-84,
    _filter_writers.py:433-442 and _filter_readers.py:34-84, 129-139.

    The dictionaries are those of Model/Tables.v, Model/SpectrogramFiles.v and Model/Filter.v.  Here, they are written with [json.dump] and read with
    [json.load], as modelled in Model/Json.v.  The result of saving is the contents of the file, which is opened before anything is written, and the
    exception that is raised then.

    Simplifications: sampling rates and resolutions are floating point numbers, and offsets are integers; numbers that are infinite or
    not-a-number are not samples of this model.  Files, whose values have other types than those, which are written, raise a [TypeError] here.
    The characters of labels are those with the code points 0 to 255. *)

From Coq Require Import String Ascii ZArith QArith List Bool.
From Verif.Model Require Import Py Numpy Functions Signal Spectrum Text Json Tables SpectrogramFiles Terms Filter.
Import ListNotations.
Open Scope string_scope.
Open Scope list_scope.
Open Scope Z_scope.

(** ** Parts *)

Fixpoint uncodes (l : list Z) : result string :=
  match l with
  | [] => Ok EmptyString
  | c :: l => if (0 <=? c) && (c <? 256) then s <- uncodes l ;; Ok (String (ascii_of_N (Z.to_N c)) s) else Err TypeError
  end.

Section Parts.
Context {N : Type}.
Notation json := (json N).

Definition string_json (s : string) : json := JStr (codes s).
Definition list_json {Y} (f : Y -> json) (l : list Y) : json := JList (map f l).
Definition optional {Y} (key : string) (f : Y -> json) (o : option Y) : list (list Z * json) :=
  match o with Some x => [(codes key, f x)] | None => [] end.

Definition json_string (v : json) : result string := match v with JStr s => uncodes s | _ => Err TypeError end.
Definition json_list {Y} (f : json -> result Y) (v : json) : result (list Y) := match v with JList l => sequence (map f l) | _ => Err TypeError end.
Definition json_int (v : json) : result Z := match v with JInt z => Ok z | _ => Err TypeError end.
Fixpoint find (key : list Z) (l : list (list Z * json)) : option json :=
  match l with [] => None | (k, v) :: l => if same_key k key then Some v else find key l end.
(** [dictionary.get(key, ...)] *)
Definition field {Y} (key : string) (f : json -> result Y) (l : list (list Z * json)) : result (option Y) :=
  match find (codes key) l with None => Ok None | Some v => x <- f v ;; Ok (Some x) end.
End Parts.

(** ** Signals, spectrums and spectrograms *)

Section Data.
Variable show : Q -> list Z.
Variable read : list Z -> option Q.

(** A sample; [double] says, if the array has double precision numbers, which are instances of [float], in contrast to those with single precision and
    integers. *)
Definition sample_json (double : bool) (x : Q) : json Q := if double then JFloat (Finite x) else JOther.
Definition number_json (x : Q) : json Q := JFloat (Finite x).
Definition json_number (v : json Q) : result Q := match v with JFloat (Finite x) => Ok x | JInt z => Ok (inject_Z z) | _ => Err TypeError end.

(** _signal_writers.py:122-127, 155-162 *)
Definition signal_json (double : bool) (d : signal_dictionary) : json Q :=
  JDict (optional "channels" (list_json (list_json (sample_json double))) (d_channels d) ++ optional "sampling_rate" number_json (d_sampling_rate d) ++
         optional "offset" (fun z => JInt z) (d_offset d) ++ optional "labels" (list_json string_json) (d_labels d)).
Definition save_signal (double : bool) (s : signal Q) : written := dump show (signal_json double (signal_as_dict s)).
(** _signal_readers.py:130-137 and 35-45 *)
Definition json_signal (v : json Q) : result signal_dictionary :=
  match v with
  | JDict l =>
      c <- field "channels" (json_list (json_list json_number)) l ;; r <- field "sampling_rate" json_number l ;;
      o <- field "offset" json_int l ;; s <- field "labels" (json_list json_string) l ;; Ok (SignalDictionary c r o s)
  | _ => Err TypeError
  end.
Definition load_signal (junk : Z -> Z -> Q) (text : list Z) : result (signal Q) :=
  v <- load read text ;; d <- json_signal v ;; signal_from_dict junk d.

(** _spectrum_writers.py:85-91, 119-126 *)
Definition parts_json {Y} (f : Y -> json Q) (c : Y * Y) : json Q := JDict [(codes "real", f (fst c)); (codes "imaginary", f (snd c))].
Definition json_parts {Y} (f : json Q -> result Y) (v : json Q) : result (Y * Y) :=
  match v with
  | JDict l => match find (codes "real") l, find (codes "imaginary") l with Some r, Some i => r <- f r ;; i <- f i ;; Ok (r, i) | _, _ => Err KeyError end
  | _ => Err TypeError
  end.
Definition spectrum_json (double : bool) (d : spectrum_dictionary) : json Q :=
  JDict (optional "channels" (list_json (parts_json (list_json (sample_json double)))) (j_channels d) ++ optional "resolution" number_json (j_resolution d) ++
         optional "labels" (list_json string_json) (j_labels d)).
Definition save_spectrum (double : bool) (s : spectrum (Q * Q) Q) : written := dump show (spectrum_json double (spectrum_as_dict s)).
(** _spectrum_readers.py:139-162 *)
Definition json_spectrum (v : json Q) : result spectrum_dictionary :=
  match v with
  | JDict l =>
      c <- field "channels" (json_list (json_parts (json_list json_number))) l ;; r <- field "resolution" json_number l ;;
      s <- field "labels" (json_list json_string) l ;; Ok (SpectrumDictionary c r s)
  | _ => Err TypeError
  end.
Definition load_spectrum (junk : Z -> Z -> Q * Q) (text : list Z) : result (spectrum (Q * Q) Q) :=
  v <- load read text ;; d <- json_spectrum v ;; read_spectrum_json junk d.

(** _spectrogram_writers.py:80-105 *)
Definition spectrogram_json (double : bool) (d : @spectrogram_dictionary Q) : json Q :=
  JDict (optional "channels" (list_json (parts_json (list_json (list_json (sample_json double))))) (sj_channels d) ++
         optional "resolution" number_json (sj_resolution d) ++ optional "sampling_rate" number_json (sj_rate d) ++
         optional "offset" (fun z => JInt z) (sj_offset d) ++ optional "labels" (list_json string_json) (sj_labels d)).
(** _spectrogram_readers.py:53-84 *)
Definition json_spectrogram (v : json Q) : result (@spectrogram_dictionary Q) :=
  match v with
  | JDict l =>
      c <- field "channels" (json_list (json_parts (json_list (json_list json_number)))) l ;; r <- field "resolution" json_number l ;;
      f <- field "sampling_rate" json_number l ;; o <- field "offset" json_int l ;; s <- field "labels" (json_list json_string) l ;;
      Ok (SpectrogramDictionary c r f o s)
  | _ => Err TypeError
  end.
End Data.

(** ** Filters *)

Section Filters.
Context {N K X : Type}.
Variable show : N -> list Z.
Variable read : list Z -> option N.
(** The numbers of [K] are complex numbers, only real ones can be written; frequencies always can. *)
Variable float_of_number : K -> option N.
Variable number_of_float : N -> K.
Variable float_of_frequency : X -> N.
Variable frequency_of_float : N -> X.

Fixpoint data_json (d : @data K X) : json N :=
  match d with
  | DStr s => string_json s
  | DBool b => JBool b
  | DInt z => JInt z
  | DNum x => match float_of_number x with Some x => JFloat (Finite x) | None => JOther end
  | DFrequency x => JFloat (Finite (float_of_frequency x))
  | DList l => JList (map data_json l)
  | DDict l => JDict (map (fun e => (codes (fst e), data_json (snd e))) l)
  end.

(** The floating point numbers of the entry "xs" are frequencies; Python does not distinguish them from other numbers. *)
Fixpoint json_data (frequencies : bool) (v : json N) : result (@data K X) :=
  match v with
  | JStr s => s <- uncodes s ;; Ok (DStr s)
  | JBool b => Ok (DBool b)
  | JInt z => Ok (DInt z)
  | JFloat (Finite x) => Ok (if frequencies then DFrequency (frequency_of_float x) else DNum (number_of_float x))
  | JList l => l <- sequence (map (json_data frequencies) l) ;; Ok (DList l)
  | JDict l =>
      l <- sequence (map (fun e : list Z * json N => k <- uncodes (fst e) ;; d <- json_data (String.eqb k "xs") (snd e) ;; Ok (k, d)) l) ;; Ok (DDict l)
  | _ => Err TypeError
  end.

Variable A : arithmetic K X.
Variable complex_array : list K -> bool.
Variables real imag : K -> K.
Variable unit : K.

(** _filter_writers.py:433-442 *)
Definition save_filter (F : filter K X) : written := dump show (data_json (filter_as_dict complex_array real imag F)).
(** _filter_readers.py:129-139 *)
Definition load_filter (text : list Z) : result (filter K X) :=
  v <- load read text ;; d <- json_data false v ;; filter_from_dict A unit d.
End Filters.
