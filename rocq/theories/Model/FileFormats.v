(** The file formats, and the extensions and classes that are associated with them:
    the tables in /repo/sumpf/_internal/_persistence/_signal_writers.py, _spectrum_writers.py,
    _spectrogram_writers.py, _filter_writers.py and the respective readers.

    A member of an enumeration is modelled by its name; the members of the two enumerations in
    _filter_writers.py are distinguished by the names of the enumerations.  [AUTO] is left out
    (see [Persistence.save]). *)

From Coq Require Import String List Bool.
From Verif.Model Require Import Py Persistence.
Import ListNotations.
Open Scope string_scope.

(** What is written in a class statement: the name of the class, the attribute [formats] (or [extensions])
    and whether the constructor imports the library [soundfile]. *)
Record class_entry := Entry { e_name : string; e_supported : list string; e_soundfile : bool }.

(** ** Signals *)

(** _signal_writers.py:33-68 *)
Definition signal_formats : list string :=
  ["TEXT_CSV"; "TEXT_JSON"; "NUMPY_NPZ"; "NUMPY_NPY"; "PYTHON_PICKLE";
   "WAV_UINT8"; "WAV_INT16"; "WAV_INT24"; "WAV_INT32"; "WAV_FLOAT32"; "WAV_FLOAT64"; "WAV_ULAW"; "WAV_ALAW";
   "AIFF_UINT8"; "AIFF_INT8"; "AIFF_INT16"; "AIFF_INT24"; "AIFF_INT32"; "AIFF_FLOAT32"; "AIFF_FLOAT64"; "AIFF_ULAW"; "AIFF_ALAW";
   "FLAC_INT8"; "FLAC_INT16"; "FLAC_INT24"; "OGG_VORBIS"].

(** _signal_writers.py:71-86 *)
Definition aiff : list string :=
  ["AIFF_FLOAT32"; "AIFF_INT32"; "AIFF_INT24"; "AIFF_INT16"; "AIFF_FLOAT64"; "AIFF_INT8"; "AIFF_UINT8"; "AIFF_ULAW"; "AIFF_ALAW"].
Definition signal_mapping : list (string * list string) :=
  [(".csv", ["TEXT_CSV"]); (".json", ["TEXT_JSON"]); (".js", ["TEXT_JSON"]);
   (".npz", ["NUMPY_NPZ"]); (".npy", ["NUMPY_NPY"]); (".pickle", ["PYTHON_PICKLE"]);
   (".wav", ["WAV_FLOAT32"; "WAV_INT32"; "WAV_INT24"; "WAV_INT16"; "WAV_FLOAT64"; "WAV_UINT8"; "WAV_ULAW"; "WAV_ALAW"]);
   (".aiff", aiff); (".aifc", aiff); (".aif", aiff);
   (".flac", ["FLAC_INT24"; "FLAC_INT16"; "FLAC_INT8"]);
   (".ogg", ["OGG_VORBIS"]); (".oga", ["OGG_VORBIS"])].

(** _signal_writers.py:130-336, in the order of the class statements *)
Definition signal_writers : list class_entry :=
  [Entry "CsvWriter" ["TEXT_CSV"] false; Entry "JsonWriter" ["TEXT_JSON"] false;
   Entry "NumpyNpyWriter" ["NUMPY_NPY"] false; Entry "NumpyNpzWriter" ["NUMPY_NPZ"] false;
   Entry "PickleWriter" ["PYTHON_PICKLE"] false;
   Entry "WaveWriter" ["WAV_INT32"; "WAV_INT16"; "WAV_UINT8"] false;
   Entry "AifcWriter" ["AIFF_INT32"; "AIFF_INT16"; "AIFF_INT8"] false;
   Entry "SoundfileWriter"
     ["WAV_UINT8"; "WAV_INT16"; "WAV_INT24"; "WAV_INT32"; "WAV_FLOAT32"; "WAV_FLOAT64"; "WAV_ULAW"; "WAV_ALAW";
      "AIFF_UINT8"; "AIFF_INT8"; "AIFF_INT16"; "AIFF_INT24"; "AIFF_INT32"; "AIFF_FLOAT32"; "AIFF_FLOAT64"; "AIFF_ULAW"; "AIFF_ALAW";
      "FLAC_INT8"; "FLAC_INT16"; "FLAC_INT24"; "OGG_VORBIS"] true].

(** _signal_readers.py:94-271 *)
Definition signal_readers : list class_entry :=
  [Entry "CsvReader" [".csv"] false; Entry "JsonReader" [".json"; ".js"] false;
   Entry "NumpyReader" [".npz"; ".npy"] false; Entry "PickleReader" [".pickle"] false;
   Entry "WaveReader" [".wav"] false; Entry "AifcReader" [".wav"] false;
   Entry "SoundfileReader" [".wav"; ".aiff"; ".aifc"; ".aif"; ".flac"; ".ogg"; ".oga"] true].

(** ** Spectrums *)

(** _spectrum_writers.py:29-39 *)
Definition spectrum_formats : list string := ["TEXT_CSV"; "TEXT_JSON"; "NUMPY_NPZ"; "NUMPY_NPY"; "PYTHON_PICKLE"].
(** _spectrum_writers.py:42-48 *)
Definition spectrum_mapping : list (string * list string) :=
  [(".csv", ["TEXT_CSV"]); (".json", ["TEXT_JSON"]); (".js", ["TEXT_JSON"]);
   (".npz", ["NUMPY_NPZ"]); (".npy", ["NUMPY_NPY"]); (".pickle", ["PYTHON_PICKLE"])].
(** _spectrum_writers.py:94-176 *)
Definition spectrum_writers : list class_entry :=
  [Entry "CsvWriter" ["TEXT_CSV"] false; Entry "JsonWriter" ["TEXT_JSON"] false;
   Entry "NumpyNpyWriter" ["NUMPY_NPY"] false; Entry "NumpyNpzWriter" ["NUMPY_NPZ"] false;
   Entry "PickleWriter" ["PYTHON_PICKLE"] false].
(** _spectrum_readers.py:102-198 *)
Definition spectrum_readers : list class_entry :=
  [Entry "CsvReader" [".csv"] false; Entry "JsonReader" [".json"; ".js"] false;
   Entry "NumpyReader" [".npz"; ".npy"] false; Entry "PickleReader" [".pickle"] false].

(** ** Spectrograms *)

(** _spectrogram_writers.py:28-36 *)
Definition spectrogram_formats : list string := ["TEXT_JSON"; "NUMPY_NPZ"; "PYTHON_PICKLE"].
(** _spectrogram_writers.py:39-43 *)
Definition spectrogram_mapping : list (string * list string) :=
  [(".json", ["TEXT_JSON"]); (".js", ["TEXT_JSON"]); (".npz", ["NUMPY_NPZ"]); (".pickle", ["PYTHON_PICKLE"])].
(** _spectrogram_writers.py:94-138 *)
Definition spectrogram_writers : list class_entry :=
  [Entry "JsonWriter" ["TEXT_JSON"] false; Entry "NumpyNpzWriter" ["NUMPY_NPZ"] false;
   Entry "PickleWriter" ["PYTHON_PICKLE"] false].
(** _spectrogram_readers.py:49-112 *)
Definition spectrogram_readers : list class_entry :=
  [Entry "JsonReader" [".json"; ".js"] false; Entry "NumpyReader" [".npz"] false;
   Entry "PickleReader" [".pickle"] false].

(** ** Filters and bands filters *)

(** _filter_writers.py:30-38 *)
Definition filter_formats : list string :=
  ["FilterFormats.TEXT_JSON"; "FilterFormats.TEXT_REPR"; "FilterFormats.PYTHON_PICKLE"].
(** _filter_writers.py:41-57 *)
Definition bands_formats : list string :=
  ["BandsFormats.TEXT_TAB_I"; "BandsFormats.TEXT_TAB_J"; "BandsFormats.TEXT_PIPE_I"; "BandsFormats.TEXT_PIPE_J";
   "BandsFormats.TEXT_GNUPLOT"; "BandsFormats.TEXT_CSV"; "BandsFormats.TEXT_JSON"; "BandsFormats.TEXT_REPR";
   "BandsFormats.NUMPY_NPY"; "BandsFormats.NUMPY_NPZ"; "BandsFormats.PYTHON_PICKLE"].
(** _filter_writers.py:60-66 *)
Definition filter_mapping : list (string * list string) :=
  [(".txt", ["FilterFormats.TEXT_REPR"]); (".json", ["FilterFormats.TEXT_JSON"]); (".js", ["FilterFormats.TEXT_JSON"]);
   (".pickle", ["FilterFormats.PYTHON_PICKLE"])].
(** _filter_writers.py:67-79 *)
Definition bands_mapping : list (string * list string) :=
  [(".txt", ["BandsFormats.TEXT_TAB_I"; "BandsFormats.TEXT_TAB_J"; "BandsFormats.TEXT_PIPE_I"; "BandsFormats.TEXT_PIPE_J";
             "BandsFormats.TEXT_REPR"; "BandsFormats.TEXT_GNUPLOT"]);
   (".dat", ["BandsFormats.TEXT_TAB_I"; "BandsFormats.TEXT_TAB_J"; "BandsFormats.TEXT_PIPE_I"; "BandsFormats.TEXT_PIPE_J";
             "BandsFormats.TEXT_GNUPLOT"; "BandsFormats.TEXT_CSV"]);
   (".asc", ["BandsFormats.TEXT_TAB_I"; "BandsFormats.TEXT_TAB_J"; "BandsFormats.TEXT_PIPE_I"; "BandsFormats.TEXT_PIPE_J";
             "BandsFormats.TEXT_GNUPLOT"]);
   (".tab", ["BandsFormats.TEXT_TAB_I"; "BandsFormats.TEXT_TAB_J"; "BandsFormats.TEXT_GNUPLOT"]);
   (".csv", ["BandsFormats.TEXT_CSV"]); (".json", ["BandsFormats.TEXT_JSON"]); (".js", ["BandsFormats.TEXT_JSON"]);
   (".npy", ["BandsFormats.NUMPY_NPY"]); (".npz", ["BandsFormats.NUMPY_NPZ"]); (".pickle", ["BandsFormats.PYTHON_PICKLE"])].
(** _filter_writers.py:207-518; the two enumerations share the classes *)
Definition filter_writers : list class_entry :=
  [Entry "TextTabIWriter" ["BandsFormats.TEXT_TAB_I"] false; Entry "TextTabJWriter" ["BandsFormats.TEXT_TAB_J"] false;
   Entry "TextPipeIWriter" ["BandsFormats.TEXT_PIPE_I"] false; Entry "TextPipeJWriter" ["BandsFormats.TEXT_PIPE_J"] false;
   Entry "TextGnuplotWriter" ["BandsFormats.TEXT_GNUPLOT"] false; Entry "CsvWriter" ["BandsFormats.TEXT_CSV"] false;
   Entry "ReprWriter" ["FilterFormats.TEXT_REPR"; "BandsFormats.TEXT_REPR"] false;
   Entry "JsonWriter" ["FilterFormats.TEXT_JSON"; "BandsFormats.TEXT_JSON"] false;
   Entry "NumpyNpyWriter" ["BandsFormats.NUMPY_NPY"] false; Entry "NumpyNpzWriter" ["BandsFormats.NUMPY_NPZ"] false;
   Entry "PickleWriter" ["FilterFormats.PYTHON_PICKLE"; "BandsFormats.PYTHON_PICKLE"] false].
(** _filter_readers.py:97-286 *)
Definition filter_readers : list class_entry :=
  [Entry "ReprReader" [".txt"] false; Entry "JsonReader" [".json"; ".js"] false; Entry "PickleReader" [".pickle"] false;
   Entry "TableReader" [".txt"; ".dat"; ".asc"; ".tab"] false; Entry "CsvReader" [".csv"] false;
   Entry "NumpyReader" [".npz"; ".npy"] false].

(** ** The classes, when it is given what the constructors and the instances do *)

Section Classes.
Context {W D : Type}.
Variable soundfile : W -> bool.     (* is the library [soundfile] installed? *)

(** The constructors: _signal_readers.py:269-270, _signal_writers.py:337-345; all other constructors never raise. *)
Definition constructor (e : class_entry) (w : W) : result unit :=
  if e_soundfile e && negb (soundfile w) then Err ImportError else Ok tt.

Definition writer_of (behaviour : string -> string -> D -> string -> W -> result unit * W) (e : class_entry) : writer_class W D string :=
  WriterClass (e_name e) (e_supported e) (fun w _ => constructor e w) (behaviour (e_name e)).

Definition reader_of (behaviour : string -> W -> string -> result D) (e : class_entry) : reader_class W D :=
  ReaderClass (e_name e) (e_supported e) (constructor e) (behaviour (e_name e)).
End Classes.
