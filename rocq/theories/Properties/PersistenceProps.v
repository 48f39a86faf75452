(** C33: the choice of readers and writers.

    A reader or a writer is an arbitrary function of the state of the world; the world is any type. *)

From Coq Require Import String ZArith List Bool Lia.
From Verif.Model Require Import Py Persistence FileFormats.
From Verif.Spec Require Import PersistenceSpec.
From Verif.Proofs Require Import ExtensionFacts ReaderResults WriterFacts WriterResults.
Import ListNotations.
Open Scope string_scope.
Open Scope list_scope.

(** The extension, by which the readers and writers are chosen, is the one of the last component of the path. *)
Theorem C33_extension : forall path extension,
  snd (splitext path) = extension <-> is_extension path extension.
Proof. exact extension_iff. Qed.
Print Assumptions C33_extension.
Example C33_extension_case :
  splitext "/data.d/a.b.wav" = ("/data.d/a.b", ".wav") /\ splitext "/data.d/..hidden" = ("/data.d/..hidden", "")
  /\ splitext "/data.d/.hidden" = ("/data.d/.hidden", "") /\ splitext "x.y/z" = ("x.y/z", "").
Proof. vm_compute. auto. Qed.

(** [load] yields the result of the first reader, that can read the file: the readers, that are known for the extension come
    first, then those, whose class is associated with the extension, then all other ones.  It raises a [ValueError] if and
    only if all of them fail, and the cause of this is the exception of the reader, that has been tried first.  Readers are added
    to the dictionary only for extensions, that are already in the dictionary. *)
Theorem C33_load : forall (W D : Type) (w : W) path (readers : list (string * list (reader_class W D))) classes,
  NoDup (map r_name classes) -> (forall c, In c classes -> regular_init w c) ->
  forall extension, is_extension path extension ->
  let known := match lookup String.eqb extension readers with Some l => l | None => [] end in
  (forall c, In c classes \/ In c known -> returns w path c) ->
  let candidates := by_preference w extension known classes in
  match fst (read_file w path readers classes) with
  | Loaded d => first_success w path candidates d
  | Unreadable cause => (forall c, In c candidates -> fails w path c) /\ exception_of_first w path candidates cause
  | Raised _ => False
  end
  /\ match lookup String.eqb extension readers with
     | None => snd (read_file w path readers classes) = readers
     | Some known => exists new, lookup String.eqb extension (snd (read_file w path readers classes)) = Some (known ++ new)
                                 /\ forall c, In c new -> In c classes /\ available w c = true
     end.
Proof. intros W D. exact (@read_file_result W D). Qed.
Print Assumptions C33_load.

(** A file, that an available reader can read, is loaded, and a reader, that is associated with the extension of the file, is preferred. *)
Theorem C33_load_readable : forall (W D : Type) (w : W) path (classes : list (reader_class W D)),
  NoDup (map r_name classes) -> (forall c, In c classes -> regular_init w c /\ returns w path c) ->
  forall c d, In c classes -> r_init c w = Ok tt -> r_call c w path = Ok d ->
  exists c' d', fst (read_file w path [] classes) = Loaded d' /\ In c' classes /\ r_init c' w = Ok tt /\ r_call c' w path = Ok d'
                /\ forall x, is_extension path x -> In x (r_extensions c) -> In x (r_extensions c').
Proof. intros W D. exact (@readable_loaded W D). Qed.
Print Assumptions C33_load_readable.

(** What [load] yields does not depend on the files, that have been loaded before. *)
Theorem C33_load_history : forall (W D : Type) (classes : list (reader_class W D)) calls,
  load_all classes [] calls = map (fun c => fst (read_file (fst c) (snd c) [] classes)) calls.
Proof. intros W D. exact (@loads_independent W D). Qed.
Print Assumptions C33_load_history.

(** Three readers in a world, which is the set of the installed libraries: the first one lacks its library, the second one
    cannot read the file, the third one is not associated with the extension. *)
Definition numbers_reader : reader_class (list string) Z :=
  ReaderClass "numbers" [".n"] (fun w => if existsb (String.eqb "numlib") w then Ok tt else Err ImportError) (fun _ _ => Ok 1%Z).
Definition failing_reader : reader_class (list string) Z := ReaderClass "failing" [".n"; ".m"] (fun _ => Ok tt) (fun _ _ => Err TypeError).
Definition general_reader : reader_class (list string) Z := ReaderClass "general" [] (fun _ => Ok tt) (fun _ p => if String.eqb p "bad.n" then Err KeyError else Ok 2%Z).
Definition three_readers := [general_reader; failing_reader; numbers_reader].

Example C33_load_case :
  NoDup (map r_name three_readers)
  /\ (forall w c path, In c three_readers -> regular_init w c /\ returns w path c)
  /\ fst (read_file [] "a.n" [] three_readers) = Loaded 2%Z
  /\ fst (read_file ["numlib"] "a.n" [] three_readers) = Loaded 1%Z
  /\ fst (read_file [] "bad.n" [] three_readers) = Unreadable (Some TypeError)
  /\ load_all three_readers [] [([], "a.n"); (["numlib"], "a.n"); ([], "a.n")] = [Loaded 2%Z; Loaded 1%Z; Loaded 2%Z].
Proof.
  split; [repeat constructor; cbn; intuition discriminate |].
  split; [| vm_compute; auto].
  intros w c path [<- | [<- | [<- | []]]]; unfold regular_init, returns;
    cbn [r_init r_call general_reader failing_reader numbers_reader]; (split; [auto | try discriminate]).
  - destruct (String.eqb path "bad.n"); discriminate.
  - destruct (existsb (String.eqb "numlib") w); auto.
Qed.

(** The documentation of [read_file] says, that a new reader, which has read a file successfully, is added to the dictionary of readers.
    It is not: the dictionary of the library is empty, and it stays empty. *)
Theorem C33_reader_remembered_refuted :
  (forall (W D : Type) (w : W) path (classes : list (reader_class W D)), snd (read_file w path [] classes) = [])
  /\ exists (classes : list (reader_class unit Z)) path d, fst (read_file tt path [] classes) = Loaded d.
Proof.
  split; [intros W D; exact (@nothing_remembered W D) |].
  exists [ReaderClass "numbers" [".n"] (fun _ => Ok tt) (fun _ _ => Ok 1%Z)], "a.n", 1%Z. reflexivity.
Qed.
Print Assumptions C33_reader_remembered_refuted.

(** [save] with a format: the data set is written by an instance of a class, that supports the format.  It is the instance, that has
    been created before, or one of the first class, whose libraries are installed.  If there is no such class, nothing is
    written and a [ValueError] is raised. *)
Theorem C33_save_format : forall (W D F : Type) (format_eqb : F -> F -> bool), (forall a b, format_eqb a b = true <-> a = b) ->
  forall (classes : list (writer_class W D F)) mapping, (forall c, In c classes -> regular_writer c) ->
  forall data path f st w r st' w', reachable format_eqb classes mapping st ->
  save format_eqb classes mapping data path (Some f) st w = (r, st', w') ->
  (exists i, writer_for classes f i /\ run i data path w = (r, w')
             /\ (lookup format_eqb f (writers st) = Some i \/ first_available classes w f (w_class i)))
  \/ (unavailable classes w f /\ r = Err ValueError /\ w' = w).
Proof. intros W D F. exact (@save_with_format W D F). Qed.
Print Assumptions C33_save_format.

(** Once a writer for a format has been found, it is used for that format ever after. *)
Theorem C33_same_writer : forall (W D F : Type) (format_eqb : F -> F -> bool), (forall a b, format_eqb a b = true <-> a = b) ->
  forall (classes : list (writer_class W D F)) mapping, (forall c, In c classes -> regular_writer c) ->
  forall data path f st w i w1 r st1 st2, reachable format_eqb classes mapping st ->
  save format_eqb classes mapping data path (Some f) st w = (r, st1, w1) ->
  lookup format_eqb f (writers st1) = Some i -> later format_eqb classes mapping st1 st2 ->
  forall data' path' u, let '(r', _, u') := save format_eqb classes mapping data' path' (Some f) st2 u in run i data' path' u = (r', u').
Proof. intros W D F. exact (@same_writer_again W D F). Qed.
Print Assumptions C33_same_writer.

(** [save] without a format, if it returns: the last thing, that happened to the world, is that a writer for a format, which is
    associated with the extension of the path, has written the data set successfully.  All that happened before
    are failed attempts of such writers to write the same data set to the same path. *)
Theorem C33_save_auto : forall (W D F : Type) (format_eqb : F -> F -> bool), (forall a b, format_eqb a b = true <-> a = b) ->
  forall (classes : list (writer_class W D F)) mapping, (forall c, In c classes -> regular_writer c) ->
  forall data path extension st w st' w', reachable format_eqb classes mapping st -> is_extension path extension ->
  save format_eqb classes mapping data path None st w = (Ok tt, st', w') ->
  exists f i w1, format_of mapping extension f /\ writer_for classes f i
                 /\ attempts classes mapping extension data path w w1 /\ run i data path w1 = (Ok tt, w').
Proof. intros W D F. exact (@save_guessing W D F). Qed.
Print Assumptions C33_save_auto.

(** [save] without a format, if it raises: either the extension is unknown, and nothing has been written;
    or no writer for any format of the extension has succeeded; or a writer has raised an exception, that is not caught. *)
Theorem C33_save_auto_fails : forall (W D F : Type) (format_eqb : F -> F -> bool), (forall a b, format_eqb a b = true <-> a = b) ->
  forall (classes : list (writer_class W D F)) mapping, (forall c, In c classes -> regular_writer c) ->
  forall data path extension st w st' w' e, reachable format_eqb classes mapping st -> is_extension path extension ->
  save format_eqb classes mapping data path None st w = (Err e, st', w') ->
  ((forall formats, ~ In (extension, formats) mapping) /\ e = ValueError /\ w' = w)
  \/ ((exists formats, In (extension, formats) mapping /\ forall f, In f formats -> tried classes mapping data path extension f w w')
      /\ e = ImportError /\ attempts classes mapping extension data path w w')
  \/ (e <> ValueError
      /\ exists f i w1, format_of mapping extension f /\ writer_for classes f i
                        /\ attempts classes mapping extension data path w w1 /\ run i data path w1 = (Err e, w')).
Proof. intros W D F. exact (@save_guessing_fails W D F). Qed.
Print Assumptions C33_save_auto_fails.

(** [save] without a format returns, if the writers for one of the formats of the extension work, and the other ones raise nothing else than [ValueError]. *)
Theorem C33_save_auto_succeeds : forall (W D F : Type) (format_eqb : F -> F -> bool), (forall a b, format_eqb a b = true <-> a = b) ->
  forall (classes : list (writer_class W D F)) mapping, (forall c, In c classes -> regular_writer c) ->
  forall data path extension formats f st w,
  reachable format_eqb classes mapping st -> is_extension path extension ->
  NoDup (map fst mapping) -> In (extension, formats) mapping -> In f formats ->
  (forall c g u e, In c classes -> fst (w_call c g data path u) = Err e -> e = ValueError) ->
  (forall u, ~ unavailable classes u f) ->
  (forall i u, writer_for classes f i -> fst (run i data path u) = Ok tt) ->
  fst (fst (save format_eqb classes mapping data path None st w)) = Ok tt.
Proof. intros W D F. exact (@save_guessing_succeeds W D F). Qed.
Print Assumptions C33_save_auto_succeeds.

(** A world with one file, the contents of which are a list of texts, and two writers: the first one writes something before it fails. *)
Definition sloppy_writer : writer_class (list string) Z Z :=
  WriterClass "sloppy" [1; 2]%Z (fun _ _ => Ok tt) (fun f _ _ w => (Err ValueError, "rubbish" :: w)).
Definition decent_writer : writer_class (list string) Z Z :=
  WriterClass "decent" [2; 3]%Z (fun _ _ => Ok tt) (fun _ _ _ w => (Ok tt, "decent" :: w)).
Definition two_writers := [sloppy_writer; decent_writer].
Definition two_mapping : list (string * list Z) := [(".a", [1; 2; 3]%Z); (".b", [1; 2]%Z)].
Definition save_two := save Z.eqb two_writers two_mapping.

Example C33_save_case :
  (forall c, In c two_writers -> regular_writer c)
  /\ reachable Z.eqb two_writers two_mapping (snd (fst (save_two 0%Z "x.a" None (State [] []) [])))
  /\ (let '(r, _, w) := save_two 0%Z "x.a" None (State [] []) [] in r = Ok tt /\ w = ["decent"; "rubbish"; "rubbish"])
  /\ (let '(r, _, w) := save_two 0%Z "x.a" None (snd (fst (save_two 0%Z "x.a" None (State [] []) []))) [] in r = Ok tt /\ w = ["decent"])
  /\ (let '(r, _, w) := save_two 0%Z "x.b" None (State [] []) [] in r = Err ImportError /\ w = ["rubbish"; "rubbish"])
  /\ (let '(r, _, w) := save_two 0%Z "x.c" None (State [] []) [] in r = Err ValueError /\ w = [])
  /\ (let '(r, _, w) := save_two 0%Z "x.c" (Some 3%Z) (State [] []) [] in r = Ok tt /\ w = ["decent"])
  /\ (let '(r, _, w) := save_two 0%Z "x.c" (Some 4%Z) (State [] []) [] in r = Err ValueError /\ w = []).
Proof.
  split; [intros c [<- | [<- | []]] w f; left; reflexivity |].
  split; [destruct (save_two 0%Z "x.a" None (State [] []) []) as [[r st] w] eqn:E; cbn [fst snd]; eapply after_save; [apply at_first | exact E] |].
  vm_compute. auto 10.
Qed.

(** ** The tables of the library *)

(** Each format of signals can be written, when [soundfile] is installed; the integer formats with 8, 16 and 32 bits and the formats, that have
    nothing to do with audio files, do not need the library. *)
Theorem C33_signal_formats : forall (W D : Type) (soundfile : W -> bool) (behaviour : string -> string -> D -> string -> W -> result unit * W) w f,
  In f signal_formats ->
  (unavailable (map (writer_of soundfile behaviour) signal_writers) w f
   <-> soundfile w = false
       /\ ~ In f ["TEXT_CSV"; "TEXT_JSON"; "NUMPY_NPZ"; "NUMPY_NPY"; "PYTHON_PICKLE";
                  "WAV_UINT8"; "WAV_INT16"; "WAV_INT32"; "AIFF_INT8"; "AIFF_INT16"; "AIFF_INT32"]).
Proof. intros W D. exact (@signal_formats_available W D). Qed.
Print Assumptions C33_signal_formats.

(** Each format of spectrums, spectrograms, filters and bands filters can be written, and each extension stands for at least one format. *)
Theorem C33_other_formats : forall (W D : Type) (soundfile : W -> bool) (behaviour : string -> string -> D -> string -> W -> result unit * W) w,
  (forall f, In f spectrum_formats -> ~ unavailable (map (writer_of soundfile behaviour) spectrum_writers) w f)
  /\ (forall f, In f spectrogram_formats -> ~ unavailable (map (writer_of soundfile behaviour) spectrogram_writers) w f)
  /\ (forall f, In f filter_formats -> ~ unavailable (map (writer_of soundfile behaviour) filter_writers) w f)
  /\ (forall f, In f bands_formats -> ~ unavailable (map (writer_of soundfile behaviour) filter_writers) w f).
Proof. intros W D. exact (@other_formats_available W D). Qed.
Print Assumptions C33_other_formats.

Theorem C33_extensions :
  (forall x l, In (x, l) signal_mapping -> l <> [] /\ incl l signal_formats)
  /\ (forall x l, In (x, l) spectrum_mapping -> l <> [] /\ incl l spectrum_formats)
  /\ (forall x l, In (x, l) spectrogram_mapping -> l <> [] /\ incl l spectrogram_formats)
  /\ (forall x l, In (x, l) filter_mapping -> l <> [] /\ incl l filter_formats)
  /\ (forall x l, In (x, l) bands_mapping -> l <> [] /\ incl l bands_formats).
Proof. exact extensions_known. Qed.
Print Assumptions C33_extensions.

(** Without [soundfile], a new wav file has 32 bit integers. *)
Theorem C33_wav_without_soundfile : forall (W D : Type) (soundfile : W -> bool) (behaviour : string -> string -> D -> string -> W -> result unit * W)
    data path w w',
  soundfile w = false -> is_extension path ".wav" ->
  behaviour "WaveWriter" "WAV_INT32" data path w = (Ok tt, w') ->
  exists st', save String.eqb (map (writer_of soundfile behaviour) signal_writers) signal_mapping data path None (State [] []) w = (Ok tt, st', w').
Proof. intros W D. exact (@wav_without_soundfile W D). Qed.
Print Assumptions C33_wav_without_soundfile.

(** The documentation of [save] says, that a missing library leads to a [ValueError].  If the format is guessed, it is an [ImportError],
    for example for every signal in every flac file, after any history. *)
Theorem C33_missing_library_refuted :
  forall (W D : Type) (soundfile : W -> bool) (behaviour : string -> string -> D -> string -> W -> result unit * W) data path st w st' w' r,
  reachable String.eqb (map (writer_of soundfile behaviour) signal_writers) signal_mapping st ->
  (forall w, soundfile w = false) -> is_extension path ".flac" ->
  save String.eqb (map (writer_of soundfile behaviour) signal_writers) signal_mapping data path None st w = (r, st', w') ->
  r = Err ImportError /\ w' = w.
Proof. intros W D. exact (@flac_import_error W D). Qed.
Print Assumptions C33_missing_library_refuted.
Example C33_missing_library_case :
  (let '(r, _, w) := save String.eqb (map (writer_of (fun _ => false) (fun name f (_ : Z) _ w => (Ok tt, (name, f) :: w))) signal_writers)
                       signal_mapping 0%Z "a.flac" None (State [] []) [] in r = Err ImportError /\ w = [])
  /\ (let '(r, _, w) := save String.eqb (map (writer_of (fun _ => false) (fun name f (_ : Z) _ w => (Ok tt, (name, f) :: w))) signal_writers)
                       signal_mapping 0%Z "a.wav" None (State [] []) [] in r = Ok tt /\ w = [("WaveWriter", "WAV_INT32")]).
Proof. vm_compute. auto. Qed.
