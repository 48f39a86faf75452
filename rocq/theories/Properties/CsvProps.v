(** C69: CSV texts and files.

    What is written is a CSV text as RFC 4180 defines it, and it says what the rows are.  The reader reads all such texts, also those with other line breaks
    and with needless quotation marks.  Signals, spectrums and bands filters survive a round trip through the text of a file.  Unlike JSON files (C68),
    truncated CSV files are loaded without an exception. *)

From Coq Require Import String ZArith QArith List Bool.
From Verif.Model Require Import Py Numpy Text Signal Spectrum Tables Terms Filter Bands Csv Json CsvFiles.
From Verif.Model Require Pcm.
From Verif.Proofs Require BandsCrash.
From Verif.Spec Require Import TablesSpec NumeralSpec BandsSpec RealSpec CsvSpec CsvFilesSpec CsvCrashSpec CsvRowsSpec.
From Verif.Proofs Require Import BandsCases CsvText CsvReading CsvFilesFacts CsvBands CsvPlainBands CsvRows CsvCrash SpectrumCrash SpectrumCrashCase CsvExamples CsvResults.
Import ListNotations.
Open Scope list_scope.
Open Scope Z_scope.

(** ** Texts *)

Theorem C69_format : forall rows, strict_text (write_rows rows) rows.
Proof. exact write_rows_text. Qed.
Print Assumptions C69_format.

Theorem C69_unambiguous : forall text rows rows', file_text text rows -> file_text text rows' -> rows = rows'.
Proof. exact unambiguous. Qed.
Print Assumptions C69_unambiguous.

Theorem C69_reader : forall nul limit text rows, file_text text rows -> within limit rows -> readable nul text -> read_rows nul limit text = Ok rows.
Proof. exact reader. Qed.
Print Assumptions C69_reader.
Example C69_reader_case : file_text (codes """a""""b"",c" ++ [13] ++ codes "," ++ [10; 10] ++ codes "d") [[codes "a""b"; codes "c"]; [[]; []]; []; [codes "d"]] /\
  within 131072 [[codes "a""b"; codes "c"]; [[]; []]; []; [codes "d"]] /\ readable false (codes """a""""b"",c" ++ [13] ++ codes "," ++ [10; 10] ++ codes "d").
Proof. exact reader_case. Qed.

Theorem C69_round_trip : forall nul limit rows, within limit rows -> (forall row c, In row rows -> In c row -> readable nul c) ->
  read_rows nul limit (write_rows rows) = Ok rows.
Proof. exact round_trip. Qed.
Print Assumptions C69_round_trip.
Example C69_round_trip_case : let rows := [[]; [[]]; [codes "a,b"; []; codes """"]; [[10; 13]]] in
  within 131072 rows /\ forall row c, In row rows -> In c row -> readable false c.
Proof. exact round_trip_case. Qed.

(** Any other text is read as well, if it is not longer than the longest cell. *)
Theorem C69_any_text : forall nul limit text, readable nul text -> zlen text <= limit -> exists rows, read_rows nul limit text = Ok rows.
Proof. exact any. Qed.
Print Assumptions C69_any_text.
Example C69_any_text_case : readable false (codes "a""b"",""c") /\ zlen (codes "a""b"",""c") <= 131072.
Proof. exact any_case. Qed.

(** In particular, a truncated text is read without an exception. *)
Theorem C69_truncated : forall nul limit text rows p q, file_text text rows -> within limit rows -> text = p ++ q -> readable nul p ->
  exists left, remainder left rows /\ read_rows nul limit p = Ok left.
Proof. exact truncated. Qed.
Print Assumptions C69_truncated.

(** ** Texts, that cannot be read *)

Theorem C69_long_cells : forall nul limit text rows, 0 <= limit -> file_text text rows -> ~ within limit rows -> readable nul text ->
  read_rows nul limit text = Err RuntimeError.
Proof. exact long. Qed.
Print Assumptions C69_long_cells.
Example C69_long_cells_case : file_text (codes "a,b" ++ zrepeat 97 131073) [[codes "a"; 98 :: zrepeat 97 131073]] /\ ~ within 131072 [[codes "a"; 98 :: zrepeat 97 131073]] /\
  readable false (codes "a,b" ++ zrepeat 97 131073).
Proof. exact long_case. Qed.

Theorem C69_nul : forall limit text, In 0 text -> read_rows false limit text = Err RuntimeError.
Proof. exact with_nul. Qed.
Print Assumptions C69_nul.

(** Thus, it is not so, that all rows, that have been written, can be read. *)
Theorem C69_round_trip_refuted : ~ (forall rows, read_rows true 131072 (write_rows rows) = Ok rows) /\ ~ (forall limit rows, within limit rows -> read_rows false limit (write_rows rows) = Ok rows).
Proof. exact not_all_rows. Qed.
Print Assumptions C69_round_trip_refuted.

(** ** Signals *)

Theorem C69_signal : forall nul limit junk show parse s, restores Qeq show parse -> parse "time"%string = None ->
  wf_signal s -> 1 <= count s -> 2 <= Signal.length s -> (0 < sampling_rate s)%Q ->
  (forall file, write_signal_csv show s = Ok file -> cells_fit nul limit file) ->
  exists text t, save_signal_csv show s = Ok text /\ load_signal_csv nul limit junk parse text = Ok t /\ same_signal s t /\ labels t = labels s.
Proof. exact signal_csv_file. Qed.
Print Assumptions C69_signal.

(** If a truncated file can be loaded, the result is either the empty signal or the beginning of the signal, whose last sample might be wrong. *)
Theorem C69_signal_crash : forall nul limit junk show parse s, restores Qeq show parse -> (forall b, starts b "time" -> parse b = None) ->
  wf_signal s -> (0 < sampling_rate s)%Q -> forall text p q t,
  (forall file, write_signal_csv show s = Ok file -> cells_fit nul limit file) ->
  save_signal_csv show s = Ok text -> text = p ++ q -> load_signal_csv nul limit junk parse p = Ok t -> t = default_signal \/ damaged s t.
Proof. exact signal_crash. Qed.
Print Assumptions C69_signal_crash.

Example C69_signal_case : restores Qeq decimal_show decimal_read /\ (forall b, starts b "time" -> decimal_read b = None) /\ decimal_read "time" = None /\
  wf_signal csv_signal /\ 1 <= count csv_signal /\ 2 <= Signal.length csv_signal /\ (0 < sampling_rate csv_signal)%Q /\
  forall file, write_signal_csv decimal_show csv_signal = Ok file -> cells_fit false csv_limit file.
Proof. exact (conj decimal_restored (conj decimal_time (conj eq_refl csv_signal_fine))). Qed.

(** It is not so, that a file, whose end is missing, is refused: after the last digit of the last sample has been lost, a signal of the same size with
    another sample is loaded; and the beginning of the first row is loaded as the empty signal. *)
Theorem C69_signal_crash_refuted : restores Qeq decimal_show decimal_read /\
  (exists p q t, save_signal_csv decimal_show csv_signal = Ok (p ++ q) /\ q <> [] /\ load_signal_csv false csv_limit (fun _ _ => 0%Q) decimal_read p = Ok t /\
     Signal.length t = Signal.length csv_signal /\ count t = count csv_signal /\
     exists i k x y, el (channels csv_signal) i k = Some x /\ el (channels t) i k = Some y /\ ~ (y == x)%Q) /\
  exists p q, save_signal_csv decimal_show csv_signal = Ok (p ++ q) /\ load_signal_csv false csv_limit (fun _ _ => 0%Q) decimal_read p = Ok default_signal.
Proof. exact crash_undetected. Qed.
Print Assumptions C69_signal_crash_refuted.

(** ** Spectrums and bands filters *)

Theorem C69_spectrum : forall A (zero : A) eqb same nul limit junk path (show : Q -> string) (show_sample : A -> string) parse parse_sample (s : spectrum A Q),
  restores Qeq show parse -> restores same show_sample parse_sample -> parse "frequency"%string = None ->
  wf_spectrum s -> 1 <= sp_count s -> 2 <= sp_length s -> (0 < resolution s)%Q ->
  (forall file, write_spectrum_csv show show_sample s = Ok file -> cells_fit nul limit file) ->
  exists text t, save_spectrum_csv show show_sample s = Ok text /\ load_spectrum_csv zero eqb nul limit junk parse parse_sample path text = Ok t /\
    same_spectrum same s t /\ sp_labels t = sp_labels s.
Proof. exact @spectrum_csv_file. Qed.
Print Assumptions C69_spectrum.
Example C69_spectrum_case : restores Qeq show_number read_number /\ restores same_complex show_complex read_complex /\ read_number "frequency" = None /\
  wf_spectrum csv_spectrum /\ 1 <= sp_count csv_spectrum /\ 2 <= sp_length csv_spectrum /\ (0 < resolution csv_spectrum)%Q /\
  forall file, write_spectrum_csv show_number show_complex csv_spectrum = Ok file -> cells_fit false csv_limit file.
Proof. exact (conj numbers_restored (conj complex_restored (conj eq_refl csv_spectrum_fine))). Qed.

(** If a truncated file can be loaded, the result is either the empty spectrum or the beginning of the spectrum, whose last sample might be wrong. *)
Theorem C69_spectrum_crash : forall A (zero : A) eqb same nul limit junk path (show : Q -> string) (show_sample : A -> string) parse parse_sample (s : spectrum A Q),
  restores Qeq show parse -> restores same show_sample parse_sample -> (forall b, starts b "frequency" -> parse b = None) ->
  wf_spectrum s -> (0 < resolution s)%Q -> forall text p q t,
  (forall file, write_spectrum_csv show show_sample s = Ok file -> cells_fit nul limit file) ->
  save_spectrum_csv show show_sample s = Ok text -> text = p ++ q -> load_spectrum_csv zero eqb nul limit junk parse parse_sample path p = Ok t ->
  t = default_spectrum \/ damaged_spectrum same s t.
Proof. exact @spectrum_crash. Qed.
Print Assumptions C69_spectrum_crash.

(** A file, that has lost its last row, is loaded as well; the resolution of a spectrum with only one row is zero. *)
Example C69_spectrum_crash_case : restores Qeq show_number read_number /\ restores same_complex show_complex read_complex /\
  (forall b, starts b "frequency" -> read_number b = None) /\ wf_spectrum csv_spectrum /\ (0 < resolution csv_spectrum)%Q /\
  (forall file, write_spectrum_csv show_number show_complex csv_spectrum = Ok file -> cells_fit false csv_limit file) /\
  exists p q t, save_spectrum_csv show_number show_complex csv_spectrum = Ok (p ++ q) /\ q <> [] /\
    load_spectrum_csv (0, 0)%Q (fun _ _ => true) false csv_limit (fun _ _ => (0, 0)%Q) read_number read_complex "a.csv" p = Ok t /\
    sp_length t = 1 /\ (resolution t == 0)%Q.
Proof. exact spectrum_crash_case. Qed.

Theorem C69_bands : forall K X (A : arithmetic K X), ordered A -> forall (show : X -> string) (show_value : K -> string) parse parse_value nul limit path F,
  parse "frequency"%string = None -> bands_filter A F -> zlen (f_labels F) = f_count F -> 0 <= limit ->
  frequencies F (stored nul limit show parse) -> values F (stored nul limit show_value parse_value) ->
  fits nul limit "frequency" -> Forall (fits nul limit) (f_labels F) ->
  exists text B, save_bands_csv A show show_value F = Ok text /\ load_bands_csv A parse parse_value nul limit path text = Ok B /\
    restored F B (fun _ _ => Logarithmic) (fun _ _ => StairsLin) (fun _ l => l).
Proof. exact @bands_csv_file. Qed.
Print Assumptions C69_bands.
Example C69_bands_case : forall power modulo, let A := real_arithmetic power modulo in
  ordered A /\ bands_filter A demo_stored /\ zlen (f_labels demo_stored) = f_count demo_stored /\
  read_some "frequency" = None /\ frequencies demo_stored (stored false csv_limit show_some read_some) /\
  values demo_stored (stored false csv_limit show_some read_some) /\ fits false csv_limit "frequency" /\ Forall (fits false csv_limit) (f_labels demo_stored).
Proof. exact bands_case. Qed.

(** Without the first row, the channels are labelled with the name of the file and their numbers. *)
Theorem C69_bands_without_labels : forall K X (A : arithmetic K X), ordered A -> forall (show : X -> string) (show_value : K -> string) parse parse_value nul limit path F,
  bands_filter A F -> zlen (f_labels F) = f_count F -> 0 < f_count F -> 0 <= limit ->
  frequencies F (stored nul limit show parse) -> values F (stored nul limit show_value parse_value) ->
  exists text B, save_bands_csv A show show_value F = Ok (csv_text [("frequency"%string :: f_labels F)] ++ text) /\
    load_bands_csv A parse parse_value nul limit path text = Ok B /\
    restored F B (fun _ _ => Logarithmic) (fun _ _ => StairsLin) (fun c _ => (Pcm.basename path ++ " " ++ py_str (c + 1))%string).
Proof. exact @plain_bands. Qed.
Print Assumptions C69_bands_without_labels.
Example C69_bands_without_labels_case : forall power modulo, let A := real_arithmetic power modulo in
  ordered A /\ bands_filter A demo_stored /\ zlen (f_labels demo_stored) = f_count demo_stored /\ 0 < f_count demo_stored /\
  frequencies demo_stored (stored false csv_limit show_some read_some) /\ values demo_stored (stored false csv_limit show_some read_some).
Proof.
  intros power modulo A. destruct (bands_case power modulo) as (H1 & H2 & H3 & _ & H4 & H5 & _).
  exact (conj H1 (conj H2 (conj H3 (conj eq_refl (conj H4 H5))))).
Qed.

(** If a truncated file can be loaded, its channels have the first supporting points of the filter, or there are no points at all and maybe fewer channels. *)
Theorem C69_bands_crash : forall K X (A : arithmetic K X), ordered A -> forall (show : X -> string) (show_value : K -> string) parse parse_value nul limit path F text p q B,
  (forall b, starts b "frequency" -> parse b = None) -> bands_filter A F -> zlen (f_labels F) = f_count F -> 0 <= limit ->
  frequencies F (stored nul limit show parse) -> values F (stored nul limit show_value parse_value) ->
  fits nul limit "frequency" -> Forall (fits nul limit) (f_labels F) ->
  save_bands_csv A show show_value F = Ok text -> text = p ++ q -> load_bands_csv A parse parse_value nul limit path p = Ok B -> incomplete A F B.
Proof. exact @BandsCrash.bands_crash. Qed.
Print Assumptions C69_bands_crash.
Example C69_bands_crash_case : forall power modulo, let A := real_arithmetic power modulo in
  ordered A /\ (forall b, starts b "frequency" -> read_some b = None) /\ bands_filter A demo_stored /\ zlen (f_labels demo_stored) = f_count demo_stored /\
  frequencies demo_stored (stored false csv_limit show_some read_some) /\ values demo_stored (stored false csv_limit show_some read_some) /\
  fits false csv_limit "frequency" /\ Forall (fits false csv_limit) (f_labels demo_stored) /\
  exists p q B, save_bands_csv A show_some show_some demo_stored = Ok (p ++ q) /\ q <> [] /\ load_bands_csv A read_some read_some false csv_limit "a.csv" p = Ok B.
Proof.
  intros power modulo A. destruct (bands_case power modulo) as (H1 & H2 & H3 & Hn & H4 & H5 & H6 & H7).
  assert (Hs : forall b, starts b "frequency" -> read_some b = None) by (intros b [q E]; destruct b; [reflexivity | injection E as <- _; reflexivity]).
  destruct (BandsCrash.bands_header A H1 show_some show_some read_some read_some false csv_limit "a.csv" demo_stored Hn H2 H3 eq_refl ltac:(discriminate) H6 H7)
    as (p & q & B & E1 & E2 & E3 & _).
  exact (conj H1 (conj Hs (conj H2 (conj H3 (conj H4 (conj H5 (conj H6 (conj H7 (ex_intro _ p (ex_intro _ q (ex_intro _ B (conj E1 (conj E2 E3))))))))))))).
Qed.

(** The first row alone is loaded as a filter, whose channels have no supporting points. *)
Theorem C69_bands_crash_refuted : forall K X (A : arithmetic K X), ordered A -> forall (show : X -> string) (show_value : K -> string) parse parse_value nul limit path F,
  parse "frequency"%string = None -> bands_filter A F -> zlen (f_labels F) = f_count F -> 0 < f_count F -> 0 <= limit ->
  fits nul limit "frequency" -> Forall (fits nul limit) (f_labels F) ->
  exists p q B, save_bands_csv A show show_value F = Ok (p ++ q) /\ q <> [] /\ load_bands_csv A parse parse_value nul limit path p = Ok B /\
    f_count (b_filter B) = f_count F /\ f_labels (b_filter B) = f_labels F /\ forall t f y, In t (transfer_functions (b_filter B)) -> ~ point t f y.
Proof. exact @BandsCrash.bands_header. Qed.
Print Assumptions C69_bands_crash_refuted.
Example C69_bands_crash_refuted_case : forall power modulo, let A := real_arithmetic power modulo in
  ordered A /\ read_some "frequency" = None /\ bands_filter A demo_stored /\ zlen (f_labels demo_stored) = f_count demo_stored /\ 0 < f_count demo_stored /\
  fits false csv_limit "frequency" /\ Forall (fits false csv_limit) (f_labels demo_stored).
Proof.
  intros power modulo A. destruct (bands_case power modulo) as (H1 & H2 & H3 & Hn & _ & _ & H6 & H7).
  exact (conj H1 (conj Hn (conj H2 (conj H3 (conj eq_refl (conj H6 H7)))))).
Qed.

(** Whatever is in a file: it is loaded as a bands filter, if its first row is not blank and if in each other row, the frequency is missing, or the
    frequency is a number and the other cells are numbers or empty.  Otherwise the first wrong row causes an exception, nothing is left out silently. *)
Theorem C69_bands_rows : forall K X (A : arithmetic K X), ordered A -> forall parse parse_value nul limit path text first rows,
  text_csv nul limit text = Ok (first :: rows) ->
  (first <> [] /\ Forall (readable_row parse parse_value) rows -> exists B, load_bands_csv A parse parse_value nul limit path text = Ok B) /\
  (first = [] -> load_bands_csv A parse parse_value nul limit path text = Err IndexError) /\
  (forall before row after, first <> [] -> rows = before ++ row :: after -> Forall (readable_row parse parse_value) before -> ~ readable_row parse parse_value row ->
     load_bands_csv A parse parse_value nul limit path text = Err (match row with [] => IndexError | _ => ValueError end)).
Proof. exact @bands_rows. Qed.
Print Assumptions C69_bands_rows.
Example C69_bands_rows_case :
  let first := ["frequency"; "a"; "b"]%string in let row := ["100.1"; ""; "20.1"]%string in let wrong := ["200.1"; "x"; "30.1"]%string in
  text_csv false csv_limit (csv_text [first; row; wrong]) = Ok [first; row; wrong] /\
  readable_row decimal_read decimal_read row /\ ~ readable_row decimal_read decimal_read wrong.
Proof.
  cbv zeta. split; [vm_compute; reflexivity |]. split.
  - exists "100.1"%string, [""; "20.1"]%string. split; [reflexivity |]. right. split; [vm_compute; discriminate |].
    intros c [<- | [<- | []]]; [now left | right; vm_compute; discriminate].
  - intros (f & cells & E & H). injection E as <- <-. destruct H as [H | [_ H]]; [discriminate |]. destruct (H "x"%string (or_introl eq_refl)) as [N | N]; [discriminate |].
    apply N. vm_compute. reflexivity.
Qed.
