(** Model of CSV files with signals, spectrums and bands filters: the texts of the tables, that are modelled in Tables.v and Bands.v.  The strings of
    Coq consist of characters with a code point below 256; tables with other characters are beyond this model (Csv.v has no such restriction). *)

From Coq Require Import String ZArith QArith List Bool.
From Verif.Model Require Import Py Numpy Signal Spectrum Tables Pcm Terms Filter Bands Csv Json JsonFiles.
Import ListNotations.
Open Scope list_scope.
Open Scope Z_scope.

(** [writer.writerow] for each of the rows *)
Definition csv_text (file : csv) : list Z := write_rows (map (map codes) file).

(** [csv.reader(f)].  The rows are read before they are interpreted, while the code interprets each row, before it reads the next one: if both a row is
    not a row of numbers and a later row cannot be read, the exception is another one. *)
Definition text_csv (nul : bool) (limit : Z) (text : list Z) : result csv :=
  rows <- read_rows nul limit text ;;
  sequence (map (fun row => sequence (map uncodes row)) rows).

(** _signal_writers.py:136-148 and _signal_readers.py:100-123 *)
Definition save_signal_csv (show : Q -> string) (s : signal Q) : result (list Z) :=
  file <- write_signal_csv show s ;; Ok (csv_text file).
Definition load_signal_csv (nul : bool) (limit : Z) (junk : Z -> Z -> Q) (parse : string -> option Q) (text : list Z) : result (signal Q) :=
  file <- text_csv nul limit text ;; read_signal_csv junk parse file.

(** _spectrum_writers.py:100-112 and _spectrum_readers.py:108-132 *)
Definition save_spectrum_csv {A} (show : Q -> string) (show_sample : A -> string) (s : spectrum A Q) : result (list Z) :=
  file <- write_spectrum_csv show show_sample s ;; Ok (csv_text file).
Definition load_spectrum_csv {A} (zero : A) (eqb : A -> A -> bool) (nul : bool) (limit : Z) (junk : Z -> Z -> A) (parse : string -> option Q)
    (parse_sample : string -> option A) (path : string) (text : list Z) : result (spectrum A Q) :=
  file <- text_csv nul limit text ;; read_spectrum_csv zero eqb junk parse parse_sample path file.

(** ** Bands filters *)
Section BandsFiles.
Context {K X : Type}.
Variable A : arithmetic K X.
Variables (show : X -> string) (show_value : K -> string).
Variables (parse : string -> option X) (parse_value : string -> option K).

(** [None] is written as an empty cell. *)
Definition cell_of {T} (f : T -> string) (x : option T) : string := match x with Some x => f x | None => EmptyString end.

(** _filter_writers.py:388-405 *)
Definition save_bands_csv (F : filter K X) : result (list Z) :=
  file <- Bands.write_csv A F ;;
  Ok (csv_text (("frequency"%string :: fst file) :: map (fun r => cell_of show (fst r) :: map (cell_of show_value) (snd r)) (snd file))).

(** [complex(c) if c else None] *)
Definition value_of_cell (c : string) : result (option K) :=
  if String.eqb c EmptyString then Ok None else match parse_value c with Some y => Ok (Some y) | None => Err ValueError end.

(** _filter_readers.py:272-281: the dictionaries, which are changed even if an exception is raised, and the exception *)
Definition process_texts (b : list (dict (X := X) K)) (row : list string) : list (dict (X := X) K) * option exn :=
  let b := b ++ zrepeat [] (zlen row - 1 - zlen b) in
  match row with
  | [] => (b, Some IndexError)
  | f :: cells =>
      if String.eqb f EmptyString then (b, None)
      else
        match parse f with
        | None => (b, Some ValueError)
        | Some x =>
            match sequence (map value_of_cell cells) with
            | Err e => (b, Some e)
            | Ok values => (map2 (fun v d => match v with Some y => dict_set A d x y | None => d end) values b ++ zdrop (zlen values) b, None)
            end
        end
  end.

(** The loop over the rows *)
Fixpoint process_rows (b : list (dict (X := X) K)) (rows : csv) : result (list (dict (X := X) K)) :=
  match rows with
  | [] => Ok b
  | row :: rows => match process_texts b row with (b, None) => process_rows b rows | (_, Some e) => Err e end
  end.

(** _filter_readers.py:248-270.  (In an empty file, [next] raises a [StopIteration], which is not among the exceptions of the model.) *)
Definition read_bands_csv (path : string) (file : csv) : result bands :=
  match file with
  | [] => Err RuntimeError
  | first_row :: others =>
      bl <- (match process_texts [] first_row with
             | (b, Some ValueError) => Ok (b, tl first_row)
             | (_, Some e) => Err e
             | (b, None) => Ok (b, map (Pcm.file_label path) (zseq 1 (zlen first_row - 1)))
             end) ;;
      b <- process_rows (fst bl) others ;;
      mk_bands A b (OneFlag Logarithmic) (OneFlag StairsLin) (snd bl)
  end.
Definition load_bands_csv (nul : bool) (limit : Z) (path : string) (text : list Z) : result bands :=
  file <- text_csv nul limit text ;; read_bands_csv path file.
End BandsFiles.
