(** CSV files with signals, spectrums and bands filters. *)

From Coq Require Import String ZArith QArith List Bool Lia ZifyBool Lqa.
From Verif.Model Require Import Py Numpy Signal Spectrum Tables Pcm Terms Filter Bands Csv Json JsonFiles CsvFiles.
From Verif.Spec Require Import TablesSpec CsvSpec CsvFilesSpec BandsSpec.
From Verif.Proofs Require Import PyFacts NumpyFacts TableFacts TableResults TableSpectrum JsonFilesFacts CsvText CsvReading.
From Verif.Proofs Require BandsFiles.
Import ListNotations.
Open Scope list_scope.
Open Scope Z_scope.

(** ** Cells *)

Lemma uncoded_row (row : list string) : sequence (map uncodes (map codes row)) = Ok row.
Proof. induction row as [|c row IH]; [reflexivity|]. cbn [map sequence]. rewrite uncodes_codes. cbn [bind]. now rewrite IH. Qed.

Lemma uncoded (file : csv) : sequence (map (fun row => sequence (map uncodes row)) (map (map codes) file)) = Ok file.
Proof. induction file as [|row file IH]; [reflexivity|]. cbn [map sequence]. rewrite uncoded_row. cbn [bind]. now rewrite IH. Qed.

Section Texts.
Variable nul : bool.
Variable limit : Z.

Notation fitting := (cells_fit nul limit).
Lemma fitting_in file row c : fitting file -> In row file -> In c row -> fits nul limit c.
Proof. unfold cells_fit. rewrite Forall_forall. intros F I. apply F in I. rewrite Forall_forall in I. auto. Qed.

Lemma fitting_within file : fitting file -> within limit (map (map codes) file).
Proof. intros F cs c I J. apply in_map_iff in I as (row & <- & I). apply in_map_iff in J as (s & <- & J). now apply (fitting_in file row s). Qed.

Lemma in_join x cs : In x (join cs) -> x = 44 \/ exists c, In c cs /\ In x c.
Proof.
  induction cs as [|c cs IH]; [easy|]. destruct cs as [|d cs].
  - intros I. right. exists c. split; [now left|exact I].
  - intros I. change (In x (c ++ comma :: join (d :: cs))) in I. apply in_app_iff in I as [I|[I|I]]; [right; exists c; split; [now left|auto]|now left|].
    destruct (IH I) as [H|(e & J & H)]; [now left|right; exists e; split; [now right|auto]].
Qed.

Lemma in_write_cell x c : In x (write_cell c) -> x = 34 \/ In x c.
Proof.
  unfold write_cell. destruct (existsb special c); [|now right]. intros [I|I]; [left; now symmetry|]. apply in_app_iff in I as [I|[I|[]]]; [|left; now symmetry].
  apply in_flat_map in I as (y & J & I). unfold escaped, quote in I. destruct (Z.eqb_spec y 34) as [-> |N].
  - left. destruct I as [<-|[<-|[]]]; reflexivity.
  - destruct I as [<-|[]]. now right.
Qed.

Lemma in_write_rows x rows : In x (write_rows rows) -> In x [34; 44; 13; 10] \/ exists cs c, In cs rows /\ In c cs /\ In x c.
Proof.
  intros I. apply in_flat_map in I as (cs & J & I). unfold write_row in I. apply in_app_iff in I as [I|I]; [|left; right; right; exact I].
  assert (H : In x (join (map write_cell cs)) \/ x = 34).
  { destruct cs as [|c cs]; [now left|]. destruct (join (map write_cell (c :: cs))); [|now left]. right. destruct I as [<-|[<-|[]]]; reflexivity. }
  destruct H as [H| ->]; [|left; now left]. apply in_join in H as [-> |(t & K & H)]; [left; right; now left|]. apply in_map_iff in K as (c & <- & K).
  apply in_write_cell in H as [-> |H]; [left; now left|]. right. exists cs, c. auto.
Qed.

Lemma fitting_readable file : fitting file -> readable nul (csv_text file).
Proof.
  intros F. destruct (Bool.bool_dec nul true) as [N|N]; [now left|]. right. intros I. apply in_write_rows in I as [I|(cs & c & I & J & H)].
  - destruct I as [I|[I|[I|[I|[]]]]]; discriminate.
  - apply in_map_iff in I as (row & <- & I). apply in_map_iff in J as (s & <- & J). destruct (fitting_in file row s F I J) as [_ [R|R]]; [contradiction|auto].
Qed.

Lemma text_csv_text file : fitting file -> text_csv nul limit (csv_text file) = Ok file.
Proof.
  intros F. unfold text_csv. rewrite read_run, (read_text _ _ _ (map (map codes) file)); [apply uncoded| | |].
  - apply strict_file, write_rows_text.
  - now apply fitting_within.
  - now apply fitting_readable.
Qed.
End Texts.

(** ** Round trips *)

Theorem signal_csv_file nul limit junk show parse s : restores Qeq show parse -> parse "time"%string = None ->
  wf_signal s -> 1 <= count s -> 2 <= Signal.length s -> (0 < sampling_rate s)%Q ->
  (forall file, write_signal_csv show s = Ok file -> cells_fit nul limit file) ->
  exists text t, save_signal_csv show s = Ok text /\ load_signal_csv nul limit junk parse text = Ok t /\ same_signal s t /\ labels t = labels s.
Proof.
  intros R P W C L F S. destruct (csv_round_trip junk show parse s R P W C L F) as (file & t & E & Et & H).
  exists (csv_text file), t. unfold save_signal_csv, load_signal_csv. rewrite E. split; [reflexivity|]. rewrite text_csv_text; auto.
Qed.

Theorem spectrum_csv_file {A} (zero : A) eqb same nul limit junk path (show : Q -> string) (show_sample : A -> string) parse parse_sample (s : spectrum A Q) :
  restores Qeq show parse -> restores same show_sample parse_sample -> parse "frequency"%string = None ->
  wf_spectrum s -> 1 <= sp_count s -> 2 <= sp_length s -> (0 < resolution s)%Q ->
  (forall file, write_spectrum_csv show show_sample s = Ok file -> cells_fit nul limit file) ->
  exists text t, save_spectrum_csv show show_sample s = Ok text /\ load_spectrum_csv zero eqb nul limit junk parse parse_sample path text = Ok t /\
    same_spectrum same s t /\ sp_labels t = sp_labels s.
Proof.
  intros R R2 P W C L F S.
  destruct (spectrum_csv_round_trip zero eqb same parse parse_sample show show_sample junk path s R R2 P W C L F) as (file & t & E & Et & H).
  exists (csv_text file), t. unfold save_spectrum_csv, load_spectrum_csv. rewrite E. split; [reflexivity|]. rewrite text_csv_text; auto.
Qed.
