(** An example of a truncated CSV file with a spectrum. *)

From Coq Require Import String ZArith QArith List Bool.
From Verif.Model Require Import Py Numpy Spectrum Tables Csv Json CsvFiles.
From Verif.Spec Require Import TablesSpec NumeralSpec CsvFilesSpec.
From Verif.Proofs Require Import CsvExamples.
Import ListNotations.
Open Scope list_scope.
Open Scope Z_scope.

Definition spectrum_text : list Z := match save_spectrum_csv show_number show_complex csv_spectrum with Ok t => t | Err _ => [] end.
(** The row, that begins with the 35th character, is missing. *)
Definition short_spectrum : list Z := ztake 34 spectrum_text.

Lemma spectrum_crash_case : restores Qeq show_number read_number /\ restores same_complex show_complex read_complex /\
  (forall b, starts b "frequency" -> read_number b = None) /\ wf_spectrum csv_spectrum /\ (0 < resolution csv_spectrum)%Q /\
  (forall file, write_spectrum_csv show_number show_complex csv_spectrum = Ok file -> cells_fit false csv_limit file) /\
  exists p q t, save_spectrum_csv show_number show_complex csv_spectrum = Ok (p ++ q) /\ q <> [] /\
    load_spectrum_csv (0, 0)%Q (fun _ _ => true) false csv_limit (fun _ _ => (0, 0)%Q) read_number read_complex "a.csv" p = Ok t /\
    sp_length t = 1 /\ (resolution t == 0)%Q.
Proof.
  destruct csv_spectrum_fine as (W & _ & _ & F & C). split; [exact numbers_restored|]. split; [exact complex_restored|]. split.
  { intros b [q E]. destruct b; [reflexivity|]. injection E as <- _. reflexivity. }
  split; [exact W|]. split; [exact F|]. split; [exact C|]. exists short_spectrum, (zdrop 34 spectrum_text). eexists.
  split; [vm_compute; reflexivity|]. split; [vm_compute; discriminate|]. split; [vm_compute; reflexivity|]. split; vm_compute; reflexivity.
Qed.
