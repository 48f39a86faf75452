(** C31 and C52: signals and spectrums in tables, arrays and dictionaries.

    [show] and [parse] are the conversions between numbers and texts.  The theorems hold for all conversions, which restore the numbers; an example
    of such conversions is in Spec/NumeralSpec.v.  [junk] is the contents of uninitialised memory. *)

From Coq Require Import String ZArith QArith Qabs List Bool Lia Permutation Sorted.
From Verif.Model Require Import Py Numpy Functions Signal Spectrum Tables Pcm.
From Verif.Spec Require Import TablesSpec NumeralSpec.
From Verif.Proofs Require Import TableResults TableRounding TableSpectrum.
Import ListNotations.
Open Scope list_scope.
Open Scope Z_scope.

(** A signal of two channels and three samples, that begins at a negative time *)
Definition two_channels : signal Q :=
  Signal (Arr [[1 # 2; - (1 # 4); 0]; [- (1); 1 # 3; 99 # 100]]%Q 3) (441001 # 10)%Q (-7) ["left"; "right"]%string.
Lemma two_channels_wf : wf_signal two_channels.
Proof. split; [split; [cbn; lia | repeat constructor] | reflexivity]. Qed.
Definition five : Z -> Z -> Q := fun _ _ => 5%Q.

(** A CSV file contains the labels, the times, which are the numbers of the samples and the offset, divided by the sampling rate, and the samples. *)
Theorem C31_csv_contents : forall show s, wf_signal s -> (0 < sampling_rate s)%Q ->
  exists file, write_signal_csv show s = Ok file
    /\ written_table show show "time" (labels s) (fun k => inject_Z (offset s + k) / sampling_rate s)%Q (channels s) file.
Proof. exact csv_contents. Qed.
Print Assumptions C31_csv_contents.
Example C31_csv_contents_case : wf_signal two_channels /\ (0 < sampling_rate two_channels)%Q.
Proof. split; [apply two_channels_wf | reflexivity]. Qed.

(** A signal, that is written to a CSV file and read again, is the same. *)
Theorem C31_csv : forall junk show parse s, restores Qeq show parse -> parse "time"%string = None ->
  wf_signal s -> 1 <= count s -> 2 <= Signal.length s -> (0 < sampling_rate s)%Q ->
  exists file t, write_signal_csv show s = Ok file /\ read_signal_csv junk parse file = Ok t /\ same_signal s t /\ labels t = labels s.
Proof. exact csv_round_trip. Qed.
Print Assumptions C31_csv.
Example C31_csv_case : restores Qeq show_number read_number /\ read_number "time"%string = None /\ wf_signal two_channels
  /\ 1 <= count two_channels /\ 2 <= Signal.length two_channels.
Proof. split; [apply numbers_restored | split; [reflexivity | split; [apply two_channels_wf | split; vm_compute; discriminate]]]. Qed.

(** An npy file contains the times in the first row and the channels in the others. *)
Theorem C31_npy_contents : forall junk s, wf_signal s -> (0 < sampling_rate s)%Q ->
  exists a, write_signal_npy junk s = Ok a /\ wf a /\ nrows a = count s + 1 /\ cols a = Signal.length s
    /\ (forall k, 0 <= k < Signal.length s -> exists t, el a 0 k = Some t /\ (t == inject_Z (offset s + k) / sampling_rate s)%Q)
    /\ (forall i k, 0 <= i < count s -> el a (i + 1) k = el (channels s) i k).
Proof. exact npy_contents. Qed.
Print Assumptions C31_npy_contents.
Example C31_npy_contents_case : wf_signal two_channels /\ (0 < sampling_rate two_channels)%Q.
Proof. split; [apply two_channels_wf | reflexivity]. Qed.

(** A signal, that is written to an npy file and read again, is the same except for its labels, which are the name of the file and a number. *)
Theorem C31_npy : forall junk junk' path s, wf_signal s -> 1 <= count s -> 2 <= Signal.length s -> (0 < sampling_rate s)%Q ->
  exists a t, write_signal_npy junk s = Ok a /\ read_signal_npy junk' path a = Ok t /\ same_signal s t
    /\ zlen (labels t) = count s /\ forall i, 0 <= i < count s -> zth (labels t) i = Some (file_label path (i + 1)).
Proof. exact npy_round_trip. Qed.
Print Assumptions C31_npy.
Example C31_npy_case : 1 <= count two_channels /\ 2 <= Signal.length two_channels /\ file_label "/home/me/data.npy" 2 = "data.npy 2"%string.
Proof. split; [vm_compute; discriminate | split; [vm_compute; discriminate | reflexivity]]. Qed.

(** A signal is restored from its dictionary. *)
Theorem C31_dictionary : forall junk s, wf_signal s -> 1 <= count s -> signal_from_dict junk (signal_as_dict s) = Ok s.
Proof. exact signal_dictionary. Qed.
Print Assumptions C31_dictionary.
Example C31_dictionary_case : wf_signal two_channels /\ 1 <= count two_channels.
Proof. split; [apply two_channels_wf | vm_compute; discriminate]. Qed.

(** The rows of a CSV file with different times can have any order, and a header is not required. *)
Theorem C31_read : forall junk parse name header file table sorted c first last,
  Forall2 (is_row parse parse) file table -> uniform c table -> 1 <= c -> 2 <= zlen table -> arrangement table sorted ->
  zth (map fst sorted) 0 = Some first -> zth (map fst sorted) (zlen table - 1) = Some last ->
  (parse name = None -> exists s, read_signal_csv junk parse ((name :: header) :: file) = Ok s /\ describes_signal c header sorted first last s)
  /\ (exists s, read_signal_csv junk parse file = Ok s /\ describes_signal c [] sorted first last s).
Proof. intros; split; [intros; eapply read_with_header; eauto | eapply read_without_header; eauto]. Qed.
Print Assumptions C31_read.
Definition shuffled : list (Q * list Q) := [(3 # 2, [10; 20]); (1 # 2, [11; 21]); (1, [12; 22])]%Q.
Definition in_order : list (Q * list Q) := [(1 # 2, [11; 21]); (1, [12; 22]); (3 # 2, [10; 20])]%Q.
Definition shuffled_file : csv := map (fun r => show_number (fst r) :: map show_number (snd r)) shuffled.
Lemma shuffled_arrangement : arrangement shuffled in_order.
Proof.
  split.
  - apply Permutation_cons_app with (l1 := [_; _]) (l2 := []). reflexivity.
  - cbn. repeat constructor.
Qed.
Example C31_read_case : Forall2 (is_row read_number read_number) shuffled_file shuffled /\ uniform 2 shuffled /\ arrangement shuffled in_order.
Proof. split; [repeat constructor | split; [repeat constructor | apply shuffled_arrangement]]. Qed.
Example C31_read_result : exists s, read_signal_csv five read_number shuffled_file = Ok s
  /\ channels s = Arr [[11; 12; 10]; [21; 22; 20]]%Q 3 /\ (sampling_rate s == 2)%Q /\ offset s = 1 /\ labels s = [""; ""]%string.
Proof. eexists. vm_compute. auto. Qed.

(** If the first and the last time are slightly wrong, because numbers have been rounded, the offset is still right, and the error of the sampling rate is bounded. *)
Theorem C31_rounding : forall (f d : Q) (o : Z) c given sorted first last s, describes_signal c given sorted first last s -> 2 <= zlen sorted -> (0 < f)%Q -> (0 <= d)%Q ->
  (Qabs (first - inject_Z o / f) <= d / f)%Q -> (Qabs (last - inject_Z (o + zlen sorted - 1) / f) <= d / f)%Q ->
  (2 * d * inject_Z (zlen sorted + 2 * Z.abs o) < inject_Z (zlen sorted - 1))%Q ->
  offset s = o /\ (Qabs (sampling_rate s - f) <= f * (2 * d / (inject_Z (zlen sorted - 1) - 2 * d)))%Q.
Proof. exact rounded_times. Qed.
Print Assumptions C31_rounding.
Example C31_rounding_case : exists s, read_signal_csv five read_number
    [[show_number (-(5001 # 1000)); show_number 1]; [show_number (-(4)); show_number 2]; [show_number (-(2999 # 1000)); show_number 3]]%Q = Ok s
  /\ offset s = -5 /\ (2 * (1 # 1000) * inject_Z (3 + 2 * Z.abs (-5)) < inject_Z (3 - 1))%Q.
Proof. eexists. split; [vm_compute; reflexivity |]. split; reflexivity. Qed.

(** The round trip fails for signals with only one sample: the sampling rate and the offset are lost. *)
Definition one_sample : signal Q := Signal (Arr [[1 # 2]%Q] 1) 48000%Q 3 ["one"%string].
Theorem C31_one_sample_refuted : ~ forall junk show parse s, restores Qeq show parse -> parse "time"%string = None ->
  wf_signal s -> 1 <= count s -> Signal.length s = 1 -> (0 < sampling_rate s)%Q ->
  exists file t, write_signal_csv show s = Ok file /\ read_signal_csv junk parse file = Ok t /\ same_signal s t /\ labels t = labels s.
Proof.
  intros H. destruct (H five show_number read_number one_sample numbers_restored) as (file & t & E & R & (_ & _ & O) & _); try reflexivity.
  - split; [split; [cbn; lia | repeat constructor] | reflexivity].
  - vm_compute in E. injection E as <-. vm_compute in R. injection R as <-. discriminate.
Qed.
Print Assumptions C31_one_sample_refuted.

(** ... and for empty signals: all channels but one are lost. *)
Definition no_sample : signal Q := Signal (Arr [[]; []] 0) 44100%Q 3 ["left"; "right"]%string.
Theorem C31_empty_refuted : ~ forall junk show parse s, restores Qeq show parse -> parse "time"%string = None ->
  wf_signal s -> 1 <= count s -> Signal.length s = 0 -> (0 < sampling_rate s)%Q ->
  exists file t, write_signal_csv show s = Ok file /\ read_signal_csv junk parse file = Ok t /\ same_signal s t /\ labels t = labels s.
Proof.
  intros H. destruct (H five show_number read_number no_sample numbers_restored) as (file & t & E & R & ((_ & N & _) & _) & _); try reflexivity.
  - split; [split; [cbn; lia | repeat constructor] | reflexivity].
  - vm_compute. discriminate.
  - vm_compute in E. injection E as <-. vm_compute in R. injection R as <-. discriminate.
Qed.
Print Assumptions C31_empty_refuted.

(** ** Frequency tables *)

Definition complex_spectrum : spectrum (Q * Q) Q :=
  Spectrum (Arr [[(1, 2); (3, 4); (0, 1)]; [(1 # 2, 0); (0, - (1)); (7, 7)]]%Q 3) (5 # 2)%Q ["a"; "b"]%string.
Lemma complex_spectrum_wf : wf_spectrum complex_spectrum.
Proof. split; [split; [cbn; lia | repeat constructor] | reflexivity]. Qed.

Theorem C52_csv_contents : forall {A} show (show_sample : A -> string) (s : spectrum A Q), wf_spectrum s ->
  exists file, write_spectrum_csv show show_sample s = Ok file
    /\ written_table show show_sample "frequency" (sp_labels s) (fun k => inject_Z k * resolution s)%Q (sp_channels s) file.
Proof. intros A show show_sample s. exact (spectrum_csv_contents show show_sample s). Qed.
Print Assumptions C52_csv_contents.
Example C52_csv_contents_case : wf_spectrum complex_spectrum.
Proof. exact complex_spectrum_wf. Qed.

Theorem C52_csv : forall {A} (zero : A) eqb same parse parse_sample show show_sample junk path (s : spectrum A Q),
  restores Qeq show parse -> restores same show_sample parse_sample -> parse "frequency"%string = None ->
  wf_spectrum s -> 1 <= sp_count s -> 2 <= sp_length s -> (0 < resolution s)%Q ->
  exists file t, write_spectrum_csv show show_sample s = Ok file /\ read_spectrum_csv zero eqb junk parse parse_sample path file = Ok t
    /\ same_spectrum same s t /\ sp_labels t = sp_labels s.
Proof. intros A zero eqb same parse parse_sample show show_sample. exact (spectrum_csv_round_trip zero eqb same parse parse_sample show show_sample). Qed.
Print Assumptions C52_csv.
Example C52_csv_case : restores Qeq show_number read_number /\ restores same_complex show_complex read_complex /\ read_number "frequency"%string = None
  /\ wf_spectrum complex_spectrum /\ 1 <= sp_count complex_spectrum /\ 2 <= sp_length complex_spectrum.
Proof.
  split; [apply numbers_restored | split; [apply complex_restored | split; [reflexivity | split; [apply complex_spectrum_wf | split; vm_compute; discriminate]]]].
Qed.

Theorem C52_npy_contents : forall {A} (complex : Q -> A) junk (s : spectrum A Q), wf_spectrum s ->
  exists a, write_spectrum_npy junk complex s = Ok a /\ wf a /\ nrows a = sp_count s + 1 /\ cols a = sp_length s
    /\ (forall k, 0 <= k < sp_length s -> exists t, el a 0 k = Some (complex t) /\ (t == inject_Z k * resolution s)%Q)
    /\ (forall i k, 0 <= i < sp_count s -> el a (i + 1) k = el (sp_channels s) i k).
Proof. intros A complex. exact (spectrum_npy_contents complex). Qed.
Print Assumptions C52_npy_contents.
Example C52_npy_contents_case : wf_spectrum complex_spectrum.
Proof. exact complex_spectrum_wf. Qed.

Theorem C52_npy : forall {A} (zero : A) eqb (same : A -> A -> Prop) complex real junk junk' path (s : spectrum A Q),
  (forall q, real (complex q) == q)%Q -> (forall x, same x x) ->
  wf_spectrum s -> 1 <= sp_count s -> 2 <= sp_length s -> (0 < resolution s)%Q ->
  exists a t, write_spectrum_npy junk complex s = Ok a /\ read_spectrum_npy zero eqb junk' real path a = Ok t /\ same_spectrum same s t
    /\ zlen (sp_labels t) = sp_count s /\ forall i, 0 <= i < sp_count s -> zth (sp_labels t) i = Some (file_label path (i + 1)).
Proof. intros A zero eqb same. exact (spectrum_npy_round_trip zero eqb same). Qed.
Print Assumptions C52_npy.
Example C52_npy_case : (forall q, fst (q, 0) == q)%Q /\ 1 <= sp_count complex_spectrum /\ 2 <= sp_length complex_spectrum.
Proof. split; [reflexivity | split; vm_compute; discriminate]. Qed.

(** A spectrum is restored from the dictionary, that is stored in a JSON file. *)
Theorem C52_json : forall junk (s : spectrum (Q * Q) Q), wf_spectrum s -> 1 <= sp_count s -> 1 <= sp_length s ->
  exists t, read_spectrum_json junk (spectrum_as_dict s) = Ok t /\ same_spectrum same_complex s t /\ sp_labels t = sp_labels s.
Proof. exact spectrum_dictionary. Qed.
Print Assumptions C52_json.
Example C52_json_case : wf_spectrum complex_spectrum /\ 1 <= sp_count complex_spectrum /\ 1 <= sp_length complex_spectrum.
Proof. split; [apply complex_spectrum_wf | split; vm_compute; discriminate]. Qed.

(** An empty spectrum loses all channels but one in a JSON file. *)
Definition no_bin : spectrum (Q * Q) Q := Spectrum (Arr [[]; []] 0) 2%Q ["a"; "b"]%string.
Theorem C52_json_empty_refuted : ~ forall junk (s : spectrum (Q * Q) Q), wf_spectrum s -> 1 <= sp_count s -> sp_length s = 0 ->
  exists t, read_spectrum_json junk (spectrum_as_dict s) = Ok t /\ same_spectrum same_complex s t /\ sp_labels t = sp_labels s.
Proof.
  intros H. destruct (H (fun _ _ => (5, 5)%Q) no_bin) as (t & R & ((_ & N & _) & _) & _); try reflexivity.
  - split; [split; [cbn; lia | repeat constructor] | reflexivity].
  - vm_compute. discriminate.
  - vm_compute in R. injection R as <-. discriminate.
Qed.
Print Assumptions C52_json_empty_refuted.

(** The rows of a CSV file with different frequencies can have any order, and a header is not required.  If the table begins with a higher frequency than zero, the samples below are zero. *)
Theorem C52_read_partial : forall {A} (zero : A) eqb parse parse_sample junk path name header file table sorted c first last,
  Forall2 (is_row parse parse_sample) file table -> uniform c table -> 1 <= c -> 2 <= zlen table -> arrangement table sorted ->
  zth (map fst sorted) 0 = Some first -> zth (map fst sorted) (zlen table - 1) = Some last -> (0 <= first)%Q ->
  (parse name = None -> exists s, read_spectrum_csv zero eqb junk parse parse_sample path ((name :: header) :: file) = Ok s
      /\ describes_spectrum zero c header sorted first last s)
  /\ (exists s, read_spectrum_csv zero eqb junk parse parse_sample path file = Ok s
      /\ describes_spectrum zero c (map (file_label path) (zseq 1 c)) sorted first last s).
Proof. intros; split; [intros; eapply spectrum_read_with_header; eauto | eapply spectrum_read_without_header; eauto]. Qed.
Print Assumptions C52_read_partial.
Example C52_read_case : Forall2 (is_row read_number read_number) shuffled_file shuffled /\ uniform 2 shuffled /\ arrangement shuffled in_order.
Proof. exact C31_read_case. Qed.
Example C52_read_result : exists s, read_spectrum_csv 0%Q Qeq_bool five read_number read_number "dir/f.csv" shuffled_file = Ok s
  /\ sp_channels s = Arr [[0; 11; 12; 10]; [0; 21; 22; 20]]%Q 4 /\ (resolution s == 1 # 2)%Q /\ sp_labels s = ["f.csv 1"; "f.csv 2"]%string.
Proof. eexists. vm_compute. auto. Qed.

(** The samples at negative frequencies are meant to be cropped, but the spectrum is wrong ... *)
Definition negative_table : list (Q * list Q) := [(- (1), [10]); (0, [11]); (1, [12])]%Q.
Definition negative_file (table : list (Q * list Q)) : csv := map (fun r => show_number (fst r) :: map show_number (snd r)) table.
Theorem C52_negative_refuted : ~ forall (zero : Q) eqb parse parse_sample junk path file table sorted c first last,
  Forall2 (is_row parse parse_sample) file table -> uniform c table -> 1 <= c -> 2 <= zlen table -> arrangement table sorted ->
  zth (map fst sorted) 0 = Some first -> zth (map fst sorted) (zlen table - 1) = Some last ->
  exists s, read_spectrum_csv zero eqb junk parse parse_sample path file = Ok s
      /\ describes_spectrum zero c (map (file_label path) (zseq 1 c)) sorted first last s.
Proof.
  intros H. destruct (H 0%Q Qeq_bool read_number read_number five "f"%string (negative_file negative_table) negative_table negative_table 1 (- (1))%Q 1%Q)
    as (s & R & z & D1 & D2 & _ & _ & D3 & _).
  - repeat constructor.
  - repeat constructor.
  - lia.
  - vm_compute. discriminate.
  - split; [reflexivity |]. cbn. repeat constructor.
  - reflexivity.
  - reflexivity.
  - vm_compute in R. injection R as <-. assert (z = -1) as ->.
    { apply nearest_integer. eapply nearest_compat; [| exact D2]. vm_compute. reflexivity. }
    discriminate.
Qed.
Print Assumptions C52_negative_refuted.
(** ... all its samples are those of the highest frequency; with more negative frequencies, the file cannot be read at all. *)
Example C52_negative_cases : (exists s, read_spectrum_csv 0%Q Qeq_bool five read_number read_number "f" (negative_file negative_table) = Ok s
    /\ sp_channels s = Arr [[12; 12; 12; 12]]%Q 4)
  /\ read_spectrum_csv 0%Q Qeq_bool five read_number read_number "f" (negative_file ((- (2), [9])%Q :: negative_table)) = Err ValueError.
Proof. split; [eexists |]; vm_compute; auto. Qed.

(** The resolution of a spectrum with only one sample is lost. *)
Definition one_bin : spectrum (Q * Q) Q := Spectrum (Arr [[(1, 2)]]%Q 1) (5 # 2)%Q ["a"]%string.
Theorem C52_one_bin_refuted : ~ forall (zero : Q * Q) eqb junk path (s : spectrum (Q * Q) Q), wf_spectrum s -> 1 <= sp_count s -> sp_length s = 1 -> (0 < resolution s)%Q ->
  exists file t, write_spectrum_csv show_number show_complex s = Ok file /\ read_spectrum_csv zero eqb junk read_number read_complex path file = Ok t
    /\ same_spectrum same_complex s t /\ sp_labels t = sp_labels s.
Proof.
  intros H. destruct (H (0, 0)%Q (fun _ _ => false) (fun _ _ => (5, 5)%Q) "f"%string one_bin) as (file & t & E & R & (_ & N) & _); try reflexivity.
  - split; [split; [cbn; lia | repeat constructor] | reflexivity].
  - vm_compute in E. injection E as <-. vm_compute in R. injection R as <-. discriminate.
Qed.
Print Assumptions C52_one_bin_refuted.
