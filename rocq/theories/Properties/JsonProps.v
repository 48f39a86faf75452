(** * C68 JSON files are read as they have been written, and incomplete ones are refused

    [D x] says that [x] is a finite floating point number, [show] is [repr] and [read] is [float] for such numbers. *)

From Coq Require Import String ZArith QArith List Bool.
From Verif.Model Require Import Py Numpy Signal Spectrum Json Tables Spectrogram SpectrogramFiles Terms Filter JsonFiles.
From Verif.Spec Require Import TablesSpec TermsSpec JsonSpec JsonFilesSpec.
From Verif.Proofs Require Import JsonText JsonValues JsonCrash JsonFuel JsonFilesFacts JsonExamples.
Import ListNotations.
Open Scope Z_scope.

(** ** Objects *)

(** What can be written, is written completely, and it is read again as it was. *)
Theorem C68_round_trip : forall X (D : X -> Prop) show read (v : json X), faithful D show read -> proper_json D v -> complete v ->
  exists text, dump show v = (text, None) /\ load read text = Ok v.
Proof.
  exact (fun X D show read v F P C => ex_intro _ (fst (dump show v))
    (conj (eq_trans (surjective_pairing _) (f_equal (pair _) (proj1 (load_dump D show read F v P C)))) (proj2 (load_dump D show read F v P C)))).
Qed.
Print Assumptions C68_round_trip.
Example C68_round_trip_case : faithful (fun _ => True) demo_show demo_read /\ proper_json (fun _ => True) demo_json /\ complete demo_json /\ container demo_json.
Proof. exact (conj demo_faithful demo_json_fine). Qed.

(** The text does not depend on the encoding of the platform: there are only ASCII characters. *)
Theorem C68_ascii : forall X (D : X -> Prop) show read (v : json X), faithful D show read -> proper_json D v -> Forall printable (fst (dump show v)).
Proof. exact (fun X D show read v F P => write_range D show read F v P O). Qed.
Print Assumptions C68_ascii.

(** If the text of a list or a dictionary is only written partly, it is not taken for another object. *)
Theorem C68_truncated : forall X (D : X -> Prop) show read (v : json X) p q, faithful D show read -> proper_json D v -> complete v -> container v ->
  dump show v = (p ++ q, None) -> q <> [] -> load read p = Err ValueError.
Proof. exact (fun X D show read v p q F P C K E => load_truncated D show read F v p q P C K (f_equal fst E)). Qed.
Print Assumptions C68_truncated.

(** Objects with a part that cannot be written, and only those, raise a [TypeError].  What has been written until then, cannot be read. *)
Theorem C68_failure : forall X (D : X -> Prop) show read (v : json X), faithful D show read -> proper_json D v -> ~ complete v ->
  exists text, dump show v = (text, Some TypeError) /\ load read text = Err ValueError.
Proof.
  exact (fun X D show read v F P C => ex_intro _ (fst (dump show v))
    (conj (eq_trans (surjective_pairing _) (f_equal (pair _) (proj1 (dump_failure D show read F v P C)))) (proj2 (dump_failure D show read F v P C)))).
Qed.
Print Assumptions C68_failure.
Example C68_failure_case : let v := JList [demo_json; JDict [(codes "x", JOther)]; JNull] in ~ complete v /\ proper_json (fun _ => True) v.
Proof.
  split; [cbn; tauto|]. apply proper_list. repeat apply Forall_cons; try apply Forall_nil; [apply demo_json_fine| |exact I].
  split; [repeat constructor; auto|]. split; [apply codes_proper|split; exact I].
Qed.

(** The bounds of the recursions of the model do not restrict the texts that can be read. *)
Theorem C68_steps : forall X (read : list Z -> option X) n text v r, Json.value read n (skip text) = Some (v, r) -> skip r = [] -> load read text = Ok v.
Proof. exact (fun X read => load_fuel read). Qed.
Print Assumptions C68_steps.
Theorem C68_steps_of_strings : forall n text s r, scan_string n text = Some (s, r) -> scan_string (S (List.length text)) text = Some (s, r).
Proof. exact load_fuel_string. Qed.
Print Assumptions C68_steps_of_strings.

(** Strings are not always the same: two surrogates become one character. *)
Theorem C68_surrogates_refuted : ~ forall X (D : X -> Prop) show read s, faithful D show read -> (forall c, In c s -> 0 <= c < 1114112) ->
  load read (fst (dump show (@JStr X s))) = Ok (JStr s).
Proof.
  intros H. specialize (H Q (fun _ => True) demo_show demo_read [55357; 56832] demo_faithful). assert (B : forall c, In c [55357; 56832] -> 0 <= c < 1114112).
  { intros c [<-|[<-|[]]]; split; reflexivity || discriminate. } specialize (H B). vm_compute in H. discriminate.
Qed.
Print Assumptions C68_surrogates_refuted.

(** ** Signals, spectrums and spectrograms *)

Theorem C68_signal : forall (D : Q -> Prop) show read junk s, faithful D show read -> signal_floats D s -> wf_signal s -> 1 <= count s ->
  exists text, save_signal show true s = (text, None) /\ load_signal read junk text = Ok s.
Proof. exact (fun D show read junk s F => signal_file D show read F junk s). Qed.
Print Assumptions C68_signal.
Example C68_signal_case : signal_floats (fun _ => True) demo_signal /\ wf_signal demo_signal /\ 1 <= count demo_signal /\ In [1%Q; 2 # 3] (rows (channels demo_signal)).
Proof. exact demo_signal_fine. Qed.

(** Saving a signal has been interrupted. *)
Theorem C68_signal_crash : forall (D : Q -> Prop) show read junk s p q, faithful D show read -> signal_floats D s ->
  save_signal show true s = (p ++ q, None) -> q <> [] -> load_signal read junk p = Err ValueError.
Proof. exact (fun D show read junk s p q F => signal_crash D show read F junk s p q). Qed.
Print Assumptions C68_signal_crash.

(** Signals, whose samples do not have double precision, are not saved, and the former contents of the file are lost. *)
Theorem C68_signal_dtype : forall (D : Q -> Prop) show read junk s r x, faithful D show read -> D (sampling_rate s) -> In r (rows (channels s)) -> In x r ->
  exists text, save_signal show false s = (text, Some TypeError) /\ load_signal read junk text = Err ValueError.
Proof. exact (fun D show read junk s r x F DS R IX => signal_failure D show read F junk s r x R IX DS). Qed.
Print Assumptions C68_signal_dtype.

Theorem C68_spectrum : forall (D : Q -> Prop) show read junk s, faithful D show read -> spectrum_floats D s -> wf_spectrum s -> 1 <= sp_count s -> 1 <= sp_length s ->
  exists text t, save_spectrum show true s = (text, None) /\ load_spectrum read junk text = Ok t /\ same_spectrum same_complex s t /\ sp_labels t = sp_labels s.
Proof. exact (fun D show read junk s F => spectrum_file D show read F junk s). Qed.
Print Assumptions C68_spectrum.
Example C68_spectrum_case : spectrum_floats (fun _ => True) demo_complex_spectrum /\ wf_spectrum demo_complex_spectrum /\ 1 <= sp_count demo_complex_spectrum /\ 1 <= sp_length demo_complex_spectrum.
Proof. exact demo_complex_spectrum_fine. Qed.

Theorem C68_spectrum_crash : forall (D : Q -> Prop) show read junk s p q, faithful D show read -> spectrum_floats D s ->
  save_spectrum show true s = (p ++ q, None) -> q <> [] -> load_spectrum read junk p = Err ValueError.
Proof. exact (fun D show read junk s p q F => spectrum_crash D show read F junk s p q). Qed.
Print Assumptions C68_spectrum_crash.

(** The dictionary of a spectrogram; what is made of it, is the subject of C61. *)
Theorem C68_spectrogram : forall (D : Q -> Prop) show read K (real imag : K -> Q) s, faithful D show read -> spectrogram_floats D real imag s ->
  exists text, dump show (spectrogram_json true (spectrogram_as_dict real imag s)) = (text, None) /\
    (v <- load read text ;; json_spectrogram v) = Ok (spectrogram_as_dict real imag s).
Proof. exact (fun D show read K real imag s F => spectrogram_file D show read F real imag s). Qed.
Print Assumptions C68_spectrogram.

(** ** Filters *)

(** A filter, whose numbers are real, is what is made of its dictionary: see C26. *)
Theorem C68_filter : forall N K X (D : N -> Prop) show read (float_of_number : K -> option N) (number_of_float : N -> K) (float_of_frequency : X -> N) (frequency_of_float : N -> X)
    (A : arithmetic K X) complex_array real imag unit (F : filter K X),
  faithful D show read -> (forall x n, float_of_number x = Some n -> number_of_float n = x) -> (forall x : X, frequency_of_float (float_of_frequency x) = x) ->
  Forall (every (float_term D float_of_number float_of_frequency complex_array real imag)) (transfer_functions F) ->
  exists text, save_filter show float_of_number float_of_frequency complex_array real imag F = (text, None) /\
    load_filter read number_of_float frequency_of_float A unit text = filter_from_dict A unit (filter_as_dict complex_array real imag F).
Proof. exact (fun N K X D show read a b c d A e r i u F FF H1 H2 => filter_file D show read FF a b c d H1 H2 A e r i u F). Qed.
Print Assumptions C68_filter.
Example C68_filter_case : (forall z n, demo_float z = Some n -> demo_complex n = z) /\
  Forall (every (float_term (fun _ => True) demo_float (fun x : Q => x) (fun _ => true) (fun z => demo_complex (fst z)) (fun z => demo_complex (snd z)))) (transfer_functions demo_stored_filter).
Proof. exact (conj demo_float_inverse demo_stored_filter_fine). Qed.

Theorem C68_filter_crash : forall N K X (D : N -> Prop) show read (float_of_number : K -> option N) (number_of_float : N -> K) (float_of_frequency : X -> N) (frequency_of_float : N -> X)
    (A : arithmetic K X) complex_array real imag unit (F : filter K X) p q,
  faithful D show read -> (forall x n, float_of_number x = Some n -> number_of_float n = x) -> (forall x : X, frequency_of_float (float_of_frequency x) = x) ->
  Forall (every (float_term D float_of_number float_of_frequency complex_array real imag)) (transfer_functions F) ->
  save_filter show float_of_number float_of_frequency complex_array real imag F = (p ++ q, None) -> q <> [] ->
  load_filter read number_of_float frequency_of_float A unit p = Err ValueError.
Proof. exact (fun N K X D show read a b c d A e r i u F p q FF H1 H2 => filter_crash D show read FF a b c d H1 H2 A e r i u F p q). Qed.
Print Assumptions C68_filter_crash.

(** A filter with a complex constant or coefficient is not saved, and the former contents of the file are lost. *)
Theorem C68_filter_complex : forall N K X (D : N -> Prop) show read (float_of_number : K -> option N) (number_of_float : N -> K) (float_of_frequency : X -> N) (frequency_of_float : N -> X)
    (A : arithmetic K X) complex_array real imag unit (F : filter K X) t,
  faithful D show read -> Forall (every (number_term D float_of_number float_of_frequency real imag)) (transfer_functions F) ->
  In t (transfer_functions F) -> has_complex float_of_number t ->
  exists text, save_filter show float_of_number float_of_frequency complex_array real imag F = (text, Some TypeError) /\
    load_filter read number_of_float frequency_of_float A unit text = Err ValueError.
Proof. exact (fun N K X D show read a b c d A e r i u F t FF => filter_failure D show read FF a b c d A e r i u F t). Qed.
Print Assumptions C68_filter_complex.
Example C68_filter_complex_case :
  Forall (every (number_term (fun _ => True) demo_float (fun x : Q => x) (fun z => demo_complex (fst z)) (fun z => demo_complex (snd z)))) (transfer_functions demo_complex_filter) /\
  In (Polynomial [(1, 0); (2, 1)]%Q true) (transfer_functions demo_complex_filter) /\ has_complex demo_float (@Polynomial (Q * Q) Q [(1, 0); (2, 1)]%Q true).
Proof. exact demo_complex_filter_fine. Qed.
