(** C63, C64: the representations of filters and of data sets can be evaluated. *)

From Coq Require Import String ZArith List Bool Reals.
From Verif.Model Require Import Py Numpy Functions Signal Spectrum Cube Spectrogram Terms Filter Interpolation Bands Repr.
From Verif.Spec Require Import TermsSpec FilterSpec FrequencySpec InterpolationSpec ComplexSpec BandsSpec ReprSpec.
From Verif.Proofs Require Import BandsClass BandsCases FilterExamples ReprData ReprRefute ReprCases.
Import ListNotations.
Open Scope Z_scope.

(** ** C63: filters *)

(** [eval(repr(F))] is a filter with the same labels and the same responses, if the names [Filter] and [array] are defined and all numbers
    are finite.  (The filters are those of C26: no lowpass-to-highpass transform of differences.) *)
Theorem C63_filters_partial : forall K X (A : arithmetic K X) finite finite_frequency is_array default_rate default_resolution default_spectrogram_rate junk k F names,
  exact_arithmetic A -> In "Filter"%string names -> In "array"%string names ->
  regular_filter k F -> labelled F -> Forall (every constructed) (transfer_functions F) -> finite_filter finite finite_frequency F ->
  exists G, eval_text A default_rate default_resolution default_spectrogram_rate names (repr_filter finite finite_frequency is_array "Filter" F) = Ok (VFilter G) /\
    f_labels G = f_labels F /\ f_count G = f_count F /\
    forall c f a, defined_at A k f -> response A junk F c f = Some a -> response A junk G c f = Some a.
Proof. intros; eapply filter_evaluated; eauto. Qed.
Print Assumptions C63_filters_partial.

(** The same holds for a file with the representation. *)
Theorem C63_files_partial : forall K X (A : arithmetic K X) finite finite_frequency is_array default_rate default_resolution default_spectrogram_rate junk k F,
  exact_arithmetic A ->
  regular_filter k F -> labelled F -> Forall (every constructed) (transfer_functions F) -> finite_filter finite finite_frequency F ->
  exists G, read_repr A default_rate default_resolution default_spectrogram_rate (write_repr finite finite_frequency is_array "Filter" F) = Ok (VFilter G) /\
    f_labels G = f_labels F /\ f_count G = f_count F /\
    forall c f a, defined_at A k f -> response A junk F c f = Some a -> response A junk G c f = Some a.
Proof. intros; eapply filter_file; eauto. Qed.
Print Assumptions C63_files_partial.

Example C63_filters_example :
  regular_filter Untransformed demo_filter /\ labelled demo_filter /\ Forall (every constructed) (transfer_functions demo_filter) /\
  finite_filter (fun _ => true) (fun _ => true) demo_filter /\ In "Filter"%string reader_names /\ In "array"%string reader_names.
Proof. destruct filter_example as (H & _ & _ & L & _). destruct demo_constructed as (C & F & I). auto. Qed.

(** A bands filter is restored exactly: its dictionaries, its flags, its labels and its transfer functions. *)
Theorem C63_bands : forall K X (A : arithmetic K X) finite finite_frequency default_rate default_resolution default_spectrogram_rate names b i e labels B,
  ordered A -> In "Bands"%string names -> Forall dictionary b -> mk_bands A b i e labels = Ok B -> finite_bands finite finite_frequency b ->
  eval_text A default_rate default_resolution default_spectrogram_rate names (repr_bands finite finite_frequency B) = Ok (VBands B).
Proof. intros; eapply bands_ok; eauto. Qed.
Print Assumptions C63_bands.

Theorem C63_bands_files : forall K X (A : arithmetic K X) finite finite_frequency default_rate default_resolution default_spectrogram_rate b i e labels B,
  ordered A -> Forall dictionary b -> mk_bands A b i e labels = Ok B -> finite_bands finite finite_frequency b ->
  read_repr A default_rate default_resolution default_spectrogram_rate (repr_bands finite finite_frequency B) = Ok (VBands B).
Proof. intros; eapply bands_file; eauto. Qed.
Print Assumptions C63_bands_files.

Example C63_bands_example : forall power modulo, let A := real_arithmetic power modulo in
  ordered A /\ Forall dictionary BandsCases.demo_bands /\ finite_bands (fun _ : R => true) (fun _ : R => true) BandsCases.demo_bands /\
  exists B, mk_bands A BandsCases.demo_bands (Flags [Linear; LogX]) (OneFlag StairsLin) ["a"%string] = Ok B.
Proof.
  intros power modulo A. assert (O : ordered A) by now apply real_ordered. split; auto. split; [exact demo_dictionaries|]. split; [now split|].
  destruct (mk_bands_ok A O BandsCases.demo_bands (Flags [Linear; LogX]) (OneFlag StairsLin) ["a"%string] demo_dictionaries) as (B & E & _); eauto. right. split; [discriminate|exact I].
Qed.

(** The filters of the derived classes are written with the name of the derived class, whose constructor has other parameters; the reader
    does not know its name. *)
Theorem C63_derived_classes_refuted : forall K X (A : arithmetic K X) finite finite_frequency is_array default_rate default_resolution default_spectrogram_rate cls params F,
  exact_arithmetic A -> In (cls, params) derived_filters -> Forall (every constructed) (transfer_functions F) -> finite_filter finite finite_frequency F ->
  eval_text A default_rate default_resolution default_spectrogram_rate all_names (repr_filter finite finite_frequency is_array cls F) = Err TypeError /\
  read_repr A default_rate default_resolution default_spectrogram_rate (write_repr finite finite_frequency is_array cls F) = Err NameError.
Proof. intros; eapply derived_filter; eauto. Qed.
Print Assumptions C63_derived_classes_refuted.

Example C63_derived_classes_example : In ("ButterworthFilter", ["cutoff_frequency"; "order"; "highpass"])%string derived_filters.
Proof. cbv [derived_filters]. simpl. tauto. Qed.

(** It does not suffice, that the name [Filter] is defined. *)
Theorem C63_only_filter_refuted : forall K X (A : arithmetic K X) finite finite_frequency is_array default_rate default_resolution default_spectrogram_rate xs ys i e labels,
  eval_text A default_rate default_resolution default_spectrogram_rate ["Filter"%string]
    (repr_filter finite finite_frequency is_array "Filter" (mk_filter [Terms.Bands xs ys i e] labels)) = Err NameError.
Proof. intros; apply only_filter. Qed.
Print Assumptions C63_only_filter_refuted.

(** ** C64: data sets *)

Theorem C64_signals : forall K X (A : arithmetic K X) finite default_rate default_resolution default_spectrogram_rate names s,
  In "array"%string names -> In "Signal"%string names ->
  wf_signal s -> 0 < count s -> 0 < length s -> finite_array finite (channels s) -> finite (sampling_rate s) = true ->
  eval_text A default_rate default_resolution default_spectrogram_rate names (repr_signal finite "Signal" s) = Ok (VSignal s).
Proof. intros; eapply signal_ok; eauto. Qed.
Print Assumptions C64_signals.

Theorem C64_spectrums : forall K X (A : arithmetic K X) finite finite_frequency default_rate default_resolution default_spectrogram_rate names s,
  In "array"%string names -> In "Spectrum"%string names ->
  wf_spectrum s -> 0 < sp_count s -> 0 < sp_length s -> finite_array finite (sp_channels s) -> finite_frequency (resolution s) = true ->
  eval_text A default_rate default_resolution default_spectrogram_rate names (repr_spectrum finite finite_frequency "Spectrum" s) = Ok (VSpectrum s).
Proof. intros; eapply spectrum_ok; eauto. Qed.
Print Assumptions C64_spectrums.

Theorem C64_spectrograms : forall K X (A : arithmetic K X) finite finite_frequency default_rate default_resolution default_spectrogram_rate names s,
  In "array"%string names -> In "Spectrogram"%string names ->
  wf_spectrogram s -> 0 < sg_count s -> 0 < sg_frequencies s -> 0 < sg_length s ->
  finite_cube finite (sg_channels s) -> finite_frequency (sg_resolution s) = true -> finite_frequency (sg_rate s) = true ->
  exists t, eval_text A default_rate default_resolution default_spectrogram_rate names (repr_spectrogram finite finite_frequency "Spectrogram" s) = Ok (VSpectrogram t) /\ equal_spectrogram s t.
Proof. intros; eapply spectrogram_ok; eauto. Qed.
Print Assumptions C64_spectrograms.

Example C64_example :
  (In "array" all_names /\ In "Signal" all_names /\ In "Spectrum" all_names /\ In "Spectrogram" all_names)%string /\
  (wf_signal demo_signal /\ 0 < count demo_signal /\ 0 < length demo_signal) /\ (wf_spectrum demo_spectrum /\ 0 < sp_count demo_spectrum /\ 0 < sp_length demo_spectrum) /\
  (wf_spectrogram demo_spectrogram /\ 0 < sg_count demo_spectrogram /\ 0 < sg_frequencies demo_spectrogram /\ 0 < sg_length demo_spectrogram).
Proof. split; [cbv [all_names reader_names]; simpl; tauto|exact demo_data_ok]. Qed.

(** The representation of an object of a derived class cannot be evaluated. *)
Theorem C64_derived_classes_refuted : forall K X (A : arithmetic K X) finite finite_frequency default_rate default_resolution default_spectrogram_rate cls params,
  let eval := eval_text A default_rate default_resolution default_spectrogram_rate all_names in
  (forall s, In (cls, params) derived_signals -> wf_signal s -> 0 < count s -> 0 < length s -> finite_array finite (channels s) -> finite (sampling_rate s) = true ->
     eval (repr_signal finite cls s) = Err TypeError) /\
  (forall s, In (cls, params) derived_spectrums -> wf_spectrum s -> 0 < sp_count s -> 0 < sp_length s -> finite_array finite (sp_channels s) -> finite_frequency (resolution s) = true ->
     eval (repr_spectrum finite finite_frequency cls s) = Err TypeError) /\
  (forall s, In (cls, params) derived_spectrograms -> wf_spectrogram s -> 0 < sg_count s -> 0 < sg_frequencies s -> 0 < sg_length s ->
     finite_cube finite (sg_channels s) -> finite_frequency (sg_resolution s) = true -> finite_frequency (sg_rate s) = true ->
     eval (repr_spectrogram finite finite_frequency cls s) = Err TypeError).
Proof. intros; split; [|split]; intros; [eapply derived_signal|eapply derived_spectrum|eapply derived_spectrogram]; eauto. Qed.
Print Assumptions C64_derived_classes_refuted.

(** An array without elements loses its shape. *)
Theorem C64_empty_refuted : forall K X (A : arithmetic K X) finite finite_frequency default_rate default_resolution default_spectrogram_rate,
  let eval := eval_text A default_rate default_resolution default_spectrogram_rate all_names in
  (forall s, count s = 0 \/ length s = 0 -> finite (sampling_rate s) = true ->
     eval (repr_signal finite "Signal" s) = Ok (VFlatSignal [] (sampling_rate s) (offset s) [])) /\
  (forall s, sp_count s = 0 \/ sp_length s = 0 -> finite_frequency (resolution s) = true ->
     eval (repr_spectrum finite finite_frequency "Spectrum" s) = Ok (VFlatSpectrum [] (resolution s) [])) /\
  (forall s, sg_count s = 0 \/ sg_frequencies s = 0 \/ sg_length s = 0 -> finite_frequency (sg_resolution s) = true -> finite_frequency (sg_rate s) = true ->
     eval (repr_spectrogram finite finite_frequency "Spectrogram" s) = Err IndexError).
Proof.
  intros. destruct C64_example as ((I1 & I2 & I3 & I4) & _).
  split; [|split]; intros; [eapply signal_empty|eapply spectrum_empty|eapply spectrogram_empty]; auto.
Qed.
Print Assumptions C64_empty_refuted.

(** Numbers, that are infinite or not a number, are written as names, that are not defined. *)
Theorem C64_nonfinite_refuted : forall K X (A : arithmetic K X) finite finite_frequency default_rate default_resolution default_spectrogram_rate,
  let eval := eval_text A default_rate default_resolution default_spectrogram_rate all_names in
  (forall s c n x, wf_signal s -> el (channels s) c n = Some x -> finite x = false -> eval (repr_signal finite "Signal" s) = Err NameError) /\
  (forall s c n x, wf_spectrum s -> el (sp_channels s) c n = Some x -> finite x = false -> eval (repr_spectrum finite finite_frequency "Spectrum" s) = Err NameError).
Proof.
  intros. destruct C64_example as ((I1 & I2 & I3 & I4) & _). assert (N : ~ In "nan"%string all_names) by exact no_nan.
  split; intros; [eapply nonfinite_signal|eapply nonfinite_spectrum]; eauto.
Qed.
Print Assumptions C64_nonfinite_refuted.

Example C64_nonfinite_example : wf_signal demo_signal /\ el (channels demo_signal) 1 0 = Some 3 /\ (fun x => negb (x =? 3)) 3 = false.
Proof. split; [apply demo_data_ok|split; reflexivity]. Qed.
