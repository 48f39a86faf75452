(** Filters, signals, spectrums and spectrograms, whose representations cannot be evaluated; the round trips of filters. *)

From Coq Require Import String ZArith List Bool Lia ZifyBool Field.
From Verif.Model Require Import Py Numpy Functions Signal Spectrum Cube Spectrogram Terms Filter Bands Repr.
From Verif.Spec Require Import TermsSpec FilterSpec BandsSpec ReprSpec.
From Verif.Proofs Require Import PyFacts NumpyFacts TermFacts FilterResults ReprParse ReprFacts ReprResults ReprData.
Import ListNotations.
Open Scope list_scope.
Open Scope Z_scope.

Lemma every_impl {K X} (P Q : term K X -> Prop) : (forall t, P t -> Q t) -> forall t, every P t -> every Q t.
Proof.
  intros H. induction t as [v|c x|c x|xs ys i e|v x IHt|v x IHt|l x G|t1 t2 x IHt1 IHt2|l x G|t1 t2 x IHt1 IHt2] using term_induction;
    intros [P0 P1]; (split; [auto|]); try exact I; auto; try (destruct P1; auto; fail).
  all: clear P0; induction G as [|t l IH _ IHl]; [exact I|]; cbn [fold_right] in *; destruct P1; split; auto.
Qed.

Lemma existsb_eqb_in s (l : list string) : existsb (String.eqb s) l = true -> In s l.
Proof. rewrite existsb_exists. intros (t & I & E). apply String.eqb_eq in E. now subst. Qed.
Lemma not_all {Y} (f : Y -> bool) l : ~ (forall x, In x l -> f x = true) -> exists x, In x l /\ f x = false.
Proof.
  induction l as [|y l IH]; intros H; [exfalso; apply H; intros x []|]. destruct (f y) eqn:E; [|exists y; split; [now left|auto]].
  destruct IH as (x & I & F); [|exists x; split; [now right|auto]]. intros G. apply H. intros x [<- |I]; auto.
Qed.

Section Refute.
Context {K X : Type}.
Variable A : arithmetic K X.
Variable finite : K -> bool.
Variable finite_frequency : X -> bool.
Variable is_array : list K -> bool.
Variable default_rate : K.
Variables default_resolution default_spectrogram_rate : X.
Notation eval := (Repr.eval A default_rate default_resolution default_spectrogram_rate).
Notation eval_text := (eval_text A default_rate default_resolution default_spectrogram_rate).
Notation apply := (apply A default_rate default_resolution default_spectrogram_rate).
Notation read_repr := (read_repr A default_rate default_resolution default_spectrogram_rate).
Notation token := (token (K:=K) (X:=X)).
Notation value := (Repr.value (K:=K) (X:=X)).
Notation number := (Repr.number (X:=X) finite).
Notation frequency := (Repr.frequency (K:=K) finite_frequency).
Notation repr_term := (repr_term finite finite_frequency is_array).
Notation repr_filter := (repr_filter finite finite_frequency is_array).
Notation repr_signal := (repr_signal (X:=X) finite).
Notation repr_spectrum := (repr_spectrum finite finite_frequency).
Notation repr_spectrogram := (repr_spectrogram finite finite_frequency).
Notation finite_term := (finite_term finite finite_frequency).
Notation denotes := (denotes A default_rate default_resolution default_spectrogram_rate).
Notation denotes_arguments := (denotes_arguments A default_rate default_resolution default_spectrogram_rate).

(** ** Filters *)

Notation ZERO := (o_zero (k_ops A)).
Section Exact.
Hypothesis EA : exact_arithmetic A.

Definition repr_field := exact_field A EA.
Add Field KR : repr_field.

Lemma constructed_readable t : constructed t -> readable A (fun y => y) (fun _ => ZERO) ZERO t.
Proof. destruct t as [| | |xs ys i e| | | | | |]; auto. intros E. split; auto. intros y _. ring. Qed.
Lemma readable_terms l : Forall (every constructed) l -> Forall (every (readable A (fun y => y) (fun _ => ZERO) ZERO)) l.
Proof. apply Forall_impl. apply every_impl. apply constructed_readable. Qed.

Lemma filter_evaluated junk k F names : In "Filter"%string names -> In "array"%string names -> regular_filter k F -> labelled F ->
  Forall (every constructed) (transfer_functions F) -> finite_filter finite finite_frequency F ->
  exists G, eval_text names (repr_filter "Filter" F) = Ok (VFilter G) /\ f_labels G = f_labels F /\ f_count G = f_count F /\
    forall c f a, defined_at A k f -> response A junk F c f = Some a -> response A junk G c f = Some a.
Proof.
  intros N M R L C F'. apply readable_terms in C.
  destruct (filter_ok A finite finite_frequency is_array default_rate default_resolution default_spectrogram_rate (fun _ => true) (fun y => y) (fun _ => ZERO) ZERO names N M F F' C) as (G & E & T).
  destruct (filter_round_trip A junk EA (fun _ => true) (fun y => y) (fun _ => ZERO) ZERO k F R L C) as (G' & E' & H1 & H2 & _ & H3).
  rewrite E in E'. injection E' as <-. exists G. auto.
Qed.

Lemma filter_file junk k F : regular_filter k F -> labelled F -> Forall (every constructed) (transfer_functions F) -> finite_filter finite finite_frequency F ->
  exists G, read_repr (write_repr finite finite_frequency is_array "Filter" F) = Ok (VFilter G) /\ f_labels G = f_labels F /\ f_count G = f_count F /\
    forall c f a, defined_at A k f -> response A junk F c f = Some a -> response A junk G c f = Some a.
Proof.
  intros R L C F'. destruct (filter_evaluated junk k F reader_names) as (G & E & H); auto; [cbv [reader_names]; simpl; tauto..|].
  exists G. split; auto. unfold Repr.read_repr, write_repr. now rewrite E.
Qed.

(** ** Derived classes *)

Lemma derived_call cls params ps vs n : In (cls, params) derived_classes -> denotes_arguments all_names ps vs -> In n (map fst ps) -> existsb (String.eqb n) params = false ->
  eval_text all_names (repr_call [Name cls] (map named ps)) = Err TypeError.
Proof.
  intros I D J E.
  assert (Hc : In cls all_names /\ existsb (String.eqb cls) ["True"; "False"; "array"; "float64"; "complex128"]%string = false /\ lookup cls derived_classes = Some params).
  { clear D J E. cbv [derived_classes derived_filters derived_signals derived_spectrums derived_spectrograms app] in I.
    repeat (destruct I as [Q|I]; [injection Q as <- <-; split; [apply (existsb_eqb_in _ all_names); vm_compute; reflexivity|split; vm_compute; reflexivity]|]). destruct I. }
  destruct Hc as (H1 & H2 & H3). apply (class_ok A default_rate default_resolution default_spectrogram_rate all_names cls ps vs); auto.
  unfold Repr.apply. rewrite keywords_ok. cbn [bind]. rewrite H3. unfold check_keywords.
  assert (Q : forallb (fun p => existsb (String.eqb (fst p)) params) vs = false).
  { apply not_true_iff_false. intros T. rewrite forallb_forall in T. assert (V : In n (map fst vs)).
    { replace (map fst vs) with (map fst ps); auto. clear -D. induction D as [|p v ps vs [Q _] _ IH]; [reflexivity|]. cbn [map]. now rewrite Q, IH. }
    apply in_map_iff in V as (v & <- & V). apply T in V. congruence. }
  now rewrite Q.
Qed.

Lemma unknown_call cls ps vs : In cls (map fst derived_classes) -> denotes_arguments all_names ps vs ->
  eval_text reader_names (repr_call [Name cls] (map named ps)) = Err NameError.
Proof.
  intros I D. destruct (denotes_arguments_each A default_rate default_resolution default_spectrogram_rate all_names ps vs D) as (qs & P & _).
  apply denotes_text. apply unknown_class with (qs := qs); auto.
  all: cbv [derived_classes derived_filters derived_signals derived_spectrums derived_spectrograms app map fst] in I.
  - intros J. cbv [reader_names] in J. repeat (destruct J as [<- |J]; [repeat (destruct I as [Q|I]; [discriminate|]); destruct I|]). destruct J.
  - intros ->. repeat (destruct I as [Q|I]; [discriminate|]). destruct I.
  - intros ->. repeat (destruct I as [Q|I]; [discriminate|]). destruct I.
Qed.

Lemma filter_arguments F : Forall (every constructed) (transfer_functions F) -> finite_filter finite finite_frequency F ->
  exists vs, denotes_arguments all_names [("transfer_functions", repr_tuple (map repr_term (transfer_functions F))); ("labels", repr_labels (f_labels F))]%string vs.
Proof.
  intros C H. apply readable_terms in C.
  destruct (terms_ok A finite finite_frequency is_array default_rate default_resolution default_spectrogram_rate (fun _ => true) (fun y => y) (fun _ => ZERO) ZERO all_names) with (l := transfer_functions F) as (us & _ & D); auto;
    [apply (existsb_eqb_in _ all_names); vm_compute; reflexivity..|].
  eexists. apply arguments_cons; [apply denotes_tuple; exact D|]. apply arguments_cons; [apply denotes_labels|constructor].
Qed.

Lemma derived_filter cls params F : In (cls, params) derived_filters -> Forall (every constructed) (transfer_functions F) -> finite_filter finite finite_frequency F ->
  eval_text all_names (repr_filter cls F) = Err TypeError /\ read_repr (write_repr finite finite_frequency is_array cls F) = Err NameError.
Proof.
  intros I C H. destruct (filter_arguments F C H) as [vs D].
  assert (J : In (cls, params) derived_classes) by (unfold derived_classes; apply in_or_app; now left).
  split.
  - apply (derived_call cls params _ vs "transfer_functions" J D); [now left|].
    clear -I. cbv [derived_filters] in I. repeat (destruct I as [Q|I]; [injection Q as <- <-; reflexivity|]). destruct I.
  - unfold Repr.read_repr, write_repr. pose proof (unknown_call cls _ vs (in_map fst _ _ J) D) as E. unfold Repr.repr_filter.
    change (repr_call [Name cls] _) with (repr_call [Name cls] (map named [("transfer_functions", repr_tuple (map repr_term (transfer_functions F))); ("labels", repr_labels (f_labels F))]%string)).
    now rewrite E.
Qed.
End Exact.

Lemma derived_signal cls params s : In (cls, params) derived_signals -> wf_signal s -> 0 < count s -> 0 < length s -> finite_array finite (channels s) ->
  finite (sampling_rate s) = true -> eval_text all_names (repr_signal cls s) = Err TypeError.
Proof.
  intros I [W L] N M F G.
  assert (J : In (cls, params) derived_classes) by (unfold derived_classes; apply in_or_app; right; apply in_or_app; now left).
  apply (derived_call cls params [("channels", repr_array (array2string finite (channels s))); ("sampling_rate", number (sampling_rate s)); ("offset", [Int (offset s)]); ("labels", repr_labels (labels s))]%string
    [("channels", VArray2 (channels s)); ("sampling_rate", VNum (sampling_rate s)); ("offset", VInt (offset s)); ("labels", VTuple (map VStr (labels s)))]%string "channels" J); [|now left|].
  - apply arguments_cons; [apply denotes_array2; auto; apply (existsb_eqb_in _ all_names); vm_compute; reflexivity|].
    repeat (apply arguments_cons; [auto using denotes_number, denotes_int, denotes_labels|]). constructor.
  - clear -I. cbv [derived_signals] in I. repeat (destruct I as [Q|I]; [injection Q as <- <-; reflexivity|]). destruct I.
Qed.

Lemma derived_spectrum cls params s : In (cls, params) derived_spectrums -> wf_spectrum s -> 0 < sp_count s -> 0 < sp_length s -> finite_array finite (sp_channels s) ->
  finite_frequency (resolution s) = true -> eval_text all_names (repr_spectrum cls s) = Err TypeError.
Proof.
  intros I [W L] N M F G.
  assert (J : In (cls, params) derived_classes) by (unfold derived_classes; apply in_or_app; right; apply in_or_app; right; apply in_or_app; now left).
  apply (derived_call cls params [("channels", repr_array (array2string finite (sp_channels s))); ("resolution", frequency (resolution s)); ("labels", repr_labels (sp_labels s))]%string
    [("channels", VArray2 (sp_channels s)); ("resolution", VFreq (resolution s)); ("labels", VTuple (map VStr (sp_labels s)))]%string "channels" J); [|now left|].
  - apply arguments_cons; [apply denotes_array2; auto; apply (existsb_eqb_in _ all_names); vm_compute; reflexivity|].
    repeat (apply arguments_cons; [auto using denotes_frequency, denotes_labels|]). constructor.
  - clear -I. cbv [derived_spectrums] in I. repeat (destruct I as [Q|I]; [injection Q as <- <-; reflexivity|]). destruct I.
Qed.

Lemma derived_spectrogram cls params s : In (cls, params) derived_spectrograms -> wf_spectrogram s -> 0 < sg_count s -> 0 < sg_frequencies s -> 0 < sg_length s ->
  finite_cube finite (sg_channels s) -> finite_frequency (sg_resolution s) = true -> finite_frequency (sg_rate s) = true -> eval_text all_names (repr_spectrogram cls s) = Err TypeError.
Proof.
  intros I [W L] N0 N1 N2 F G H.
  assert (J : In (cls, params) derived_classes) by (unfold derived_classes; apply in_or_app; right; apply in_or_app; right; apply in_or_app; now right).
  destruct (denotes_array3 A finite default_rate default_resolution default_spectrogram_rate all_names) with (m := sg_channels s) as (n & D & _); auto;
    [apply (existsb_eqb_in _ all_names); vm_compute; reflexivity|].
  apply (derived_call cls params [("channels", repr_array (array2string3 finite (sg_channels s))); ("resolution", frequency (sg_resolution s)); ("sampling_rate", frequency (sg_rate s));
      ("offset", [Int (sg_offset s)]); ("labels", repr_labels (sg_labels s))]%string
    [("channels", VArray3 n); ("resolution", VFreq (sg_resolution s)); ("sampling_rate", VFreq (sg_rate s)); ("offset", VInt (sg_offset s)); ("labels", VTuple (map VStr (sg_labels s)))]%string "channels" J); [|now left|].
  - apply arguments_cons; [exact D|]. repeat (apply arguments_cons; [auto using denotes_frequency, denotes_int, denotes_labels|]). constructor.
  - clear -I. cbv [derived_spectrograms] in I. repeat (destruct I as [Q|I]; [injection Q as <- <-; reflexivity|]). destruct I.
Qed.

(** ** The name [array] *)

Lemma parses_strings (l : list string) : Forall2 (parses (K:=K) (X:=X)) (map (fun s => [Str s]) l) (map EStr l).
Proof. induction l; constructor; auto using parses_str. Qed.
Lemma parses_any_number x : exists e, parses (number x) e.
Proof. unfold Repr.number. destruct (finite x); eexists; [apply parses_num|apply parses_name]. Qed.
Lemma parses_any_frequency x : exists e, parses (frequency x) e.
Proof. unfold Repr.frequency. destruct (finite_frequency x); eexists; [apply parses_freq|apply parses_name]. Qed.
Lemma parses_each {Y} (f : Y -> list token) l : (forall y, In y l -> exists e, parses (f y) e) -> exists es, Forall2 parses (map f l) es.
Proof.
  induction l as [|y l IH]; intros H; [exists []; constructor|]. destruct (H y) as [e E]; [now left|]. destruct IH as [es Es]; [intros; apply H; now right|].
  exists (e :: es). now constructor.
Qed.

Lemma arguments_parse n (l : list token) e ps qs : parses l e -> Forall2 parses_argument ps qs -> Forall2 parses_argument ((n, l) :: ps) ((Some n, e) :: qs).
Proof. intros P Q. constructor; auto. now split. Qed.

Lemma only_filter xs ys i e l : eval_text ["Filter"%string] (repr_filter "Filter" (mk_filter [Terms.Bands xs ys i e] l)) = Err NameError.
Proof.
  destruct (parses_each frequency xs) as [ex Px]; [intros; apply parses_any_frequency|]. destruct (parses_each number ys) as [ey Py]; [intros; apply parses_any_number|].
  apply denotes_text. eexists. split.
  - apply (parses_call "Filter" [("transfer_functions", repr_tuple (map repr_term [Terms.Bands xs ys i e])); ("labels", repr_labels (f_labels (mk_filter [Terms.Bands xs ys i e] l)))]%string).
    apply arguments_parse; [|apply arguments_parse; [|constructor]].
    + apply parses_tuple. constructor; [|constructor].
      apply (parses_factory "Bands" [("xs", repr_array (repr_list (map frequency xs))); ("ys", repr_array (repr_list (map number ys)));
        ("interpolation", [Int (interpolation_int i)]); ("extrapolation", [Int (interpolation_int e)])]%string).
      repeat (apply arguments_parse); [apply parses_array; exact Px|apply parses_array; exact Py|apply parses_int|apply parses_int|constructor].
    + apply parses_tuple, parses_strings.
  - reflexivity.
Qed.

(** ** Numbers, that are not finite *)

Definition harmless (names : list string) (l : list token) : Prop := (exists v, denotes names l (Ok v)) \/ denotes names l (Err NameError).

Lemma sequence_fails names ls : Forall (harmless names) ls -> Exists (fun l => denotes names l (Err NameError)) ls ->
  exists es, Forall2 parses ls es /\ sequence (map (eval names) es) = Err NameError.
Proof.
  induction ls as [|l ls IH]; intros H E; [inversion E|]. inversion_clear H as [|? ? H0 H1].
  assert (P : exists es, Forall2 parses ls es).
  { clear -H1. induction H1 as [|l ls [[v (e & P & _)]|(e & P & _)] _ [es Ps]]; [exists []; constructor|exists (e :: es); now constructor..]. }
  destruct H0 as [[v (e & Pe & Ee)]|(e & Pe & Ee)].
  - inversion_clear E as [? ? (e' & Pe' & Ee')|? ? E1].
    + destruct P as [es Ps]. exists (e' :: es). split; [now constructor|]. cbn [map sequence]. rewrite Ee'. reflexivity.
    + destruct (IH H1 E1) as (es & Ps & Es). exists (e :: es). split; [now constructor|]. cbn [map sequence]. rewrite Ee. cbn [bind]. now rewrite Es.
  - destruct P as [es Ps]. exists (e :: es). split; [now constructor|]. cbn [map sequence]. rewrite Ee. reflexivity.
Qed.

Lemma not_a_number names x : ~ In "nan"%string names -> finite x = false -> denotes names (number x) (Err NameError).
Proof.
  intros N F. unfold Repr.number. rewrite F. exists (EName "nan"). split; [apply parses_name|]. cbn [Repr.eval]. unfold lookup_name. change (String.eqb "nan" "True") with false. change (String.eqb "nan" "False") with false. cbv iota.
  destruct (existsb (String.eqb "nan") names) eqn:E; [|reflexivity]. apply existsb_exists in E as (s & I & S). apply String.eqb_eq in S. subst. contradiction.
Qed.
Lemma any_number names x : ~ In "nan"%string names -> harmless names (number x).
Proof. intros N. destruct (finite x) eqn:F; [left; eexists; now apply denotes_number|right; now apply not_a_number]. Qed.

Lemma harmless_row names r : ~ In "nan"%string names -> harmless names (repr_list (map number r)).
Proof.
  intros N. destruct (forallb finite r) eqn:F.
  - left. eexists. apply denotes_list, denotes_map. intros x I. apply denotes_number. rewrite forallb_forall in F. auto.
  - right. destruct (sequence_fails names (map number r)) as (es & P & E).
    + rewrite Forall_map. apply Forall_forall. intros x _. now apply any_number.
    + rewrite Exists_exists. apply not_true_iff_false in F. rewrite forallb_forall in F. apply not_all in F as (x & I & Fx). exists (number x). split; [now apply in_map|now apply not_a_number].
    + exists (EList es). split; [now apply parses_list|]. cbn [Repr.eval]. now rewrite E.
Qed.

Lemma row_fails names r x : ~ In "nan"%string names -> In x r -> finite x = false -> denotes names (repr_list (map number r)) (Err NameError).
Proof.
  intros N I F. destruct (sequence_fails names (map number r)) as (es & P & E).
  - rewrite Forall_map. apply Forall_forall. intros y _. now apply any_number.
  - rewrite Exists_exists. exists (number x). split; [now apply in_map|now apply not_a_number].
  - exists (EList es). split; [now apply parses_list|]. cbn [Repr.eval]. now rewrite E.
Qed.

Lemma array_fails names m i k x : ~ In "nan"%string names -> In "array"%string names -> wf m -> el m i k = Some x -> finite x = false ->
  denotes names (repr_array (array2string finite m)) (Err NameError).
Proof.
  intros N M [C W] E F. destruct (el_range m i k x) as [Bi Bk]; auto; [now split|]. unfold array2string. replace ((nrows m =? 0) || (cols m =? 0)) with false by lia.
  unfold el in E. destruct (zth (rows m) i) as [r|] eqn:R; [|discriminate].
  destruct (sequence_fails names (map (fun row => repr_list (map number row)) (rows m))) as (es & P & Es).
  - rewrite Forall_map. apply Forall_forall. intros y _. now apply harmless_row.
  - rewrite Exists_exists. exists (repr_list (map number r)). split; [apply (in_map (fun row => repr_list (map number row))); now apply (zth_In _ i)|].
    apply (row_fails names r x); auto. now apply (zth_In _ k).
  - eexists. split; [apply parses_array; exact P|]. cbn [Repr.eval]. rewrite lookup_known by auto. cbn [bind map sequence]. cbn [Repr.eval]. now rewrite Es.
Qed.

Lemma nonfinite_signal names s i k x : In "Signal"%string names -> In "array"%string names -> ~ In "nan"%string names -> wf_signal s -> el (channels s) i k = Some x -> finite x = false ->
  eval_text names (repr_signal "Signal" s) = Err NameError.
Proof.
  intros I M N [W L] E F. destruct (array_fails names (channels s) i k x) as (e & P & Ee); auto. destruct (parses_any_number (sampling_rate s)) as [er Pr].
  apply denotes_text. eexists. split.
  - apply (parses_call "Signal" [("channels", repr_array (array2string finite (channels s))); ("sampling_rate", number (sampling_rate s)); ("offset", [Int (offset s)]); ("labels", repr_labels (labels s))]%string).
    repeat (apply arguments_parse); [exact P|exact Pr|apply parses_int|apply parses_tuple, parses_strings|constructor].
  - cbn [Repr.eval]. rewrite lookup_known by auto. cbn [bind map sequence fst snd]. now rewrite Ee.
Qed.
Lemma nonfinite_spectrum names s i k x : In "Spectrum"%string names -> In "array"%string names -> ~ In "nan"%string names -> wf_spectrum s -> el (sp_channels s) i k = Some x -> finite x = false ->
  eval_text names (repr_spectrum "Spectrum" s) = Err NameError.
Proof.
  intros I M N [W L] E F. destruct (array_fails names (sp_channels s) i k x) as (e & P & Ee); auto. destruct (parses_any_frequency (resolution s)) as [er Pr].
  apply denotes_text. eexists. split.
  - apply (parses_call "Spectrum" [("channels", repr_array (array2string finite (sp_channels s))); ("resolution", frequency (resolution s)); ("labels", repr_labels (sp_labels s))]%string).
    repeat (apply arguments_parse); [exact P|exact Pr|apply parses_tuple, parses_strings|constructor].
  - cbn [Repr.eval]. rewrite lookup_known by auto. cbn [bind map sequence fst snd]. now rewrite Ee.
Qed.

Lemma bands_file b i e labels B : ordered A -> Forall dictionary b -> mk_bands A b i e labels = Ok B -> finite_bands finite finite_frequency b ->
  read_repr (repr_bands finite finite_frequency B) = Ok (VBands B).
Proof.
  intros OA D E F. unfold Repr.read_repr. rewrite (bands_ok A finite finite_frequency default_rate default_resolution default_spectrogram_rate reader_names OA b i e labels B); auto.
  cbv [reader_names]. simpl. tauto.
Qed.

End Refute.
