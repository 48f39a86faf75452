(** JSON files with signals, spectrums, spectrograms and filters. *)

From Coq Require Import String Ascii ZArith QArith List Bool Lia ZifyBool.
From Verif.Model Require Import Py Numpy Functions Signal Spectrum Text Json Tables Cube Spectrogram SpectrogramFiles Terms Filter JsonFiles.
From Verif.Spec Require Import TablesSpec TermsSpec JsonSpec JsonFilesSpec.
From Verif.Proofs Require Import PyFacts TableRounding TableSpectrum TermFacts JsonText JsonValues JsonCrash.
Import ListNotations.
Open Scope list_scope.
Open Scope Z_scope.

(** ** Parts *)

Lemma codes_proper s : proper_string (codes s).
Proof.
  assert (B : forall c, In c (codes s) -> 0 <= c < 256).
  { induction s as [|a s IH]; intros c I; [contradiction|]. destruct I as [<-|I]; [|auto]. split; [apply N2Z.is_nonneg|]. change 256 with (Z.of_N 256). apply N2Z.inj_lt. apply N_ascii_bounded. }
  split; [intros c I; specialize (B c I); lia|]. intros p a b q E H. assert (A := B a). rewrite E in A. specialize (A ltac:(apply in_or_app; right; now left)). unfold high_surrogate in H. lia.
Qed.
Lemma uncodes_codes s : uncodes (codes s) = Ok s.
Proof.
  induction s as [|a s IH]; [reflexivity|]. cbn [codes uncodes]. assert (0 <= Z.of_N (N_of_ascii a) < 256).
  { split; [apply N2Z.is_nonneg|]. change 256 with (Z.of_N 256). apply N2Z.inj_lt. apply N_ascii_bounded. }
  replace ((0 <=? Z.of_N (N_of_ascii a)) && (Z.of_N (N_of_ascii a) <? 256)) with true by lia. rewrite IH. cbn [bind]. now rewrite N2Z.id, ascii_N_embedding.
Qed.
Lemma codes_inj a b : codes a = codes b -> a = b.
Proof. intros E. pose proof (uncodes_codes a) as A. rewrite E, uncodes_codes in A. now injection A. Qed.
Lemma same_key_codes a b : same_key (codes a) (codes b) = String.eqb a b.
Proof.
  unfold same_key. destruct (list_eq_dec Z.eq_dec (codes a) (codes b)) as [E|N]; destruct (String.eqb_spec a b) as [->|M]; [reflexivity| |now elim N|reflexivity].
  apply codes_inj in E. contradiction.
Qed.

Lemma sequence_inverse {Y W} (f : Y -> W) (g : W -> result Y) l : (forall y, In y l -> g (f y) = Ok y) -> sequence (map g (map f l)) = Ok l.
Proof. intros H. induction l as [|y l IH]; [reflexivity|]. cbn. rewrite H by now left. rewrite IH by (intros; apply H; now right). reflexivity. Qed.

Section Parts.
Context {N : Type}.
Variable D : N -> Prop.
Notation json := (json N).
Notation proper := (@proper_json N D).

Definition fine (v : json) : Prop := proper v /\ complete v.

Lemma list_round {Y} (f : Y -> json) (g : json -> result Y) l : (forall y, In y l -> g (f y) = Ok y) -> json_list g (list_json f l) = Ok l.
Proof. intros H. unfold json_list, list_json. now apply sequence_inverse. Qed.
Lemma list_fine {Y} (f : Y -> json) l : (forall y, In y l -> fine (f y)) -> fine (list_json f l).
Proof.
  intros H. unfold list_json. split; [apply proper_list|apply complete_list]; apply Forall_map, Forall_forall; intros y I; now apply H.
Qed.
Lemma string_round s : json_string (string_json s : json) = Ok s.
Proof. apply uncodes_codes. Qed.
Lemma string_fine s : fine (string_json s).
Proof. split; [apply codes_proper|exact I]. Qed.
Lemma strings_fine l : fine (list_json string_json l).
Proof. apply list_fine. intros. apply string_fine. Qed.
Lemma strings_round l : json_list json_string (list_json string_json l : json) = Ok l.
Proof. apply list_round. intros. apply string_round. Qed.
Lemma dict_fine (l : list (string * json)) : NoDup (map fst l) -> Forall (fun e => fine (snd e)) l -> fine (JDict (map (fun e => (codes (fst e), snd e)) l)).
Proof.
  intros ND FL. split.
  - apply (proj2 (proper_dict D (fun _ => None) _)). rewrite map_map. cbn [fst]. split.
    + rewrite <- (map_map fst codes). apply FinFun.Injective_map_NoDup; [intros a b; apply codes_inj|exact ND].
    + apply Forall_map. revert FL. apply Forall_impl. intros e [P _]. cbn [fst snd]. split; [apply codes_proper|exact P].
  - apply complete_dict. apply Forall_map. revert FL. apply Forall_impl. intros e [_ C]. exact C.
Qed.
Lemma field_some {Y} key (f : json -> result Y) l v x : find (codes key) l = Some v -> f v = Ok x -> field key f l = Ok (Some x).
Proof. intros E G. unfold field. now rewrite E, G. Qed.
Lemma int_fine z : fine (JInt z).
Proof. split; exact I. Qed.
End Parts.

Ltac keys := cbn [map fst app]; repeat (apply NoDup_cons; [cbn [In]; intuition discriminate|]); apply NoDup_nil.

(** ** Signals, spectrums and spectrograms *)

Section Data.
Variable D : Q -> Prop.
Variable show : Q -> list Z.
Variable read : list Z -> option Q.
Hypothesis F : faithful D show read.

Lemma number_fine x : D x -> fine D (number_json x).
Proof. intros H. split; [exact H|exact I]. Qed.
Lemma samples_fine l : Forall D l -> fine D (list_json (sample_json true) l).
Proof. intros H. apply list_fine. intros y I. rewrite Forall_forall in H. now apply number_fine, H. Qed.
Lemma samples_round l : json_list json_number (list_json (sample_json true) l) = Ok l.
Proof. apply list_round. reflexivity. Qed.

Lemma signal_json_keys double c r o s : signal_json double (SignalDictionary (Some c) (Some r) (Some o) (Some s)) =
  JDict (map (fun e => (codes (fst e), snd e)) [("channels"%string, list_json (list_json (sample_json double)) c); ("sampling_rate"%string, number_json r); ("offset"%string, JInt o);
    ("labels"%string, list_json string_json s)]).
Proof. reflexivity. Qed.

Lemma signal_fine s : signal_floats D s -> fine D (signal_json true (signal_as_dict s)).
Proof.
  intros [SF SR].
  unfold signal_as_dict. rewrite signal_json_keys. apply dict_fine; [keys|]. repeat apply Forall_cons; cbn [snd].
    - apply list_fine. intros r I. rewrite Forall_forall in SF. now apply samples_fine, SF.
    - now apply number_fine.
    - apply int_fine.
    - apply strings_fine.
    - apply Forall_nil.
Qed.

Theorem signal_file junk s : signal_floats D s -> wf_signal s -> 1 <= count s ->
  exists text, save_signal show true s = (text, None) /\ load_signal read junk text = Ok s.
Proof.
  intros [SF SR] W C. assert (FI := signal_fine s (conj SF SR)).
  destruct (load_dump D show read F _ (proj1 FI) (proj2 FI)) as [S L]. unfold save_signal, load_signal. exists (fst (dump show (signal_json true (signal_as_dict s)))).
  split; [rewrite <- S; now destruct (dump _ _)|]. rewrite L. cbn [bind].
  assert (J : json_signal (signal_json true (signal_as_dict s)) = Ok (signal_as_dict s)).
  { unfold signal_as_dict. rewrite signal_json_keys. unfold json_signal.
    erewrite (field_some "channels"); [|reflexivity|exact (list_round _ _ _ (fun y _ => samples_round y))]. cbn [bind].
    erewrite (field_some "sampling_rate"); [|reflexivity|exact (eq_refl : json_number (number_json (sampling_rate s)) = Ok _)]. cbn [bind].
    erewrite (field_some "offset"); [|reflexivity|exact (eq_refl : json_int (JInt (offset s)) = Ok _)]. cbn [bind].
    erewrite (field_some "labels"); [|reflexivity|exact (strings_round (labels s))]. cbn [bind]. reflexivity. }
  rewrite J. cbn [bind]. now apply signal_dictionary.
Qed.

Lemma signal_incomplete s r x : In r (rows (channels s)) -> In x r -> ~ complete (signal_json false (signal_as_dict s)).
Proof.
  intros R IX C. unfold signal_as_dict in C. rewrite signal_json_keys in C. apply complete_dict in C. cbn [map fst snd] in C. inversion C as [|? ? C1 _]; subst. cbn [snd] in C1.
  apply complete_list in C1. rewrite Forall_map, Forall_forall in C1. specialize (C1 r R). apply complete_list in C1. rewrite Forall_map, Forall_forall in C1. exact (C1 x IX).
Qed.
Lemma other_samples l : @proper_json Q D (list_json (sample_json false) l).
Proof. apply proper_list. apply Forall_map, Forall_forall. intros; exact I. Qed.
Theorem signal_failure junk s r x : In r (rows (channels s)) -> In x r -> D (sampling_rate s) ->
  exists text, save_signal show false s = (text, Some TypeError) /\ load_signal read junk text = Err ValueError.
Proof.
  intros R IX DS. assert (P : proper_json D (signal_json false (signal_as_dict s))).
  { unfold signal_as_dict. rewrite signal_json_keys. apply (proj2 (proper_dict D (fun _ => None) _)). split.
    - rewrite map_map. cbn [fst]. rewrite <- (map_map fst codes). apply FinFun.Injective_map_NoDup; [intros a b; apply codes_inj|keys].
    - apply Forall_map. repeat apply Forall_cons; cbn [fst snd]; try apply Forall_nil; (split; [apply codes_proper|]).
      + apply proper_list. apply Forall_map, Forall_forall. intros; apply other_samples.
      + exact DS.
      + exact I.
      + apply strings_fine. }
  destruct (dump_failure D show read F _ P (signal_incomplete s r x R IX)) as [S L]. unfold save_signal, load_signal. exists (fst (dump show (signal_json false (signal_as_dict s)))).
  split; [rewrite <- S; now destruct (dump _ _)|]. now rewrite L.
Qed.

Lemma parts_fine {Y} (f : Y -> json Q) c : fine D (f (fst c)) -> fine D (f (snd c)) -> fine D (parts_json f c).
Proof.
  intros A B. change (parts_json f c) with (JDict (map (fun e => (codes (fst e), snd e)) [("real"%string, f (fst c)); ("imaginary"%string, f (snd c))])).
  apply dict_fine; [keys|]. repeat apply Forall_cons; auto.
Qed.
Lemma parts_round {Y} (f : Y -> json Q) g c : g (f (fst c)) = Ok (fst c) -> g (f (snd c)) = Ok (snd c) -> json_parts g (parts_json f c) = Ok c.
Proof.
  intros A B. unfold parts_json, json_parts. change (find (codes "real") _) with (Some (f (fst c))). change (find (codes "imaginary") _) with (Some (f (snd c))). cbv iota beta. rewrite A. cbn [bind]. rewrite B. cbn [bind].
  now destruct c.
Qed.

Lemma spectrum_json_keys double c r s : spectrum_json double (SpectrumDictionary (Some c) (Some r) (Some s)) =
  JDict (map (fun e => (codes (fst e), snd e)) [("channels"%string, list_json (parts_json (list_json (sample_json double))) c); ("resolution"%string, number_json r);
    ("labels"%string, list_json string_json s)]).
Proof. reflexivity. Qed.

Lemma spectrum_fine s : spectrum_floats D s -> fine D (spectrum_json true (spectrum_as_dict s)).
Proof.
  intros [SF SR].
  unfold spectrum_as_dict. rewrite spectrum_json_keys. apply dict_fine; [keys|]. repeat apply Forall_cons; cbn [snd].
    - apply list_fine. intros p I. apply in_map_iff in I. destruct I as (r & <- & I). rewrite Forall_forall in SF. specialize (SF r I). cbn [fst snd].
      apply parts_fine; apply samples_fine; apply Forall_map; (eapply Forall_impl; [|exact SF]); intros z HZ; apply HZ.
    - now apply number_fine.
    - apply strings_fine.
    - apply Forall_nil.
Qed.

Theorem spectrum_file junk s : spectrum_floats D s -> wf_spectrum s -> 1 <= sp_count s -> 1 <= sp_length s ->
  exists text t, save_spectrum show true s = (text, None) /\ load_spectrum read junk text = Ok t /\ same_spectrum same_complex s t /\ sp_labels t = sp_labels s.
Proof.
  intros [SF SR] W C LN. assert (FI := spectrum_fine s (conj SF SR)).
  destruct (load_dump D show read F _ (proj1 FI) (proj2 FI)) as [S L]. destruct (spectrum_dictionary junk s W C LN) as (t & R & T). exists (fst (dump show (spectrum_json true (spectrum_as_dict s)))), t.
  split; [unfold save_spectrum; rewrite <- S; now destruct (dump _ _)|]. split; [|exact T]. unfold load_spectrum. rewrite L. cbn [bind].
  assert (J : json_spectrum (spectrum_json true (spectrum_as_dict s)) = Ok (spectrum_as_dict s)).
  { unfold spectrum_as_dict. rewrite spectrum_json_keys. unfold json_spectrum.
    erewrite (field_some "channels"); [|reflexivity|exact (list_round _ _ _ (fun y _ => parts_round _ _ y (samples_round _) (samples_round _)))]. cbn [bind].
    erewrite (field_some "resolution"); [|reflexivity|exact (eq_refl : json_number (number_json (resolution s)) = Ok _)]. cbn [bind].
    erewrite (field_some "labels"); [|reflexivity|exact (strings_round (sp_labels s))]. cbn [bind]. reflexivity. }
  rewrite J. exact R.
Qed.

Lemma spectrogram_json_keys double c r f o s : spectrogram_json double (SpectrogramDictionary (Some c) (Some r) (Some f) (Some o) (Some s)) =
  JDict (map (fun e => (codes (fst e), snd e)) [("channels"%string, list_json (parts_json (list_json (list_json (sample_json double)))) c); ("resolution"%string, number_json r);
    ("sampling_rate"%string, number_json f); ("offset"%string, JInt o); ("labels"%string, list_json string_json s)]).
Proof. reflexivity. Qed.

Theorem spectrogram_file {K} (real imag : K -> Q) s : spectrogram_floats D real imag s ->
  exists text, dump show (spectrogram_json true (spectrogram_as_dict real imag s)) = (text, None) /\
    (v <- load read text ;; json_spectrogram v) = Ok (spectrogram_as_dict real imag s).
Proof.
  intros (SF & SR & SA). assert (T : forall (f : K -> Q) i, (f = real \/ f = imag) -> fine D (list_json (list_json (sample_json true)) (tuples f (sg_channels s) i))).
  { intros f i FF. apply list_fine. intros r I. unfold tuples in I. apply in_map_iff in I. destruct I as (j & <- & _). apply samples_fine. apply Forall_forall. intros x X.
    apply in_flat_map in X. destruct X as (k & _ & X). destruct (cell (sg_channels s) i j k) as [y|] eqn:E; [|contradiction]. destruct X as [<-|[]]. destruct FF as [-> | ->]; apply (SF _ _ _ _ E). }
  assert (FI : fine D (spectrogram_json true (spectrogram_as_dict real imag s))).
  { unfold spectrogram_as_dict. rewrite spectrogram_json_keys. apply dict_fine; [keys|]. repeat apply Forall_cons; cbn [snd].
    - apply list_fine. intros p I. apply in_map_iff in I. destruct I as (i & <- & _). apply parts_fine; apply T; auto.
    - now apply number_fine.
    - now apply number_fine.
    - apply int_fine.
    - apply strings_fine.
    - apply Forall_nil. }
  destruct (load_dump D show read F _ (proj1 FI) (proj2 FI)) as [S L]. exists (fst (dump show (spectrogram_json true (spectrogram_as_dict real imag s)))).
  split; [rewrite <- S; now destruct (dump _ _)|]. rewrite L. cbn [bind].
  unfold spectrogram_as_dict. rewrite spectrogram_json_keys. unfold json_spectrogram.
  erewrite (field_some "channels"); [|reflexivity|exact (list_round _ _ _ (fun y _ => parts_round _ _ y (list_round _ _ _ (fun y _ => samples_round y)) (list_round _ _ _ (fun y _ => samples_round y))))]. cbn [bind].
  erewrite (field_some "resolution"); [|reflexivity|exact (eq_refl : json_number (number_json (sg_resolution s)) = Ok _)]. cbn [bind].
  erewrite (field_some "sampling_rate"); [|reflexivity|exact (eq_refl : json_number (number_json (sg_rate s)) = Ok _)]. cbn [bind].
  erewrite (field_some "offset"); [|reflexivity|exact (eq_refl : json_int (JInt (sg_offset s)) = Ok _)]. cbn [bind].
  erewrite (field_some "labels"); [|reflexivity|exact (strings_round (sg_labels s))]. cbn [bind]. reflexivity.
Qed.

Lemma fine_crash v p q : fine D v -> container v -> fst (dump show v) = p ++ q -> q <> [] -> load read p = Err ValueError.
Proof. intros [P C] K E NQ. exact (load_truncated D show read F v p q P C K E NQ). Qed.
Theorem signal_crash junk s p q : signal_floats D s -> save_signal show true s = (p ++ q, None) -> q <> [] -> load_signal read junk p = Err ValueError.
Proof. intros H E NQ. unfold load_signal. rewrite (fine_crash _ p q (signal_fine s H) I); [reflexivity| |exact NQ]. unfold save_signal in E. now rewrite E. Qed.
Theorem spectrum_crash junk s p q : spectrum_floats D s -> save_spectrum show true s = (p ++ q, None) -> q <> [] -> load_spectrum read junk p = Err ValueError.
Proof. intros H E NQ. unfold load_spectrum. rewrite (fine_crash _ p q (spectrum_fine s H) I); [reflexivity| |exact NQ]. unfold save_spectrum in E. now rewrite E. Qed.
End Data.

(** ** Filters *)

Section Filters.
Context {N K X : Type}.
Variable D : N -> Prop.
Variable show : N -> list Z.
Variable read : list Z -> option N.
Hypothesis F : faithful D show read.
Variable float_of_number : K -> option N.
Variable number_of_float : N -> K.
Variable float_of_frequency : X -> N.
Variable frequency_of_float : N -> X.
Hypothesis NF : forall x n, float_of_number x = Some n -> number_of_float n = x.
Hypothesis XF : forall x, frequency_of_float (float_of_frequency x) = x.
Variable A : arithmetic K X.
Variable complex_array : list K -> bool.
Variables real imag : K -> K.
Variable unit : K.
Notation write_data := (data_json float_of_number float_of_frequency).
Notation read_data := (json_data number_of_float frequency_of_float).
Notation dict := (as_dict complex_array real imag).
Notation real_float := (real_float D float_of_number).
Notation float_term := (@float_term N K X D float_of_number float_of_frequency complex_array real imag).

Definition good (d : @data K X) : Prop := fine D (write_data d) /\ read_data false (write_data d) = Ok d.

Lemma num_good x : real_float x -> good (DNum x).
Proof. intros (n & E & DN). unfold good. cbn [data_json]. rewrite E. split; [split; [exact DN|exact I]|]. cbn [json_data]. now rewrite (NF _ _ E). Qed.
Lemma list_good l : Forall good l -> good (DList l).
Proof.
  intros H. rewrite Forall_forall in H. split; [exact (list_fine D write_data l (fun y I => proj1 (H y I)))|]. cbn [data_json json_data].
  rewrite (sequence_inverse write_data (read_data false)) by (intros y I; now apply H). reflexivity.
Qed.
Lemma nums_good l : Forall real_float l -> good (DList (map DNum l)).
Proof. intros H. apply list_good. apply Forall_map. revert H. apply Forall_impl. apply num_good. Qed.
Lemma str_good s : good (DStr s).
Proof. split; [apply string_fine|]. cbn [data_json string_json json_data]. now rewrite uncodes_codes. Qed.
Lemma bool_good b : good (DBool b).
Proof. split; [split; exact I|reflexivity]. Qed.
Lemma int_good z : good (DInt z).
Proof. split; [split; exact I|reflexivity]. Qed.
Lemma frequencies_good l : Forall (fun x => D (float_of_frequency x)) l -> fine D (write_data (DList (map DFrequency l))) /\ read_data true (write_data (DList (map DFrequency l))) = Ok (DList (map DFrequency l)).
Proof.
  intros H. rewrite Forall_forall in H. split.
  - apply (list_fine D write_data). intros y I. apply in_map_iff in I. destruct I as (x & <- & I). split; [now apply H|exact Logic.I].
  - cbn [data_json json_data]. rewrite (sequence_inverse write_data (read_data true)); [reflexivity|]. intros y I. apply in_map_iff in I. destruct I as (x & <- & I).
    cbn [data_json json_data]. now rewrite XF.
Qed.

Definition item (e : string * @data K X) : Prop := fine D (write_data (snd e)) /\ read_data (String.eqb (fst e) "xs") (write_data (snd e)) = Ok (snd e).
Lemma item_good name d : good d -> String.eqb name "xs" = false -> item (entry name d).
Proof. intros [P R] E. split; [exact P|]. cbn [fst snd entry]. now rewrite E. Qed.
Lemma dict_good l : NoDup (map fst l) -> Forall item l -> good (DDict l).
Proof.
  intros ND H. split.
  - change (write_data (DDict l)) with (JDict (map (fun e => (codes (fst e), write_data (snd e))) l)).
    replace (map (fun e => (codes (fst e), write_data (snd e))) l) with (map (fun e : string * json N => (codes (fst e), snd e)) (map (fun e => (fst e, write_data (snd e))) l)) by now rewrite map_map.
    apply dict_fine; [rewrite map_map; exact ND|]. apply Forall_map. revert H. apply Forall_impl. intros e [P _]. exact P.
  - cbn [data_json json_data].
    rewrite (sequence_inverse (fun e => (codes (fst e), write_data (snd e))) (fun e : list Z * json N => k <- uncodes (fst e) ;; d <- read_data (String.eqb k "xs") (snd e) ;; Ok (k, d))); [reflexivity|].
    intros [k d] I. rewrite Forall_forall in H. destruct (H _ I) as [_ R]. cbn [fst snd] in *. rewrite uncodes_codes. cbn [bind]. rewrite R. reflexivity.
Qed.

Ltac dict := apply dict_good; [keys|]; repeat apply Forall_cons; try apply Forall_nil; try (apply item_good; [|reflexivity]); try apply str_good; try apply bool_good; try apply int_good.

Theorem term_good (t : term K X) : every float_term t -> good (dict t).
Proof.
  induction t as [v|c x|c x|xs ys i e|v x IH|v x IH|l x IH|a b x IHa IHb|l x IH|a b x IHa IHb] using term_induction; cbn [every float_term as_dict]; intros [H R].
  - dict. now apply num_good.
  - dict. now apply nums_good.
  - dict. now apply num_good.
  - destruct H as [HX HY]. dict.
    + split; [now apply frequencies_good|]. now apply frequencies_good.
    + destruct (complex_array ys).
      * assert (HR : Forall real_float (map real ys)) by (apply Forall_map; revert HY; apply Forall_impl; now intros y [? _]).
        assert (HI : Forall real_float (map imag ys)) by (apply Forall_map; revert HY; apply Forall_impl; now intros y [_ ?]).
        dict; [apply nums_good in HR; now rewrite map_map in HR|apply nums_good in HI; now rewrite map_map in HI].
      * now apply nums_good.
  - dict. auto.
  - dict. auto.
  - dict. apply list_good. apply Forall_map. clear H. induction IH as [|t l IT IL IH]; [constructor|]. destruct R as [RT RL]. constructor; auto.
  - destruct R. dict; auto.
  - dict. apply list_good. apply Forall_map. clear H. induction IH as [|t l IT IL IH]; [constructor|]. destruct R as [RT RL]. constructor; auto.
  - destruct R. dict; auto.
Qed.

Theorem filter_good (G : filter K X) : Forall (every float_term) (transfer_functions G) -> good (filter_as_dict complex_array real imag G).
Proof.
  intros H. unfold filter_as_dict. dict.
  - apply list_good. apply Forall_map. revert H. apply Forall_impl. apply term_good.
  - apply list_good. apply Forall_map. apply Forall_forall. intros. apply str_good.
Qed.

Theorem filter_file (G : filter K X) : Forall (every float_term) (transfer_functions G) ->
  exists text, save_filter show float_of_number float_of_frequency complex_array real imag G = (text, None) /\
    load_filter read number_of_float frequency_of_float A unit text = filter_from_dict A unit (filter_as_dict complex_array real imag G).
Proof.
  intros H. destruct (filter_good G H) as [[P C] R]. destruct (load_dump D show read F _ P C) as [S L]. eexists. split.
  - unfold save_filter. rewrite (surjective_pairing (dump show _)), S. reflexivity.
  - unfold load_filter. rewrite L. cbn [bind]. rewrite R. reflexivity.
Qed.

Theorem filter_crash (G : filter K X) p q : Forall (every float_term) (transfer_functions G) ->
  save_filter show float_of_number float_of_frequency complex_array real imag G = (p ++ q, None) -> q <> [] ->
  load_filter read number_of_float frequency_of_float A unit p = Err ValueError.
Proof.
  intros H E NQ. destruct (filter_good G H) as [[P C] _]. unfold load_filter. rewrite (load_truncated D show read F _ p q P C I); [reflexivity| |exact NQ].
  unfold save_filter in E. now rewrite E.
Qed.

(** Complex numbers *)
Definition correct (d : @data K X) : Prop := proper_json D (write_data d).
Notation number := (number D float_of_number).
Notation number_term := (@number_term N K X D float_of_number float_of_frequency real imag).
Lemma num_correct x : number x -> correct (DNum x).
Proof. intros H. unfold correct. cbn [data_json]. destruct (float_of_number x) eqn:E; [now apply H|exact I]. Qed.
Lemma list_correct l : Forall correct l -> correct (DList l).
Proof. intros H. apply proper_list. now apply Forall_map. Qed.
Lemma nums_correct l : Forall number l -> correct (DList (map DNum l)).
Proof. intros H. apply list_correct. apply Forall_map. revert H. apply Forall_impl. apply num_correct. Qed.
Lemma dict_correct l : NoDup (map fst l) -> Forall (fun e => correct (snd e)) l -> correct (DDict l).
Proof.
  intros ND H. unfold correct. change (write_data (DDict l)) with (JDict (map (fun e => (codes (fst e), write_data (snd e))) l)).
  apply (proj2 (proper_dict D (fun _ => None) _)). rewrite map_map. cbn [fst]. split.
  - rewrite <- (map_map fst codes). apply FinFun.Injective_map_NoDup; [intros a b; apply codes_inj|exact ND].
  - apply Forall_map. revert H. apply Forall_impl. intros e P. cbn [fst snd]. split; [apply codes_proper|exact P].
Qed.
Ltac dictc := apply dict_correct; [keys|]; repeat apply Forall_cons; try apply Forall_nil; cbn [snd entry]; try exact (codes_proper _); try exact I.

Theorem term_correct (t : term K X) : every number_term t -> correct (dict t).
Proof.
  induction t as [v|c x|c x|xs ys i e|v x IH|v x IH|l x IH|a b x IHa IHb|l x IH|a b x IHa IHb] using term_induction; cbn [every number_term as_dict]; intros [H R].
  - dictc. now apply num_correct.
  - dictc. now apply nums_correct.
  - dictc. now apply num_correct.
  - destruct H as [HX HY]. dictc.
    + apply list_correct. apply Forall_map. exact HX.
    + destruct (complex_array ys).
      * assert (HR : Forall number (map real ys)) by (apply Forall_map; revert HY; apply Forall_impl; now intros y (_ & ? & _)).
        assert (HI : Forall number (map imag ys)) by (apply Forall_map; revert HY; apply Forall_impl; now intros y (_ & _ & ?)).
        dictc; [apply nums_correct in HR; now rewrite map_map in HR|apply nums_correct in HI; now rewrite map_map in HI].
      * apply nums_correct. revert HY; apply Forall_impl; now intros y (? & _).
  - dictc. auto.
  - dictc. auto.
  - dictc. apply list_correct. apply Forall_map. clear H. induction IH as [|t l IT IL IH]; [constructor|]. destruct R as [RT RL]. constructor; auto.
  - destruct R. dictc; auto.
  - dictc. apply list_correct. apply Forall_map. clear H. induction IH as [|t l IT IL IH]; [constructor|]. destruct R as [RT RL]. constructor; auto.
  - destruct R. dictc; auto.
Qed.

Lemma incomplete_list (l : list (@data K X)) d : In d l -> ~ complete (write_data d) -> ~ complete (write_data (DList l)).
Proof. intros I NC C. apply complete_list in C. rewrite Forall_map, Forall_forall in C. now apply NC, C. Qed.
Lemma incomplete_dict (l : list (string * @data K X)) name d : In (name, d) l -> ~ complete (write_data d) -> ~ complete (write_data (DDict l)).
Proof. intros I NC C. apply complete_dict in C. rewrite Forall_map, Forall_forall in C. specialize (C _ I). now apply NC. Qed.
Lemma incomplete_num x : float_of_number x = None -> ~ complete (write_data (DNum x)).
Proof. intros E. cbn [data_json]. rewrite E. auto. Qed.

Theorem filter_failure (G : filter K X) t : Forall (every number_term) (transfer_functions G) -> In t (transfer_functions G) -> has_complex float_of_number t ->
  exists text, save_filter show float_of_number float_of_frequency complex_array real imag G = (text, Some TypeError) /\
    load_filter read number_of_float frequency_of_float A unit text = Err ValueError.
Proof.
  intros H IT HC. assert (P : correct (filter_as_dict complex_array real imag G)).
  { unfold filter_as_dict. dictc.
    - apply list_correct. apply Forall_map. revert H. apply Forall_impl. apply term_correct.
    - apply list_correct. apply Forall_map. apply Forall_forall. intros. exact (codes_proper _). }
  assert (NC : ~ complete (write_data (filter_as_dict complex_array real imag G))).
  { eapply incomplete_dict; [now left|]. apply (incomplete_list _ (dict t)); [now apply in_map|]. destruct t; try contradiction; cbn [as_dict has_complex] in *.
    - eapply incomplete_dict; [right; now left|]. now apply incomplete_num.
    - eapply incomplete_dict; [right; now left|]. destruct HC as (v & I & E). apply (incomplete_list _ (DNum v)); [now apply in_map|now apply incomplete_num].
    - eapply incomplete_dict; [right; now left|]. now apply incomplete_num. }
  destruct (dump_failure D show read F _ P NC) as [S L]. eexists. split.
  - unfold save_filter. rewrite (surjective_pairing (dump show _)), S. reflexivity.
  - unfold load_filter. now rewrite L.
Qed.
End Filters.
