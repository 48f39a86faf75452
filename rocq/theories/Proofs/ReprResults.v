(** The evaluation of the representation of a filter yields what the evaluation of its dictionary yields. *)

From Coq Require Import String ZArith List Bool Lia.
From Verif.Model Require Import Py Numpy Functions Terms Filter Bands Repr.
From Verif.Spec Require Import TermsSpec FilterSpec BandsSpec ReprSpec.
From Verif.Proofs Require Import PyFacts TermFacts FilterOperators DictionaryFacts ReprParse ReprFacts.
Import ListNotations.
Open Scope list_scope.
Open Scope Z_scope.

Section Results.
Context {K X : Type}.
Variable A : arithmetic K X.
Variable finite : K -> bool.
Variable finite_frequency : X -> bool.
Variable is_array : list K -> bool.
Variable default_rate : K.
Variables default_resolution default_spectrogram_rate : X.
Notation eval_text := (eval_text A default_rate default_resolution default_spectrogram_rate).
Notation apply := (apply A default_rate default_resolution default_spectrogram_rate).
Notation token := (token (K:=K) (X:=X)).
Notation value := (Repr.value (K:=K) (X:=X)).
Notation number := (Repr.number finite).
Notation frequency := (Repr.frequency finite_frequency).
Notation repr_term := (repr_term finite finite_frequency is_array).
Notation finite_term := (finite_term finite finite_frequency).

Variable complex_array : list K -> bool.
Variables real imag : K -> K.
Variable unit : K.
Notation as_dict := (as_dict complex_array real imag).
Notation read := (term_from_dict A unit).
Notation readable := (readable A real imag unit).

Variable names : list string.
Hypothesis filter_known : In "Filter"%string names.
Hypothesis array_known : In "array"%string names.
Notation denotes := (denotes A default_rate default_resolution default_spectrogram_rate names).
Notation denotes_all := (denotes_all A default_rate default_resolution default_spectrogram_rate names).
Notation denotes_arguments := (denotes_arguments A default_rate default_resolution default_spectrogram_rate names).

Lemma apply_factory cls (vs : list (string * value)) ps : sequence (map (fun q : string * value => v <- as_parameter (snd q) ;; Ok (fst q, v)) vs) = Ok ps ->
  apply (VFactory cls) (map (fun v => (Some (fst v), snd v)) vs) = (t <- instantiate A cls ps ;; Ok (VTerm t)).
Proof. intros H. unfold Repr.apply. rewrite keywords_ok. cbn [bind]. now rewrite H. Qed.

Lemma sequence_oks {Y W} (f : Y -> result W) (g : Y -> W) l : (forall y, In y l -> f y = Ok (g y)) -> sequence (map f l) = Ok (map g l).
Proof. induction l as [|y l IH]; intros H; [reflexivity|]. cbn [map sequence]. rewrite (H y) by now left. cbn [bind]. rewrite IH; auto. intros; apply H; now right. Qed.

Lemma parameter_terms us : as_parameter (VTuple (map VTerm us) : value) = Ok (PList (map PTerm us)).
Proof. cbn [as_parameter]. rewrite map_map. now rewrite (sequence_oks _ (fun t => PTerm t)). Qed.
Lemma parameter_numbers c : as_parameter (VList (map VNum c) : value) = Ok (PList (map (fun y => PData (DNum y)) c)).
Proof. cbn [as_parameter]. rewrite map_map. now rewrite (sequence_oks _ (fun y => PData (DNum y))). Qed.

Lemma ok_true {Y} (r : result Y) y : r = Ok y -> ok r = true. Proof. now intros ->. Qed.

Lemma array_numbers c : new_array (VList (map VNum c) : value) = Ok (VArray1 c).
Proof.
  assert (E : as_sequence as_number (VList (map VNum c) : value) = Ok c).
  { cbn [as_sequence]. rewrite map_map. rewrite (sequence_oks _ (fun x => x)) by reflexivity. now rewrite map_id. }
  unfold new_array. now rewrite E.
Qed.
Lemma array_frequencies c : new_array (VList (map VFreq c) : value) = Ok (match c with [] => VArray1 [] | _ => VFrequencies c end).
Proof.
  destruct c as [|x c]; [reflexivity|].
  assert (E : as_sequence as_frequency (VList (map VFreq (x :: c)) : value) = Ok (x :: c)).
  { cbn [as_sequence]. rewrite map_map. rewrite (sequence_oks _ (fun x => x)) by reflexivity. now rewrite map_id. }
  unfold new_array. rewrite E. reflexivity.
Qed.

Lemma denotes_numbers c : all_finite finite c -> denotes (repr_list (map number c)) (Ok (VList (map VNum c))).
Proof. intros F. apply denotes_list, denotes_map. intros y I. apply denotes_number. auto. Qed.
Lemma denotes_number_array c : all_finite finite c -> denotes (repr_array (repr_list (map number c))) (Ok (VArray1 c)).
Proof. intros F. rewrite <- array_numbers. apply denotes_array; auto. apply denotes_map. intros y I. apply denotes_number. auto. Qed.
Lemma denotes_frequency_array c : all_finite_frequencies finite_frequency c ->
  denotes (repr_array (repr_list (map frequency c))) (Ok (match c with [] => VArray1 [] | _ => VFrequencies c end)).
Proof. intros F. rewrite <- array_frequencies. apply denotes_array; auto. apply denotes_map. intros y I. apply denotes_frequency. auto. Qed.

Lemma arguments_cons n l v ps vs : denotes l (Ok v) -> denotes_arguments ps vs -> denotes_arguments ((n, l) :: ps) ((n, v) :: vs).
Proof. intros D H. constructor; auto. Qed.
Lemma arguments_nil : denotes_arguments [] []. Proof. constructor. Qed.
Hint Resolve arguments_cons arguments_nil denotes_number denotes_boolean denotes_int denotes_numbers denotes_number_array denotes_frequency_array : repr.

(** The evaluation of the representation with the arguments [ps] *)
Lemma factory_ok cls ps vs qs u : In cls factories -> denotes_arguments ps vs ->
  sequence (map (fun q : string * value => v <- as_parameter (snd q) ;; Ok (fst q, v)) vs) = Ok qs -> instantiate A cls qs = Ok u ->
  denotes (factory cls (map named ps)) (Ok (VTerm u)).
Proof.
  intros I D S E. replace (Ok (VTerm u)) with (apply (VFactory cls) (map (fun v => (Some (fst v), snd v)) vs)).
  - apply denotes_factory; auto.
  - rewrite (apply_factory cls vs qs S), E. reflexivity.
Qed.

Ltac known := cbv [factories]; simpl; tauto.

Lemma term_ok t : every finite_term t -> every readable t -> exists u, read (as_dict t) = Ok u /\ denotes (repr_term t) (Ok (VTerm u)).
Proof.
  induction t as [v|c x|c x|xs ys i e|v x IHt|v x IHt|l x H|t1 t2 x IHt1 IHt2|l x H|t1 t2 x IHt1 IHt2] using term_induction; intros F R.
  - destruct F as [F _]. exists (Constant v). split; [apply read_constant|].
    apply (factory_ok "Constant" [("value"%string, number v)] [("value"%string, VNum v)] [("value"%string, PData (DNum v))]); [known|auto with repr|reflexivity|reflexivity].
  - destruct F as [F _]. eexists. split; [apply read_polynomial|].
    apply (factory_ok "Polynomial" [("coefficients", if is_array c then repr_array (repr_list (map number c)) else repr_list (map number c)); ("transform", boolean x)]%string
      [("coefficients", if is_array c then VArray1 c else VList (map VNum c)); ("transform", VBool x)]%string
      [("coefficients", PList (map (fun y => PData (DNum y)) c)); ("transform", PData (DBool x))]%string); [known| | |].
    + apply arguments_cons; [|auto with repr]. destruct (is_array c); auto with repr.
    + cbn [map sequence fst snd]. destruct (is_array c); [reflexivity|]. rewrite parameter_numbers. reflexivity.
    + change (instantiate A "Polynomial" _) with (c <- get_numbers (X:=X) (PList (map (fun y => PData (DNum y)) c)) ;; Ok (polynomial_factory (X:=X) A c x)). now rewrite get_numbers_ok.
  - destruct F as [F _]. eexists. split; [apply read_exp|].
    apply (factory_ok "Exp" [("coefficient", number c); ("transform", boolean x)]%string [("coefficient", VNum c); ("transform", VBool x)]%string
      [("coefficient", PData (DNum c)); ("transform", PData (DBool x))]%string); [known|auto with repr|reflexivity|reflexivity].
  - destruct F as [[Fx Fy] _]. destruct R as [[_ R] _]. eexists. split; [now apply read_bands|].
    apply (factory_ok "Bands" [("xs", repr_array (repr_list (map frequency xs))); ("ys", repr_array (repr_list (map number ys)));
        ("interpolation", [Int (interpolation_int i)]); ("extrapolation", [Int (interpolation_int e)])]%string
      [("xs", match xs with [] => VArray1 [] | _ => VFrequencies xs end); ("ys", VArray1 ys); ("interpolation", VInt (interpolation_int i)); ("extrapolation", VInt (interpolation_int e))]%string
      [("xs", PList (map (fun y => PData (DFrequency y)) xs)); ("ys", PList (map (fun y => PData (DNum y)) ys));
       ("interpolation", PData (DInt (interpolation_int i))); ("extrapolation", PData (DInt (interpolation_int e)))]%string); [known|auto 10 with repr| |].
    + destruct xs; reflexivity.
    + change (instantiate A "Bands" _) with
        (xs <- get_frequencies (K:=K) (PList (map (fun y => PData (DFrequency y)) xs)) ;; ys <- get_numbers (X:=X) (PList (map (fun y => PData (DNum y)) ys)) ;;
         i <- interpolation_of_int (interpolation_int i) ;; e <- interpolation_of_int (interpolation_int e) ;; Ok (bands_factory xs ys i e)).
      rewrite get_frequencies_ok. cbn [bind]. rewrite get_numbers_ok. cbn [bind]. rewrite !interpolation_of_int_int. reflexivity.
  - destruct F as [_ F]. destruct R as [_ R]. destruct (IHt F R) as (v' & Rv & Dv).
    assert (T : exists u, absolute_factory A v' x = Ok u). { unfold absolute_factory. destruct x; [|eexists; reflexivity]. destruct (invert_transform_total A v') as [w ->]. eexists. reflexivity. }
    destruct T as [u T]. exists u. rewrite (read_absolute A complex_array real imag unit v x v' Rv). split; auto.
    apply (factory_ok "Absolute" [("value", repr_term v); ("transform", boolean x)]%string [("value", VTerm v'); ("transform", VBool x)]%string
      [("value", PTerm v'); ("transform", PData (DBool x))]%string); [known|auto with repr|reflexivity|exact T].
  - destruct F as [_ F]. destruct R as [_ R]. destruct (IHt F R) as (v' & Rv & Dv).
    assert (T : exists u, negative_factory A v' x = Ok u). { unfold negative_factory. destruct x; [|apply negate_total]. destruct (invert_transform_total A v') as [w ->]. apply negate_total. }
    destruct T as [u T]. exists u. rewrite (read_negative A complex_array real imag unit v x v' Rv). split; auto.
    apply (factory_ok "Negative" [("value", repr_term v); ("transform", boolean x)]%string [("value", VTerm v'); ("transform", VBool x)]%string
      [("value", PTerm v'); ("transform", PData (DBool x))]%string); [known|auto with repr|reflexivity|exact T].
  - assert (L : exists us, Forall2 (fun t u => read (as_dict t) = Ok u) l us /\ denotes_all (map repr_term l) (map VTerm us)).
    { destruct F as [_ F]. destruct R as [_ R]. cbn [fold_right] in F, R. induction H as [|t l IH _ IHl]; [exists []; repeat constructor|].
      destruct F as [F0 F]. destruct R as [R0 R]. destruct (IH F0 R0) as (u & Ru & Du). destruct (IHl F R) as (us & Rs & Ds). exists (u :: us). split; constructor; auto. }
    destruct L as (us & Rs & Ds). destruct (sum_factory_total A us x) as [u T]. exists u. rewrite (read_sum A complex_array real imag unit l x us Rs). split; auto.
    apply (factory_ok "Sum" [("summands", repr_tuple (map repr_term l)); ("transform", boolean x)]%string [("summands", VTuple (map VTerm us)); ("transform", VBool x)]%string
      [("summands", PList (map PTerm us)); ("transform", PData (DBool x))]%string); [known| | |].
    + apply arguments_cons; [now apply denotes_tuple|auto with repr].
    + cbn [map sequence fst snd]. rewrite parameter_terms. reflexivity.
    + change (instantiate A "Sum" _) with (l <- sequence (map get_term (map PTerm us)) ;; sum_factory A l x). now rewrite get_terms_ok.
  - destruct F as [_ [F1 F2]]. destruct R as [_ [R1 R2]]. destruct (IHt1 F1 R1) as (m & Rm & Dm). destruct (IHt2 F2 R2) as (s & Rs & Ds).
    assert (T : exists u, difference_factory A m s x = Ok u).
    { unfold difference_factory, difference_factory_. destruct (is_zero A s), (is_zero A m); eauto.
      - destruct x; [apply invert_transform_total|eauto]. - apply negate_total. - destruct (equal A m s); eauto. }
    destruct T as [u T]. exists u. rewrite (read_difference A complex_array real imag unit _ _ x m s Rm Rs). split; auto.
    apply (factory_ok "Difference" [("minuend", repr_term t1); ("subtrahend", repr_term t2); ("transform", boolean x)]%string
      [("minuend", VTerm m); ("subtrahend", VTerm s); ("transform", VBool x)]%string
      [("minuend", PTerm m); ("subtrahend", PTerm s); ("transform", PData (DBool x))]%string); [known|auto with repr|reflexivity|exact T].
  - assert (L : exists us, Forall2 (fun t u => read (as_dict t) = Ok u) l us /\ denotes_all (map repr_term l) (map VTerm us)).
    { destruct F as [_ F]. destruct R as [_ R]. cbn [fold_right] in F, R. induction H as [|t l IH _ IHl]; [exists []; repeat constructor|].
      destruct F as [F0 F]. destruct R as [R0 R]. destruct (IH F0 R0) as (u & Ru & Du). destruct (IHl F R) as (us & Rs & Ds). exists (u :: us). split; constructor; auto. }
    destruct L as (us & Rs & Ds). destruct (product_factory_total A us x) as [u T]. exists u. rewrite (read_product A complex_array real imag unit l x us Rs). split; auto.
    apply (factory_ok "Product" [("factors", repr_tuple (map repr_term l)); ("transform", boolean x)]%string [("factors", VTuple (map VTerm us)); ("transform", VBool x)]%string
      [("factors", PList (map PTerm us)); ("transform", PData (DBool x))]%string); [known| | |].
    + apply arguments_cons; [now apply denotes_tuple|auto with repr].
    + cbn [map sequence fst snd]. rewrite parameter_terms. reflexivity.
    + change (instantiate A "Product" _) with (l <- sequence (map get_term (map PTerm us)) ;; product_factory A l x). now rewrite get_terms_ok.
  - destruct F as [_ [F1 F2]]. destruct R as [_ [R1 R2]]. destruct (IHt1 F1 R1) as (a & Ra & Da). destruct (IHt2 F2 R2) as (b & Rb & Db).
    exists (quotient_factory A a b x). rewrite (read_quotient A complex_array real imag unit _ _ x a b Ra Rb). split; auto.
    apply (factory_ok "Quotient" [("numerator", repr_term t1); ("denominator", repr_term t2); ("transform", boolean x)]%string
      [("numerator", VTerm a); ("denominator", VTerm b); ("transform", VBool x)]%string
      [("numerator", PTerm a); ("denominator", PTerm b); ("transform", PData (DBool x))]%string); [known|auto with repr|reflexivity|reflexivity].
Qed.

Lemma terms_ok l : Forall (every finite_term) l -> Forall (every readable) l ->
  exists us, sequence (map read (map as_dict l)) = Ok us /\ denotes_all (map repr_term l) (map VTerm us).
Proof.
  induction l as [|t l IH]; intros F R; [exists []; repeat constructor|]. inversion_clear F as [|? ? F0 F1]. inversion_clear R as [|? ? R0 R1].
  destruct (term_ok t F0 R0) as (u & E & D). destruct (IH F1 R1) as (us & Es & Ds). exists (u :: us). cbn [map sequence]. rewrite E. cbn [bind]. rewrite Es.
  split; [reflexivity|constructor; auto].
Qed.

Lemma terms_back (us : list (term K X)) : as_sequence as_term (VTuple (map VTerm us) : value) = Ok us.
Proof. cbn [as_sequence]. rewrite map_map, (sequence_oks _ (fun t => t)) by reflexivity. now rewrite map_id. Qed.
Lemma strings_back (l : list string) : as_labels (VTuple (map VStr l) : value) = Ok l.
Proof. unfold as_labels. cbn [as_sequence]. rewrite map_map, (sequence_oks _ (fun t => t)) by reflexivity. now rewrite map_id. Qed.

Lemma filter_ok (F : filter K X) : Forall (every finite_term) (transfer_functions F) -> Forall (every readable) (transfer_functions F) ->
  exists G, filter_from_dict A unit (filter_as_dict complex_array real imag F) = Ok G /\
    eval_text names (repr_filter finite finite_frequency is_array "Filter" F) = Ok (VFilter G).
Proof.
  intros H R. destruct (terms_ok _ H R) as (us & E & D). exists (mk_filter us (f_labels F)). split.
  { change (filter_from_dict A unit (filter_as_dict complex_array real imag F)) with
      (t <- sequence (map read (map as_dict (transfer_functions F))) ;;
       s <- sequence (map (fun d : @data K X => match d with DStr s => Ok s | _ => Err TypeError end) (map DStr (f_labels F))) ;; Ok (mk_filter t s)).
    rewrite E. cbn [bind]. rewrite map_map, (sequence_oks _ (fun s => s)) by reflexivity. now rewrite map_id. }
  apply denotes_text. set (vs := [("transfer_functions", VTuple (map VTerm us)); ("labels", VTuple (map VStr (f_labels F)))]%string : list (string * value)).
  replace (Ok (VFilter (mk_filter us (f_labels F)))) with (apply (VClass "Filter") (map (fun v => (Some (fst v), snd v)) vs)).
  - apply (denotes_class A default_rate default_resolution default_spectrogram_rate names "Filter"
      [("transfer_functions", repr_tuple (map repr_term (transfer_functions F))); ("labels", repr_labels (f_labels F))]%string); auto.
    apply arguments_cons; [now apply denotes_tuple|]. apply arguments_cons; [apply denotes_labels|constructor].
  - unfold Repr.apply. rewrite keywords_ok. cbn [bind].
    change (match lookup "Filter" derived_classes with Some names => _ <- check_keywords names vs ;; Ok (VObject "Filter" vs) | None => _ end) with
      (t <- as_sequence as_term (VTuple (map VTerm us) : value) ;; l <- as_labels (VTuple (map VStr (f_labels F)) : value) ;; Ok (VFilter (mk_filter t l))).
    rewrite terms_back. cbn [bind]. now rewrite strings_back.
Qed.

End Results.
