(** What the evaluation of the representations of bands filters, signals, spectrums and spectrograms yields. *)

From Coq Require Import String ZArith List Bool Lia ZifyBool.
From Verif.Model Require Import Py Numpy Functions Signal Spectrum Cube Spectrogram Terms Filter Bands SpectrogramFiles Repr.
From Verif.Spec Require Import TermsSpec FilterSpec BandsSpec SpectrogramFilesSpec ReprSpec.
From Verif.Proofs Require Import PyFacts NumpyFacts CubeFacts SignalHelpers SignalAlgebra TermFacts BandsClass DictionaryFacts SpectrogramFilesFacts ReprParse ReprFacts ReprResults.
Import ListNotations.
Open Scope list_scope.
Open Scope Z_scope.

Section Data.
Context {K X : Type}.
Variable A : arithmetic K X.
Variable finite : K -> bool.
Variable finite_frequency : X -> bool.
Variable default_rate : K.
Variables default_resolution default_spectrogram_rate : X.
Notation eval_text := (eval_text A default_rate default_resolution default_spectrogram_rate).
Notation apply := (apply A default_rate default_resolution default_spectrogram_rate).
Notation token := (token (K:=K) (X:=X)).
Notation value := (Repr.value (K:=K) (X:=X)).
Notation number := (Repr.number (X:=X) finite).
Notation frequency := (Repr.frequency (K:=K) finite_frequency).

Variable names : list string.
Notation denotes := (denotes A default_rate default_resolution default_spectrogram_rate names).
Notation denotes_all := (denotes_all A default_rate default_resolution default_spectrogram_rate names).
Notation denotes_arguments := (denotes_arguments A default_rate default_resolution default_spectrogram_rate names).

(** The call of a class *)
Lemma class_ok cls ps vs r : In cls names -> existsb (String.eqb cls) ["True"; "False"; "array"; "float64"; "complex128"]%string = false ->
  denotes_arguments ps vs -> apply (VClass cls) (map (fun v => (Some (fst v), snd v)) vs) = r -> eval_text names (repr_call [Name cls] (map named ps)) = r.
Proof. intros I J D <-. apply denotes_text. now apply denotes_class. Qed.

(** ** Bands filters *)

Lemma dict_set_new (d : list (X * K)) f y : (forall g, In g (map fst d) -> x_eqb A g f = false) -> dict_set A d f y = d ++ [(f, y)].
Proof.
  induction d as [|[g z] d IH]; intros H; [reflexivity|]. cbn [dict_set app]. rewrite (H g) by (now left). f_equal. apply IH. intros; apply H; now right.
Qed.

Hypothesis OA : ordered A.

Lemma dictionary_back (d : list (X * K)) : dictionary d -> as_dictionary A (VDict (map (fun p => (VFreq (fst p), VNum (snd p))) d) : value) = Ok d.
Proof.
  intros D. cbn [as_dictionary].
  assert (G : forall d0, dictionary (d0 ++ d) ->
    for_each (map (fun p => (VFreq (fst p), VNum (snd p)) : value * value) d) (fun d p => f <- as_frequency (fst p) ;; y <- as_number (snd p) ;; Ok (dict_set A d f y)) d0 = Ok (d0 ++ d)).
  { clear D. induction d as [|[f y] d IH]; intros d0 D; [now rewrite app_nil_r|]. cbn [map for_each fst snd as_frequency as_number bind].
    rewrite dict_set_new.
    - change ((f, y) :: d) with ([(f, y)] ++ d) in *. rewrite app_assoc in *. apply IH. exact D.
    - intros g I. apply x_eqb_neq; auto. intros ->. unfold dictionary in D. rewrite map_app in D. cbn [map fst] in D. apply NoDup_remove_2 in D. apply D, in_or_app. now left. }
  apply (G [] D).
Qed.

Lemma flags_back (l : list interpolation) : as_flags (VList (map (fun i => VInt (interpolation_int i)) l) : value) = Ok (Flags l).
Proof.
  unfold as_flags. cbn [as_sequence]. rewrite map_map, (sequence_oks _ interpolation_int) by reflexivity. cbn [bind].
  rewrite map_map, (sequence_oks _ (fun i => i)) by (intros; apply interpolation_of_int_int). now rewrite map_id.
Qed.

Lemma flags_some f n l : 0 < n -> extended_flags f n = Ok l -> some_flag f.
Proof.
  intros N E. destruct f as [j|[|j l']]; cbn [some_flag]; try easy. cbn [extended_flags] in E. change (zlen (@nil interpolation)) with 0 in E.
  replace (0 <? n) with true in E by lia. discriminate.
Qed.

Lemma remade b i e labels B : Forall dictionary b -> mk_bands A b i e labels = Ok B ->
  b_bands B = b /\ mk_bands A (b_bands B) (Flags (b_interpolations B)) (Flags (b_extrapolations B)) (f_labels (b_filter B)) = Ok B.
Proof.
  intros D E. assert (S : zlen b = 0 \/ some_flag i /\ some_flag e).
  { destruct (Z.eq_dec (zlen b) 0) as [Z0|Z0]; [now left|]. right. pose proof (zlen_nonneg b).
    unfold mk_bands, dict in E. destruct (extended_flags i (zlen b)) as [il|] eqn:Ei; cbn [bind] in E; [|discriminate].
    destruct (extended_flags e (zlen b)) as [el|] eqn:Ee; cbn [bind] in E; [|discriminate].
    split; eapply flags_some; eauto; lia. }
  destruct (mk_bands_ok A OA b i e labels D S) as (B1 & E1 & M1). rewrite E in E1. injection E1 as <-.
  destruct M1 as (C1 & Eb & L1 & I1 & X1 & M1). split; auto. rewrite Eb.
  assert (S2 : zlen b = 0 \/ some_flag (Flags (b_interpolations B)) /\ some_flag (Flags (b_extrapolations B))).
  { destruct S as [S|_]; [now left|]. destruct (Z.eq_dec (zlen b) 0) as [Z0|Z0]; [now left|]. right. cbn.
    split; intros N; rewrite N in *; change (zlen (@nil interpolation)) with 0 in *; lia. }
  destruct (mk_bands_ok A OA b _ _ (f_labels (b_filter B)) D S2) as (B2 & E2 & (C2 & Eb2 & L2 & I2 & X2 & M2)). rewrite E2. f_equal.
  assert (H : forall c d, zth b c = Some d ->
     zth (transfer_functions (b_filter B2)) c = zth (transfer_functions (b_filter B)) c /\ zth (f_labels (b_filter B2)) c = zth (f_labels (b_filter B)) c /\
     zth (b_interpolations B2) c = zth (b_interpolations B) c /\ zth (b_extrapolations B2) c = zth (b_extrapolations B) c).
  { intros c d Hd. pose proof (zth_range _ _ _ Hd) as Rg. destruct (M1 c d Hd) as (ic & ec & t & l & _ & _ & _ & T1 & S1 & N1 & F1 & G1).
    destruct (M2 c d Hd) as (ic' & ec' & t' & l' & F2 & G2 & H2 & T2 & S1' & N2 & F2' & G2').
    cbn [flag_of] in F2, G2. rewrite I1 in F2. rewrite X1 in G2. replace (Z.min c (zlen b - 1)) with c in F2, G2 by lia.
    rewrite F1 in F2. injection F2 as <-. rewrite G1 in G2. injection G2 as <-.
    assert (t' = t) as -> by (eapply supported_unique; eauto).
    assert (l' = l) as ->. { destruct H2 as [H2|[H2 _]]; [congruence|lia]. }
    rewrite T1, T2, N1, N2, F1, F2', G1, G2'. auto. }
  assert (Ext : forall {Y} (l m : list Y), zlen l = zlen b -> zlen m = zlen b -> (forall c d, zth b c = Some d -> zth l c = zth m c) -> l = m).
  { intros Y l m Hl Hm Hlm. apply zth_ext_in; [lia|]. intros c Hc. destruct (zth_in b c) as [d Hd]; [lia|]. eauto. }
  destruct B as [F b1 i1 e1], B2 as [F2 b2 i2 e2]. destruct F as [tf lb], F2 as [tf2 lb2]. cbn [b_filter b_bands b_interpolations b_extrapolations transfer_functions f_labels f_count] in *. unfold f_count in *. cbn [transfer_functions] in *.
  f_equal; [f_equal|congruence| |]; apply Ext; auto; intros c d Hd; apply (H c d Hd).
Qed.

Lemma bands_ok b i e labels B : In "Bands"%string names -> Forall dictionary b -> mk_bands A b i e labels = Ok B -> finite_bands finite finite_frequency b ->
  eval_text names (repr_bands finite finite_frequency B) = Ok (VBands B).
Proof.
  intros I D E F. destruct (remade b i e labels B D E) as [Eb R]. rewrite <- Eb in D, F.
  apply (class_ok "Bands" [("bands", repr_tuple (map (fun d => repr_dict (map (fun p => (frequency (fst p), number (snd p))) d)) (b_bands B)));
     ("interpolations", repr_list (map (fun i => [Int (interpolation_int i)]) (b_interpolations B)));
     ("extrapolations", repr_list (map (fun i => [Int (interpolation_int i)]) (b_extrapolations B))); ("labels", repr_labels (f_labels (b_filter B)))]%string
    [("bands", VTuple (map (fun d => VDict (map (fun p => (VFreq (fst p), VNum (snd p))) d)) (b_bands B)));
     ("interpolations", VList (map (fun i => VInt (interpolation_int i)) (b_interpolations B)));
     ("extrapolations", VList (map (fun i => VInt (interpolation_int i)) (b_extrapolations B))); ("labels", VTuple (map VStr (f_labels (b_filter B))))]%string); auto.
  - apply arguments_cons.
    { apply denotes_tuple, denotes_map. intros d Id. apply denotes_dict. clear -F Id. assert (G : forall p, In p d -> finite_frequency (fst p) = true /\ finite (snd p) = true) by (intros [f y] Ip; now apply (F d)).
      clear F Id. induction d as [|p d IH]; constructor; [|apply IH; intros; apply G; now right]. destruct (G p) as [G1 G2]; [now left|].
      split; [now apply denotes_frequency|now apply denotes_number]. }
    apply arguments_cons; [apply denotes_list, denotes_map; intros; apply denotes_int|]. apply arguments_cons; [apply denotes_list, denotes_map; intros; apply denotes_int|].
    apply arguments_cons; [apply denotes_labels|constructor].
  - unfold Repr.apply. rewrite keywords_ok. cbn [bind].
    change (match lookup "Bands" derived_classes with Some names => _ | None => _ end) with
      (b <- as_sequence (as_dictionary A) (VTuple (map (fun d => VDict (map (fun p => (VFreq (fst p), VNum (snd p))) d)) (b_bands B)) : value) ;;
       i <- as_flags (VList (map (fun i => VInt (interpolation_int i)) (b_interpolations B)) : value) ;;
       e <- as_flags (VList (map (fun i => VInt (interpolation_int i)) (b_extrapolations B)) : value) ;;
       l <- as_labels (VTuple (map VStr (f_labels (b_filter B))) : value) ;;
       B <- mk_bands A b i e l ;; Ok (VBands B : value)).
    cbn [as_sequence]. rewrite map_map, (sequence_oks _ (fun d => d)). 2: { intros d Id. rewrite Forall_forall in D. apply dictionary_back. auto. }
    rewrite map_id. cbn [bind]. rewrite !flags_back. cbn [bind]. rewrite strings_back. cbn [bind]. now rewrite R.
Qed.

(** ** Arrays *)

Lemma numbers_back r : as_sequence as_number (VList (map VNum r) : value) = Ok r.
Proof. cbn [as_sequence]. rewrite map_map, (sequence_oks _ (fun x => x)) by reflexivity. now rewrite map_id. Qed.

Lemma table_back l : as_sequence (as_sequence as_number) (VList (map (fun r => VList (map VNum r)) l) : value) = Ok l.
Proof. cbn [as_sequence]. rewrite map_map, (sequence_oks _ (fun x => x)); [now rewrite map_id|]. intros; apply numbers_back. Qed.

Lemma block_back l : as_sequence (as_sequence (as_sequence as_number)) (VList (map (fun m => VList (map (fun r => VList (map VNum r)) m)) l) : value) = Ok l.
Proof. cbn [as_sequence]. rewrite map_map, (sequence_oks _ (fun x => x)); [now rewrite map_id|]. intros; apply table_back. Qed.

Lemma same_lengths_ok {Y} (l : list (list Y)) n : (forall r, In r l -> zlen r = n) -> same_lengths l = true /\ (l <> [] -> first_length l = n).
Proof.
  intros H. unfold same_lengths, first_length. destruct l as [|r l]; [now split|]. split; [|intros _; apply H; now left].
  apply forallb_forall. intros q I. apply Z.eqb_eq. rewrite (H q), (H r); auto; now left.
Qed.

Lemma new_array2 (l : list (list K)) n : l <> [] -> (forall r, In r l -> zlen r = n) -> new_array (VList (map (fun r => VList (map VNum r)) l) : value) = Ok (VArray2 (Arr l n)).
Proof.
  intros N H. destruct (same_lengths_ok l n H) as [S F]. unfold new_array. rewrite table_back. destruct l as [|r l]; [easy|].
  change (ok (as_sequence as_number _)) with false. change (ok (as_sequence as_frequency _)) with false. cbv iota. cbn [ok bind]. rewrite S, F; auto.
Qed.

Lemma new_array3 (l : list (list (list K))) n1 n2 : l <> [] -> 0 < n1 -> (forall m, In m l -> zlen m = n1 /\ forall r, In r m -> zlen r = n2) ->
  new_array (VList (map (fun m => VList (map (fun r => VList (map VNum r)) m)) l) : value) =
  Ok (VArray3 (Cube (zlen l) n1 n2 (fun i j k => match zth l i with Some m => match zth m j with Some r => zth r k | None => None end | None => None end))).
Proof.
  intros N N1 H. destruct (same_lengths_ok l n1) as [S F]; [intros; now apply H|].
  destruct (same_lengths_ok (concat l) n2) as [S2 F2]; [intros r I; apply in_concat in I as (m & I & J); now apply (H m)|].
  assert (C : concat l <> []). { destruct l as [|m l]; [easy|]. destruct (H m) as [Z _]; [now left|]. destruct m; [change (zlen (@nil (list K))) with 0 in Z; lia|easy]. }
  unfold new_array. rewrite block_back. destruct l as [|m l]; [easy|]. destruct (H m) as [Z _]; [now left|]. destruct m as [|r m]; [change (zlen (@nil (list K))) with 0 in Z; lia|].
  assert (T : ok (as_sequence (as_sequence as_number) (VList (map (fun m => VList (map (fun r => VList (map VNum r)) m)) ((r :: m) :: l)) : value)) = false) by reflexivity.
  rewrite T. change (ok (as_sequence as_number _)) with false. change (ok (as_sequence as_frequency _)) with false. cbv iota. cbn [bind]. rewrite S, S2, F, F2; auto.
Qed.

Hypothesis array_known : In "array"%string names.

Lemma denotes_array2 (m : arr K) : wf m -> 0 < nrows m -> 0 < cols m -> finite_array finite m -> denotes (repr_array (array2string finite m)) (Ok (VArray2 m)).
Proof.
  intros [_ W] N M F. unfold array2string. replace (nrows m =? 0) with false by lia. replace (cols m =? 0) with false by lia. cbn [orb].
  replace (Ok (VArray2 m)) with (new_array (VList (map (fun r => VList (map VNum r)) (rows m)) : value)).
  - apply denotes_array; auto. apply denotes_map. intros r I. apply denotes_list, denotes_map. intros x J. apply denotes_number.
    apply In_zth in I as [i I]. apply In_zth in J as [k J]. apply (F i k). unfold el. now rewrite I.
  - rewrite (new_array2 _ (cols m)); [now destruct m| |].
    + intros E. unfold nrows in N. rewrite E in N. change (zlen (@nil (list K))) with 0 in N. lia.
    + intros r I. rewrite Forall_forall in W. auto.
Qed.

Lemma denotes_array2_empty (m : arr K) : nrows m = 0 \/ cols m = 0 -> denotes (repr_array (array2string finite m)) (Ok (VArray1 [])).
Proof.
  intros H. unfold array2string. replace ((nrows m =? 0) || (cols m =? 0)) with true by lia.
  change (Ok (VArray1 [])) with (new_array (VList [] : value)). apply denotes_array; auto. constructor.
Qed.

Lemma denotes_array3_empty (m : cube K) : dim0 m = 0 \/ dim1 m = 0 \/ dim2 m = 0 -> denotes (repr_array (array2string3 finite m)) (Ok (VArray1 [])).
Proof.
  intros H. unfold array2string3. replace ((dim0 m =? 0) || (dim1 m =? 0) || (dim2 m =? 0)) with true by lia.
  change (Ok (VArray1 [])) with (new_array (VList [] : value)). apply denotes_array; auto. constructor.
Qed.

Lemma flat_map_map {Y W V} (g : W -> V) (f : Y -> list W) l : map g (flat_map f l) = flat_map (fun y => map g (f y)) l.
Proof. induction l as [|y l IH]; [reflexivity|]. cbn. now rewrite map_app, IH. Qed.

Lemma denotes_array3 (m : cube K) : wf_cube m -> 0 < dim0 m -> 0 < dim1 m -> 0 < dim2 m -> finite_cube finite m ->
  exists n, denotes (repr_array (array2string3 finite m)) (Ok (VArray3 n)) /\ dim0 n = dim0 m /\ dim1 n = dim1 m /\ dim2 n = dim2 m /\ forall i j k, cell n i j k = cell m i j k.
Proof.
  intros W N0 N1 N2 F. unfold array2string3. replace (dim0 m =? 0) with false by lia. replace (dim1 m =? 0) with false by lia. replace (dim2 m =? 0) with false by lia. cbn [orb].
  set (row := fun i j => flat_map (fun k => match cell m i j k with Some x => [x] | None => [] end) (zseq 0 (dim2 m))).
  set (l := map (fun i => map (row i) (zseq 0 (dim1 m))) (zseq 0 (dim0 m))).
  assert (Row : forall i j, 0 <= i < dim0 m -> 0 <= j < dim1 m -> zlen (row i j) = dim2 m /\ forall k, 0 <= k < dim2 m -> zth (row i j) k = cell m i j k).
  { intros i j I J. assert (H : forall k, 0 <= k < dim2 m -> exists x, cell m i j k = Some x) by (intros; apply cell_in; auto).
    split; [now apply (flat_len (fun x => x) (cell m i j))|]. intros k Hk. destruct (zth_flat_some (fun x => x) (cell m i j) (dim2 m) k) as [E _]; auto; [lia|].
    unfold row. rewrite E. now destruct (cell m i j k). }
  assert (Lr : forall i, zth l i = if (0 <=? i) && (i <? dim0 m) then Some (map (row i) (zseq 0 (dim1 m))) else None).
  { intros i. unfold l. rewrite zth_map, zth_seq. now destruct ((0 <=? i) && (i <? dim0 m)). }
  assert (Mr : forall i j, zth (map (row i) (zseq 0 (dim1 m))) j = if (0 <=? j) && (j <? dim1 m) then Some (row i j) else None).
  { intros i j. rewrite zth_map, zth_seq. now destruct ((0 <=? j) && (j <? dim1 m)). }
  assert (Ll : zlen l = dim0 m) by (unfold l; rewrite zlen_map, zlen_seq; lia).
  eexists. split; [|split; [|split; [|split]]].
  - rewrite <- (new_array3 l (dim1 m) (dim2 m)); auto.
    + apply denotes_array; auto. unfold l. rewrite map_map. apply denotes_map. intros i Hi. rewrite map_map. apply denotes_list, denotes_map. intros j Hj.
      replace (flat_map (fun k => match cell m i j k with Some x => [number x] | None => [] end) (zseq 0 (dim2 m))) with (map number (row i j)).
      * apply denotes_list, denotes_map. intros x Ix. apply denotes_number. unfold row in Ix. apply in_flat_map in Ix as (k & _ & Ix).
        destruct (cell m i j k) as [y|] eqn:E; [|easy]. destruct Ix as [<-|[]]. now apply F in E.
      * unfold row. rewrite flat_map_map. apply flat_map_ext. intros k. now destruct (cell m i j k).
    + intros E. rewrite E in Ll. change (zlen (@nil (list (list K)))) with 0 in Ll. lia.
    + intros t I. apply In_zth in I as [i I]. rewrite Lr in I. destruct ((0 <=? i) && (i <? dim0 m)) eqn:B; [|discriminate]. injection I as <-.
      split; [rewrite zlen_map, zlen_seq; lia|]. intros r J. apply In_zth in J as [j J]. rewrite Mr in J. destruct ((0 <=? j) && (j <? dim1 m)) eqn:B2; [|discriminate]. injection J as <-.
      apply Row; lia.
  - exact Ll.
  - reflexivity.
  - reflexivity.
  - intros i j k. cbn [cell]. rewrite Lr. destruct ((0 <=? i) && (i <? dim0 m)) eqn:Bi.
    2: { symmetry. apply cell_out; auto. lia. }
    rewrite Mr. destruct ((0 <=? j) && (j <? dim1 m)) eqn:Bj.
    2: { symmetry. apply cell_out; auto. lia. }
    destruct (Row i j) as [Z Hk]; [lia..|]. destruct ((0 <=? k) && (k <? dim2 m)) eqn:Bk; [apply Hk; lia|].
    rewrite zth_out by lia. symmetry. apply cell_out; auto. lia.
Qed.

(** ** Signals, spectrums and spectrograms *)

Lemma sanitize_empty l : sanitize_labels (Some l) 0 = [].
Proof. destruct (sanitize_labels_ok (Some l) 0) as [Z _]; [lia|]. apply zlen_zero. exact Z. Qed.
Lemma optional_labels_back l : as_optional_labels (VTuple (map VStr l) : value) = Ok (Some l).
Proof. unfold as_optional_labels. rewrite strings_back. reflexivity. Qed.

Lemma signal_text s c r : In "Signal"%string names -> denotes (repr_array (array2string finite (channels s))) (Ok c) -> finite (sampling_rate s) = true ->
  match c with VArray2 m => Ok (VSignal (mk_signal m (sampling_rate s) (offset s) (Some (labels s))))
  | VArray1 c => Ok (VFlatSignal c (sampling_rate s) (offset s) (sanitize_labels (Some (labels s)) (zlen c))) | _ => Err AttributeError end = r ->
  eval_text names (repr_signal finite "Signal" s) = r.
Proof.
  intros I D F E. apply (class_ok "Signal" [("channels", repr_array (array2string finite (channels s))); ("sampling_rate", number (sampling_rate s)); ("offset", [Int (offset s)]); ("labels", repr_labels (labels s))]%string
    [("channels", c); ("sampling_rate", VNum (sampling_rate s)); ("offset", VInt (offset s)); ("labels", VTuple (map VStr (labels s)))]%string); auto.
  - repeat (apply arguments_cons; [auto using denotes_number, denotes_int, denotes_labels|]). constructor.
  - unfold Repr.apply. rewrite keywords_ok. cbn [bind].
    change (match lookup "Signal" derived_classes with Some names => _ | None => _ end) with
      (l <- as_optional_labels (VTuple (map VStr (labels s)) : value) ;;
       match c with VArray2 m => Ok (VSignal (mk_signal m (sampling_rate s) (offset s) l))
       | VArray1 c => Ok (VFlatSignal c (sampling_rate s) (offset s) (sanitize_labels l (zlen c))) | _ => Err AttributeError end : result value).
    rewrite optional_labels_back. cbn [bind]. exact E.
Qed.

Lemma spectrum_text s c r : In "Spectrum"%string names -> denotes (repr_array (array2string finite (sp_channels s))) (Ok c) -> finite_frequency (resolution s) = true ->
  match c with VArray2 m => Ok (VSpectrum (mk_spectrum m (resolution s) (Some (sp_labels s))))
  | VArray1 c => Ok (VFlatSpectrum c (resolution s) (sanitize_labels (Some (sp_labels s)) (zlen c))) | _ => Err AttributeError end = r ->
  eval_text names (repr_spectrum finite finite_frequency "Spectrum" s) = r.
Proof.
  intros I D F E. apply (class_ok "Spectrum" [("channels", repr_array (array2string finite (sp_channels s))); ("resolution", frequency (resolution s)); ("labels", repr_labels (sp_labels s))]%string
    [("channels", c); ("resolution", VFreq (resolution s)); ("labels", VTuple (map VStr (sp_labels s)))]%string); auto.
  - repeat (apply arguments_cons; [auto using denotes_frequency, denotes_labels|]). constructor.
  - unfold Repr.apply. rewrite keywords_ok. cbn [bind].
    change (match lookup "Spectrum" derived_classes with Some names => _ | None => _ end) with
      (l <- as_optional_labels (VTuple (map VStr (sp_labels s)) : value) ;;
       match c with VArray2 m => Ok (VSpectrum (mk_spectrum m (resolution s) l))
       | VArray1 c => Ok (VFlatSpectrum c (resolution s) (sanitize_labels l (zlen c))) | _ => Err AttributeError end : result value).
    rewrite optional_labels_back. cbn [bind]. exact E.
Qed.

Lemma spectrogram_text s c r : In "Spectrogram"%string names -> denotes (repr_array (array2string3 finite (sg_channels s))) (Ok c) ->
  finite_frequency (sg_resolution s) = true -> finite_frequency (sg_rate s) = true ->
  match c with VArray3 m => Ok (VSpectrogram (mk_spectrogram m (sg_resolution s) (sg_rate s) (sg_offset s) (Some (sg_labels s))))
  | VArray1 _ => Err IndexError | _ => Err AttributeError end = r ->
  eval_text names (repr_spectrogram finite finite_frequency "Spectrogram" s) = r.
Proof.
  intros I D F G E. apply (class_ok "Spectrogram" [("channels", repr_array (array2string3 finite (sg_channels s))); ("resolution", frequency (sg_resolution s)); ("sampling_rate", frequency (sg_rate s));
      ("offset", [Int (sg_offset s)]); ("labels", repr_labels (sg_labels s))]%string
    [("channels", c); ("resolution", VFreq (sg_resolution s)); ("sampling_rate", VFreq (sg_rate s)); ("offset", VInt (sg_offset s)); ("labels", VTuple (map VStr (sg_labels s)))]%string); auto.
  - repeat (apply arguments_cons; [auto using denotes_frequency, denotes_int, denotes_labels|]). constructor.
  - unfold Repr.apply. rewrite keywords_ok. cbn [bind].
    change (match lookup "Spectrogram" derived_classes with Some names => _ | None => _ end) with
      (l <- as_optional_labels (VTuple (map VStr (sg_labels s)) : value) ;;
       match c with VArray3 m => Ok (VSpectrogram (mk_spectrogram m (sg_resolution s) (sg_rate s) (sg_offset s) l))
       | VArray1 _ => Err IndexError | _ => Err AttributeError end : result value).
    rewrite optional_labels_back. cbn [bind]. exact E.
Qed.

Lemma signal_ok s : In "Signal"%string names -> wf_signal s -> 0 < count s -> 0 < length s -> finite_array finite (channels s) -> finite (sampling_rate s) = true ->
  eval_text names (repr_signal finite "Signal" s) = Ok (VSignal s).
Proof.
  intros I [W L] N M F G. apply (signal_text s (VArray2 (channels s))); auto; [now apply denotes_array2|].
  unfold mk_signal. rewrite sanitize_same by auto. now destruct s.
Qed.
Lemma signal_empty s : In "Signal"%string names -> count s = 0 \/ length s = 0 -> finite (sampling_rate s) = true ->
  eval_text names (repr_signal finite "Signal" s) = Ok (VFlatSignal [] (sampling_rate s) (offset s) []).
Proof.
  intros I H G. apply (signal_text s (VArray1 [])); auto; [now apply denotes_array2_empty|]. do 2 f_equal. apply sanitize_empty.
Qed.

Lemma spectrum_ok s : In "Spectrum"%string names -> wf_spectrum s -> 0 < sp_count s -> 0 < sp_length s -> finite_array finite (sp_channels s) -> finite_frequency (resolution s) = true ->
  eval_text names (repr_spectrum finite finite_frequency "Spectrum" s) = Ok (VSpectrum s).
Proof.
  intros I [W L] N M F G. apply (spectrum_text s (VArray2 (sp_channels s))); auto; [now apply denotes_array2|].
  unfold mk_spectrum. rewrite sanitize_same by auto. now destruct s.
Qed.
Lemma spectrum_empty s : In "Spectrum"%string names -> sp_count s = 0 \/ sp_length s = 0 -> finite_frequency (resolution s) = true ->
  eval_text names (repr_spectrum finite finite_frequency "Spectrum" s) = Ok (VFlatSpectrum [] (resolution s) []).
Proof.
  intros I H G. apply (spectrum_text s (VArray1 [])); auto; [now apply denotes_array2_empty|]. do 2 f_equal. apply sanitize_empty.
Qed.

Lemma spectrogram_ok s : In "Spectrogram"%string names -> wf_spectrogram s -> 0 < sg_count s -> 0 < sg_frequencies s -> 0 < sg_length s ->
  finite_cube finite (sg_channels s) -> finite_frequency (sg_resolution s) = true -> finite_frequency (sg_rate s) = true ->
  exists t, eval_text names (repr_spectrogram finite finite_frequency "Spectrogram" s) = Ok (VSpectrogram t) /\ equal_spectrogram s t.
Proof.
  intros I [W L] N0 N1 N2 F G H. destruct (denotes_array3 (sg_channels s)) as (n & D & E0 & E1 & E2 & E); auto.
  eexists. split; [now apply (spectrogram_text s (VArray3 n))|].
  unfold mk_spectrogram, equal_spectrogram, sg_count, sg_frequencies, sg_length. cbn [sg_channels sg_resolution sg_rate sg_offset sg_labels].
  repeat split; auto. apply sanitize_same. rewrite E0. exact L.
Qed.
Lemma spectrogram_empty s : In "Spectrogram"%string names -> sg_count s = 0 \/ sg_frequencies s = 0 \/ sg_length s = 0 ->
  finite_frequency (sg_resolution s) = true -> finite_frequency (sg_rate s) = true ->
  eval_text names (repr_spectrogram finite finite_frequency "Spectrogram" s) = Err IndexError.
Proof. intros I H F G. apply (spectrogram_text s (VArray1 [])); auto. now apply denotes_array3_empty. Qed.

End Data.
