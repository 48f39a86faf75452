(** Merging data sets with different types *)

From Coq Require Import String ZArith List Bool Lia ZifyBool.
From Verif.Model Require Import Py Numpy Functions Signal Spectrum Cube Spectrogram Terms Filter Merge Concatenate CubeBlocks MixedBlocks.
From Verif.Spec Require Import TimeSpec FrequencySpec MergeSpec MixedSpec.
From Verif.Proofs Require Import PyFacts NumpyFacts MergeOrder MergeFacts.
Import ListNotations.
Open Scope Z_scope.

(** ** Lists *)

Lemma sequence_ok {B C} (f : B -> result C) (g : B -> C) l : (forall x, In x l -> f x = Ok (g x)) -> sequence (map f l) = Ok (map g l).
Proof.
  induction l as [| x l IH]; intros H; [reflexivity |]. cbn [map sequence]. rewrite (H x (or_introl eq_refl)). cbn [bind]. rewrite IH; [reflexivity |].
  intros y I. apply H. right. exact I.
Qed.

Lemma sequence_bad {B C} (f : B -> result C) l x e : In x l -> f x = Err e -> exists e', sequence (map f l) = Err e'.
Proof.
  induction l as [| y l IH]; intros I E; [destruct I |]. cbn [map sequence]. destruct (f y) as [b | e0] eqn:F; [| exists e0; reflexivity].
  cbn [bind]. destruct I as [-> | I]; [congruence |]. destruct (IH I E) as (e' & ->). exists e'. reflexivity.
Qed.

Lemma sequence_in {B C} (f : B -> result C) l r : sequence (map f l) = Ok r -> forall x, In x l -> exists y, f x = Ok y /\ In y r.
Proof.
  revert r. induction l as [| y l IH]; intros r E x I; [destruct I |]. cbn [map sequence] in E. destruct (f y) as [b |] eqn:F; [| discriminate].
  cbn [bind] in E. destruct (sequence (map f l)) as [r' |] eqn:G; [| discriminate]. cbn [bind] in E. injection E as <-.
  destruct I as [-> | I]; [exists b; split; [exact F | left; reflexivity] |].
  destruct (IH r' eq_refl x I) as (z & Z1 & Z2). exists z. split; [exact Z1 | right; exact Z2].
Qed.

Lemma each_map {B C S} (g : B -> C) (f : S -> C -> result S) (h : S -> B -> result S) l : (forall s x, f s (g x) = h s x) ->
  forall s, for_each (map g l) f s = for_each l h s.
Proof.
  intros H. induction l as [| x l IH]; intros s; [reflexivity |]. cbn [map for_each]. rewrite H. destruct (h s x); cbn [bind]; [apply IH | reflexivity].
Qed.

Lemma each_bad {B S} (Inv : S -> Prop) (f : S -> B -> result S) l x : (forall s y s', Inv s -> f s y = Ok s' -> Inv s') ->
  (forall s, Inv s -> exists e, f s x = Err e) -> In x l -> forall s, Inv s -> exists e, for_each l f s = Err e.
Proof.
  intros P B0. induction l as [| y l IH]; intros I s V; [destruct I |]. cbn [for_each]. destruct (f s y) as [s' | e] eqn:F; [| exists e; reflexivity].
  cbn [bind]. destruct I as [-> | I]; [destruct (B0 s V) as (e & E); congruence |]. apply IH; [exact I |]. eapply P; eassumption.
Qed.

Lemma combine_map_l {B C D} (g : B -> C) (a : list B) (b : list D) : combine (map g a) b = map (fun p => (g (fst p), snd p)) (combine a b).
Proof. revert b. induction a as [| x a IH]; intros [| y b]; cbn; [reflexivity .. |]. now rewrite IH. Qed.
Lemma combine_map_r {B C D} (g : B -> C) (a : list D) (b : list B) : combine a (map g b) = map (fun p => (fst p, g (snd p))) (combine a b).
Proof. revert b. induction a as [| x a IH]; intros [| y b]; cbn; [reflexivity .. |]. now rewrite IH. Qed.

Lemma in_combine_r' {B C} (a : list B) (b : list C) y : zlen a = zlen b -> In y b -> exists x, In (x, y) (combine a b).
Proof.
  revert b. induction a as [| x a IH]; intros [| z b] L I; [destruct I | cbn in L; pose proof (zlen_nonneg b); unfold zlen in *; cbn in *; lia | destruct I |].
  destruct I as [-> | I]; [exists x; left; reflexivity |]. destruct (IH b) as (w & W); [unfold zlen in *; cbn in *; lia | exact I |].
  exists w. right. exact W.
Qed.
Lemma in_combine_l' {B C} (a : list B) (b : list C) x : zlen a = zlen b -> In x a -> exists y, In (x, y) (combine a b).
Proof.
  revert b. induction a as [| z a IH]; intros [| y b] L I; [destruct I | destruct I | unfold zlen in L; cbn in L; lia |].
  destruct I as [-> | I]; [exists y; left; reflexivity |]. destruct (IH b) as (w & W); [unfold zlen in *; cbn in *; lia | exact I |].
  exists w. right. exact W.
Qed.

Section Mixed.
Context {A K X : Type}.
Variable O : ops A.
Variable re : A -> A.
Variable junk : Z -> Z -> A.
Variable junk3 : Z -> Z -> Z -> A.
Notation dataset := (dataset A K X).
Notation merge := (merge_mixed (K := K) (X := X) O re junk junk3).

(** ** The same type *)

Lemma map2_maps {B C D E} (f : C -> D -> E) (g : B -> C) (h : B -> D) l : map2 f (map g l) (map h l) = map (fun x => f (g x) (h x)) l.
Proof. induction l as [| x l IH]; [reflexivity |]. cbn. now rewrite IH. Qed.

Lemma flat_line {D} (g : D -> list (list A)) (l : list D) : concat (map (fun d => map line (g d)) l) = map line (flat_map g l).
Proof. induction l as [| x l IH]; [reflexivity |]. cbn [map concat flat_map]. now rewrite IH, map_app. Qed.

Definition signal_branch mode (s : signal A) (data : list dataset) : result dataset :=
  counts <- sequence (map d_count data) ;;
  offsets <- sequence (map d_offset data) ;;
  lengths <- sequence (map d_length data) ;;
  m <- allocate junk (zsum counts) (zmaximum (offset s + Signal.length s) (map2 Z.add offsets lengths) - zminimum (offset s) offsets) ;;
  channels <- sequence (map (d_real_channels re) data) ;;
  all_labels <- sequence (map d_labels data) ;;
  st <- for_each (combine (merge_indices mode counts)
                   (combine (concat channels)
                      (combine (concat (map2 (fun o c => map (fun _ => o) c) offsets channels)) (concat all_labels))))
          (mixed_signal_step O (zminimum (offset s) offsets)) (m, zrepeat EmptyString (zsum counts)) ;;
  Ok (DSignal (mk_signal (fst st) (sampling_rate s) (zminimum (offset s) offsets) (Some (snd st)))).
Definition spectrum_branch mode (s : spectrum A A) (data : list dataset) : result dataset :=
  counts <- sequence (map d_count data) ;;
  lengths <- sequence (map d_length data) ;;
  m <- allocate junk (zsum counts) (zmaximum (sp_length s) lengths) ;;
  channels <- sequence (map d_channels data) ;;
  all_labels <- sequence (map d_labels data) ;;
  st <- for_each (combine (merge_indices mode counts) (combine (concat channels) (concat all_labels)))
          (mixed_spectrum_step O) (m, zrepeat EmptyString (zsum counts)) ;;
  Ok (DSpectrum (mk_spectrum (fst st) (resolution s) (Some (snd st)))).

Lemma branch_signal mode s d l : merge mode (DSignal s :: d :: l) = signal_branch mode s (DSignal s :: d :: l).
Proof. reflexivity. Qed.
Lemma branch_spectrum mode s d l : merge mode (DSpectrum s :: d :: l) = spectrum_branch mode s (DSpectrum s :: d :: l).
Proof. reflexivity. Qed.

Definition plain_signals mode (s : signal A) (data : list (signal A)) : result (signal A) :=
      m <- allocate junk (zsum (map count data)) (zmaximum (offset s + Signal.length s) (map (fun s => offset s + Signal.length s) data) - zminimum (offset s) (map offset data)) ;;
      st <- for_each (combine (merge_indices mode (map count data))
                     (combine (flat_map (fun d => rows (channels d)) data)
                        (combine (flat_map (fun d => map (fun _ => offset d) (rows (channels d))) data)
                                 (flat_map labels data)))) (merge_signal_step O (zminimum (offset s) (map offset data))) (m, zrepeat EmptyString (zsum (map count data))) ;;
      Ok (mk_signal (fst st) (sampling_rate s) (zminimum (offset s) (map offset data)) (Some (snd st))).
Lemma plain_signals_eq mode s s' l : merge_signals O junk mode (s :: s' :: l) = plain_signals mode s (s :: s' :: l).
Proof. reflexivity. Qed.

Lemma merge_same_signals mode (l : list (signal A)) : merge mode (map DSignal l) = rmap DSignal (merge_signals O junk mode l).
Proof.
  destruct l as [| s [| s' l]]; [reflexivity .. |]. rewrite plain_signals_eq. cbn [map]. rewrite branch_signal.
  change (DSignal s :: DSignal s' :: map DSignal l) with (map (@DSignal A K X) (s :: s' :: l)). generalize (s :: s' :: l) as data. clear l s'. intros data.
  unfold signal_branch, plain_signals. rewrite !map_map.
  rewrite (sequence_ok _ count), (sequence_ok _ offset), (sequence_ok _ Signal.length) by reflexivity. cbn [bind].
  rewrite map2_maps. destruct (allocate junk (zsum (map count data)) _) as [m |]; [| reflexivity]. cbn [bind].
  rewrite (sequence_ok _ (fun s => map line (rows (channels s)))), (sequence_ok _ labels) by reflexivity. cbn [bind].
  rewrite map2_maps, flat_line, <- !flat_map_concat_map. rewrite combine_map_l, combine_map_r.
  erewrite each_map with (h := merge_signal_step O _).
  2: { intros [m0 l0] (i & c & o & lab). reflexivity. }
  replace (flat_map (fun x => map (fun _ => offset x) (map line (rows (channels x)))) data)
    with (flat_map (fun d => map (fun _ => offset d) (rows (channels d))) data).
  2: { apply flat_map_ext. intros a. now rewrite map_map. }
  destruct (for_each _ _ _) as [[m' l'] |]; reflexivity.
Qed.

(** ** Spectrums and signals *)

(** The samples of a signal as those of a spectrum *)
Definition reinterpret (d : dataset) : spectrum A A :=
  match d with
  | DSignal s => Spectrum (channels s) (sampling_rate s) (labels s)
  | DSpectrum s => s
  | _ => Spectrum (Arr [] 0) (o_zero O) []
  end.

Definition plain_spectrums mode (s : spectrum A A) (data : list (spectrum A A)) : result (spectrum A A) :=
      m <- allocate junk (zsum (map sp_count data)) (zmaximum (sp_length s) (map sp_length data)) ;;
      st <- for_each (combine (merge_indices mode (map sp_count data))
                     (combine (flat_map (fun d => rows (sp_channels d)) data) (flat_map sp_labels data)))
              (merge_spectrum_step O) (m, zrepeat EmptyString (zsum (map sp_count data))) ;;
      Ok (mk_spectrum (fst st) (resolution s) (Some (snd st))).
Lemma plain_spectrums_eq mode s s' l : merge_spectrums O junk mode (s :: s' :: l) = plain_spectrums mode s (s :: s' :: l).
Proof. reflexivity. Qed.

Lemma merge_reinterpreted mode s (l : list dataset) : Forall (fun d => kind_of d = KSpectrum \/ kind_of d = KSignal) l ->
  merge mode (DSpectrum s :: l) = rmap DSpectrum (merge_spectrums O junk mode (s :: map reinterpret l)).
Proof.
  destruct l as [| d l]; [reflexivity |]. intros F. cbn [map]. rewrite plain_spectrums_eq, branch_spectrum.
  change (s :: reinterpret d :: map reinterpret l) with (map reinterpret (DSpectrum s :: d :: l)).
  assert (G : Forall (fun d => kind_of d = KSpectrum \/ kind_of d = KSignal) (DSpectrum s :: d :: l)) by (constructor; [left; reflexivity | exact F]).
  revert G. clear F. generalize (DSpectrum (K := K) (X := X) s :: d :: l) as data. clear l d. intros data F. rewrite Forall_forall in F.
  unfold spectrum_branch, plain_spectrums.
  rewrite (sequence_ok _ (fun d => sp_count (reinterpret d))), (sequence_ok _ (fun d => sp_length (reinterpret d)))
    by (intros x I; destruct (F x I), x; cbn in *; try discriminate; reflexivity).
  cbn [bind]. rewrite <- (map_map reinterpret sp_count), <- (map_map reinterpret sp_length).
  destruct (allocate junk _ _) as [m |]; [| reflexivity]. cbn [bind].
  rewrite (sequence_ok _ (fun d => map line (rows (sp_channels (reinterpret d))))), (sequence_ok _ (fun d => sp_labels (reinterpret d)))
    by (intros x I; destruct (F x I), x; cbn in *; try discriminate; reflexivity).
  cbn [bind]. rewrite <- (map_map reinterpret (fun d => map line (rows (sp_channels d)))), <- (map_map reinterpret sp_labels).
  rewrite flat_line, <- !flat_map_concat_map. rewrite combine_map_l, combine_map_r.
  erewrite each_map with (h := merge_spectrum_step O).
  2: { intros [m0 l0] (i & c & lab). reflexivity. }
  destruct (for_each _ _ _) as [[m' l'] |]; reflexivity.
Qed.

Lemma merge_same_spectrums mode (l : list (spectrum A A)) : merge mode (map DSpectrum l) = rmap DSpectrum (merge_spectrums O junk mode l).
Proof.
  destruct l as [| s l]; [reflexivity |]. cbn [map]. rewrite merge_reinterpreted.
  - rewrite map_map. cbn [reinterpret]. now rewrite map_id.
  - rewrite Forall_map. apply Forall_forall. intros x _. left. reflexivity.
Qed.

Lemma branch_spectrogram mode s d l : merge mode (DSpectrogram s :: d :: l) =
  (counts <- sequence (map d_count (DSpectrogram s :: d :: l)) ;; x <- sequence (map only_spectrogram (DSpectrogram s :: d :: l)) ;;
   r <- merge_spectrograms O junk3 mode x ;; Ok (DSpectrogram r)).
Proof. reflexivity. Qed.
Lemma branch_filter mode s d l : merge mode (DFilter s :: d :: l) =
  (counts <- sequence (map d_count (DFilter s :: d :: l)) ;; x <- sequence (map only_filter (DFilter s :: d :: l)) ;;
   r <- merge_filters mode x ;; Ok (DFilter r)).
Proof. reflexivity. Qed.

Lemma merge_same_spectrograms mode (l : list (spectrogram A A)) : merge mode (map DSpectrogram l) = rmap DSpectrogram (merge_spectrograms O junk3 mode l).
Proof.
  destruct l as [| s [| s' l]]; [reflexivity .. |]. cbn [map]. rewrite branch_spectrogram.
  change (DSpectrogram s :: DSpectrogram s' :: map DSpectrogram l) with (map (@DSpectrogram A K X) (s :: s' :: l)).
  rewrite !map_map. rewrite (sequence_ok _ sg_count) by reflexivity. cbn [bind].
  rewrite (sequence_ok _ (fun x => x)) by reflexivity. rewrite map_id. cbn [bind].
  destruct (merge_spectrograms O junk3 mode (s :: s' :: l)); reflexivity.
Qed.

Lemma merge_same_filters mode (l : list (filter K X)) : merge mode (map DFilter l) = rmap DFilter (merge_filters mode l).
Proof.
  destruct l as [| s [| s' l]]; [reflexivity .. |]. cbn [map]. rewrite branch_filter.
  change (DFilter s :: DFilter s' :: map DFilter l) with (map (@DFilter A K X) (s :: s' :: l)).
  rewrite !map_map. rewrite (sequence_ok _ f_count) by reflexivity. cbn [bind].
  rewrite (sequence_ok _ (fun x => x)) by reflexivity. rewrite map_id. cbn [bind].
  destruct (merge_filters mode (s :: s' :: l)); reflexivity.
Qed.

Lemma merge_spectrum_first mode s (l : list dataset) : Forall (fun d => kind_of d = KSpectrum \/ kind_of d = KSignal) l ->
  Forall proper (DSpectrum s :: l) ->
  exists r, merge mode (DSpectrum s :: l) = Ok (DSpectrum r) /\ merged_spectrum O mode (s :: map reinterpret l) r.
Proof.
  intros F P. rewrite merge_reinterpreted by exact F. pose proof (Forall_inv P) as [P1 P2]. pose proof (Forall_inv_tail P) as P3.
  assert (W : Forall (fun d => wf_spectrum d /\ 1 <= sp_count d) (s :: map reinterpret l)).
  { constructor; [split; assumption |]. rewrite Forall_map. rewrite Forall_forall in *. intros x I. destruct (F x I), x; cbn in *; try discriminate; exact (P3 _ I). }
  destruct (merge_spectrums_ok O junk mode (s :: map reinterpret l)) as (r & E & M).
  - discriminate.
  - eapply Forall_impl; [| exact W]. intros a [H _]. exact H.
  - intros _. eapply Forall_impl; [| exact W]. intros a [_ H]. exact H.
  - exists r. rewrite E. split; [reflexivity | exact M].
Qed.

(** ** Other types *)

Lemma many_rows_refused (m x : arr A) i b : 2 <= nrows x -> exists e, set_row_block m i b x = Err e.
Proof.
  intros H. unfold set_row_block. set (i' := if i <? 0 then i + nrows m else i). destruct (_ || _)%bool eqn:B; [eexists; reflexivity |].
  unfold set_block. assert (U : upper (between i' (i' + 1)) (nrows m) - lower (between i' (i' + 1)) (nrows m) = 1).
  { pose proof (zlen_nonneg (rows m)). unfold nrows in *. unfold_bounds. zcases; lia. }
  rewrite U. unfold broadcast. destruct (negb _); [eexists; reflexivity |]. destruct (Z.eqb_spec (nrows x) 1); [lia |].
  destruct (rows x) as [| r [| r' t]] eqn:E; [eexists; reflexivity | | eexists; reflexivity].
  exfalso. unfold nrows in H. rewrite E in H. unfold zlen in H. cbn in H. lia.
Qed.

Definition get {B} (d : B) (r : result B) : B := match r with Ok x => x | Err _ => d end.
Lemma sequence_get {D B} (f : D -> result B) d l : (forall x, In x l -> exists y, f x = Ok y) -> sequence (map f l) = Ok (map (fun x => get d (f x)) l).
Proof. intros H. apply sequence_ok. intros x I. destruct (H x I) as (y & ->). reflexivity. Qed.

Lemma nrows_sheet (q : cube A) n : 0 <= dim1 q -> nrows (sheet q n) = dim1 q.
Proof. intros H. unfold nrows, sheet. cbn [rows]. rewrite zlen_map, zlen_seq. lia. Qed.

Definition other_than (k : kind) (data : list dataset) : Prop := exists d, In d data /\ kind_of d <> k.
Lemma mixed_other k data : mixed data -> other_than k data.
Proof.
  intros (a & b & Ia & Ib & N). assert (D : forall x y : kind, {x = y} + {x <> y}) by decide equality.
  destruct (D (kind_of a) k) as [E |]; [exists b; split; [exact Ib | congruence] | exists a; split; assumption].
Qed.

(** All data sets are of some types, or one is not. *)
Lemma all_or_one (P : dataset -> bool) data : Forall (fun d => P d = true) data \/ exists d, In d data /\ P d = false.
Proof.
  induction data as [| d data [IH | (x & I & E)]]; [left; constructor | | right; exists x; split; [right; exact I | exact E]].
  destruct (P d) eqn:E; [left; constructor; assumption | right; exists d; split; [left; reflexivity | exact E]].
Qed.

Definition timed (d : dataset) : bool := match d with DSignal _ | DSpectrogram _ => true | _ => false end.
Definition sampled (d : dataset) : bool := match d with DSignal _ | DSpectrogram _ | DSpectrum _ => true | _ => false end.
Definition count_of (d : dataset) : Z := get 0 (d_count d).

Lemma lengths_of d : proper d -> sampled d = true ->
  1 <= count_of d /\ zlen (get [] (d_channels d)) = count_of d /\ zlen (get [] (d_real_channels re d)) = count_of d /\ zlen (get [] (d_labels d)) = count_of d.
Proof.
  intros P S. destruct d as [s | s | s | f | o]; try discriminate; cbn in P |- *.
  - destruct P as [[W L] C]. unfold count_of, count, nrows in *. cbn. unfold count, nrows. rewrite !zlen_map. auto.
  - destruct P as [[W L] C]. unfold count_of, sp_count, nrows in *. cbn. unfold sp_count, nrows. rewrite !zlen_map. auto.
  - destruct P as [[W L] [C F]]. unfold count_of. cbn. rewrite !zlen_map, zlen_seq. lia.
Qed.

Lemma zlen_concat {D B} (g : D -> list B) (c : D -> Z) data : (forall d, In d data -> zlen (g d) = c d) -> zlen (concat (map g data)) = zsum (map c data).
Proof. intros H. rewrite <- flat_map_concat_map. now apply zlen_flat. Qed.

Lemma indices_len mode data : Forall proper data -> Forall (fun d => sampled d = true) data ->
  zlen (merge_indices mode (map count_of data)) = zsum (map count_of data).
Proof.
  intros P S. rewrite Forall_forall in P, S. assert (C : Forall (fun n => 1 <= n) (map count_of data)).
  { rewrite Forall_map, Forall_forall. intros d I. apply lengths_of; auto. }
  destruct (merge_indices_ok mode (map count_of data)) as (o & _ & _ & L & _).
  - eapply Forall_impl; [| exact C]. cbv beta; intros; lia.
  - intros _. exact C.
  - exact L.
Qed.

Lemma signal_first_refused mode s data : Forall proper data -> other_than KSignal data -> exists e, signal_branch mode s data = Err e.
Proof.
  intros P (d & Id & Kd). unfold signal_branch. destruct (sequence (map d_count data)) as [counts | e] eqn:C0; [| exists e; reflexivity]. cbn [bind].
  destruct (all_or_one timed data) as [T | (x & Ix & Ex)].
  2: { destruct (sequence_bad d_offset data x AttributeError Ix) as (e & ->); [destruct x; cbn in *; congruence || reflexivity | exists e; reflexivity]. }
  rewrite Forall_forall in T.
  assert (S : Forall (fun d => sampled d = true) data) by (rewrite Forall_forall; intros x I; specialize (T x I); destruct x; cbn in *; congruence).
  pose proof P as P0. rewrite Forall_forall in P. pose proof S as S0. rewrite Forall_forall in S.
  rewrite (sequence_get d_offset 0) by (intros x I; specialize (T x I); destruct x; try discriminate; eexists; reflexivity). cbn [bind].
  rewrite (sequence_get d_length 0) by (intros x I; specialize (T x I); destruct x; try discriminate; eexists; reflexivity). cbn [bind].
  destruct (allocate junk _ _) as [m | e]; [| exists e; reflexivity]. cbn [bind].
  rewrite (sequence_get (d_real_channels re) []) by (intros x I; specialize (T x I); destruct x; try discriminate; eexists; reflexivity). cbn [bind].
  rewrite (sequence_get d_labels []) by (intros x I; specialize (T x I); destruct x; try discriminate; eexists; reflexivity). cbn [bind].
  assert (C1 : counts = map count_of data).
  { rewrite (sequence_get d_count 0) in C0 by (intros x I; specialize (T x I); destruct x; try discriminate; eexists; reflexivity). injection C0 as <-. reflexivity. }
  rewrite C1. rewrite map2_maps. clear C0 C1.
  assert (Q : exists q, d = DSpectrogram q) by (specialize (T d Id); destruct d; cbn in *; try congruence; eexists; reflexivity). destruct Q as (q & ->).
  pose proof (P _ Id) as (_ & Cq & Fq).
  set (bad := (dim1 (sg_channels q), ufunc1 re (sheet (sg_channels q) 0))).
  assert (I1 : In bad (concat (map (fun x => get [] (d_real_channels re x)) data))).
  { apply in_concat. exists (get [] (d_real_channels re (DSpectrogram (K := K) (X := X) q))). split; [exact (in_map (fun x => get [] (d_real_channels re x)) data _ Id) |].
    cbn [d_real_channels d_channels bind get]. rewrite map_map. apply (in_map (fun i => (fst (dim1 (sg_channels q), sheet (sg_channels q) i), ufunc1 re (snd (dim1 (sg_channels q), sheet (sg_channels q) i)))) _ 0).
    apply In_zseq. lia. }
  assert (L1 : zlen (concat (map (fun x => get [] (d_real_channels re x)) data)) = zsum (map count_of data)) by (apply zlen_concat; intros x I; apply lengths_of; auto).
  assert (L2 : zlen (concat (map (fun x => map (fun _ => get 0 (d_offset x)) (get [] (d_real_channels re x))) data)) = zsum (map count_of data)).
  { apply (zlen_concat (fun x => map (fun _ => get 0 (d_offset x)) (get [] (d_real_channels re x)))). intros x I. rewrite zlen_map. apply lengths_of; auto. }
  assert (L3 : zlen (concat (map (fun x => get [] (d_labels x)) data)) = zsum (map count_of data)) by (apply zlen_concat; intros x I; apply lengths_of; auto).
  set (R := combine (concat (map (fun x => map (fun _ => get 0 (d_offset x)) (get [] (d_real_channels re x))) data)) (concat (map (fun x => get [] (d_labels x)) data))).
  assert (LR : zlen R = zsum (map count_of data)) by (unfold R; rewrite zlen_combine; lia).
  destruct (in_combine_l' _ R bad (eq_trans L1 (eq_sym LR)) I1) as (y & Iy).
  pose proof (indices_len mode data P0 S0) as LI.
  destruct (in_combine_r' (merge_indices mode (map count_of data)) (combine (concat (map (fun x => get [] (d_real_channels re x)) data)) R) (bad, y)) as (i & Ii).
  { rewrite zlen_combine. lia. }
  { exact Iy. }
  edestruct (each_bad (fun _ => True) (mixed_signal_step O (zminimum (offset s) (map (fun x => get 0 (d_offset x)) data)))) as (e & E); [| | exact Ii | exact I | rewrite E; exists e; reflexivity].
  - auto.
  - intros [m0 l0] _. destruct y as [o lab]. unfold mixed_signal_step, bad.
    destruct (set_row_block m0 i (between 0 _) _) as [m1 | e]; [| exists e; reflexivity]. cbn [bind].
    edestruct (many_rows_refused m1 (ufunc1 re (sheet (sg_channels q) 0))) as (e & E); [| rewrite E; exists e; reflexivity].
    unfold ufunc1, nrows. cbn [rows]. rewrite zlen_map. change (2 <= nrows (sheet (sg_channels q) 0)). rewrite nrows_sheet; unfold sg_frequencies in Fq; lia.
Qed.

Lemma spectrum_first_refused mode s data : Forall proper data -> (exists d, In d data /\ kind_of d <> KSpectrum /\ kind_of d <> KSignal) -> exists e, spectrum_branch mode s data = Err e.
Proof.
  intros P (d & Id & Kd & Kd'). unfold spectrum_branch. destruct (sequence (map d_count data)) as [counts | e] eqn:C0; [| exists e; reflexivity]. cbn [bind].
  destruct (all_or_one sampled data) as [T | (x & Ix & Ex)].
  2: { destruct (sequence_bad d_length data x AttributeError Ix) as (e & ->); [destruct x; cbn in *; congruence || reflexivity | exists e; reflexivity]. }
  pose proof T as S0. rewrite Forall_forall in T. pose proof P as P0. rewrite Forall_forall in P.
  rewrite (sequence_get d_length 0) by (intros x I; specialize (T x I); destruct x; try discriminate; eexists; reflexivity). cbn [bind].
  destruct (allocate junk _ _) as [m | e]; [| exists e; reflexivity]. cbn [bind].
  rewrite (sequence_get d_channels []) by (intros x I; specialize (T x I); destruct x; try discriminate; eexists; reflexivity). cbn [bind].
  rewrite (sequence_get d_labels []) by (intros x I; specialize (T x I); destruct x; try discriminate; eexists; reflexivity). cbn [bind].
  assert (C1 : counts = map count_of data).
  { rewrite (sequence_get d_count 0) in C0 by (intros x I; specialize (T x I); destruct x; try discriminate; eexists; reflexivity). injection C0 as <-. reflexivity. }
  rewrite C1. clear C0 C1.
  assert (Q : exists q, d = DSpectrogram q) by (specialize (T d Id); destruct d; cbn in *; try congruence; eexists; reflexivity). destruct Q as (q & ->).
  pose proof (P _ Id) as (_ & Cq & Fq).
  set (bad := (dim1 (sg_channels q), sheet (sg_channels q) 0)).
  assert (I1 : In bad (concat (map (fun x => get [] (d_channels x)) data))).
  { apply in_concat. exists (get [] (d_channels (DSpectrogram (K := K) (X := X) q))). split; [exact (in_map (fun x => get [] (d_channels x)) data _ Id) |].
    cbn [d_channels get]. apply (in_map (fun i => (dim1 (sg_channels q), sheet (sg_channels q) i)) _ 0). apply In_zseq. lia. }
  assert (L1 : zlen (concat (map (fun x => get [] (d_channels x)) data)) = zsum (map count_of data)) by (apply zlen_concat; intros x I; apply lengths_of; auto).
  assert (L3 : zlen (concat (map (fun x => get [] (d_labels x)) data)) = zsum (map count_of data)) by (apply zlen_concat; intros x I; apply lengths_of; auto).
  destruct (in_combine_l' _ (concat (map (fun x => get [] (d_labels x)) data)) bad (eq_trans L1 (eq_sym L3)) I1) as (y & Iy).
  pose proof (indices_len mode data P0 S0) as LI.
  destruct (in_combine_r' (merge_indices mode (map count_of data)) (combine (concat (map (fun x => get [] (d_channels x)) data)) (concat (map (fun x => get [] (d_labels x)) data))) (bad, y)) as (i & Ii).
  { rewrite zlen_combine. lia. }
  { exact Iy. }
  edestruct (each_bad (fun _ => True) (mixed_spectrum_step O)) as (e & E); [| | exact Ii | exact I | rewrite E; exists e; reflexivity].
  - auto.
  - intros [m0 l0] _. unfold mixed_spectrum_step, bad.
    edestruct (many_rows_refused m0 (sheet (sg_channels q) 0)) as (e & E); [| rewrite E; exists e; reflexivity].
    rewrite nrows_sheet; unfold sg_frequencies in Fq; lia.
Qed.

Theorem merge_refused mode data : Forall proper data -> mixed data ->
  (forall s l, data = DSpectrum s :: l -> exists d, In d l /\ kind_of d <> KSpectrum /\ kind_of d <> KSignal) ->
  exists e, merge mode data = Err e.
Proof.
  intros P M H. destruct data as [| d [| d' l]].
  - destruct M as (a & _ & [] & _).
  - destruct M as (a & b & [<- | []] & [<- | []] & N). congruence.
  - destruct d as [s | s | s | f | o].
    + rewrite branch_signal. apply signal_first_refused; [exact P |]. apply mixed_other, M.
    + rewrite branch_spectrum. apply spectrum_first_refused; [exact P |]. destruct (H s (d' :: l) eq_refl) as (d & I & N). exists d. split; [right; exact I | exact N].
    + rewrite branch_spectrogram. destruct (sequence (map d_count _)) as [c | e]; [| exists e; reflexivity]. cbn [bind].
      destruct (mixed_other KSpectrogram _ M) as (d & I & N).
      destruct (sequence_bad only_spectrogram _ d AttributeError I) as (e & ->); [destruct d; cbn in *; congruence || reflexivity | exists e; reflexivity].
    + rewrite branch_filter. destruct (sequence (map d_count _)) as [c | e]; [| exists e; reflexivity]. cbn [bind].
      destruct (mixed_other KFilter _ M) as (d & I & N).
      destruct (sequence_bad only_filter _ d AttributeError I) as (e & ->); [destruct d; cbn in *; congruence || reflexivity | exists e; reflexivity].
    + unfold merge_mixed. destruct (sequence (map d_count _)) as [c | e]; eexists; reflexivity.
Qed.
End Mixed.
