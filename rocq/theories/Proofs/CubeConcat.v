(** Concatenating spectrograms. *)

From Coq Require Import String ZArith List Bool Lia ZifyBool Sorting.Permutation.
From Verif.Model Require Import Py Numpy Functions Signal Cube Spectrogram Merge Concatenate Filter CubeBlocks.
From Verif.Spec Require Import TimeSpec SpectrogramSpec FilterSpec MergeSpec ConcatSpec CubeBlocksSpec.
From Verif.Proofs Require Import PyFacts NumpyFacts SignalAlgebra SignalShape CubeFacts MergeOrder MergeFacts MergeHistory ConcatFacts CubeMerge.
Import ListNotations.
Open Scope Z_scope.

Section Concat.
Context {A R : Type}.
Variable O : ops A.
Variable junk : Z -> Z -> Z -> A.
Hypothesis Add0 : forall x, o_add O (o_zero O) x = x.
Hypothesis AddC : forall x y, o_add O x y = o_add O y x.
Hypothesis AddA : forall x y z, o_add O x (o_add O y z) = o_add O (o_add O x y) z.
Notation item := ((Z * Z) * spectrogram A R)%type.

Definition val3 (c f t : Z) (x : item) : A := sg_contribution O c f t (fst (fst x), snd x).
Definition S3 (P : list item) (c f t : Z) : A := sum O (map (val3 c f t) P).

Definition good3 (N F mo top : Z) (x : item) : Prop :=
  wf_spectrogram (snd x) /\ snd (fst x) = fst (fst x) + sg_length (snd x) /\ mo <= fst (fst x) /\ snd (fst x) <= top /\
  sg_count (snd x) <= N /\ sg_frequencies (snd x) <= F.

Lemma val3_in N F mo top x c f t : good3 N F mo top x -> 0 <= c < sg_count (snd x) -> 0 <= f < sg_frequencies (snd x) ->
  fst (fst x) <= t < snd (fst x) -> cell (sg_channels (snd x)) c f (t - fst (fst x)) = Some (val3 c f t x).
Proof.
  intros (W & E & _) C Ff T. unfold val3, sg_contribution, sg_at, sg_begins. cbn [fst snd].
  replace (t - fst (fst x) + sg_offset (snd x) - sg_offset (snd x)) with (t - fst (fst x)) by lia.
  destruct (cell_in (sg_channels (snd x)) c f (t - fst (fst x)) (proj1 W)) as [a Ea]; auto.
  - unfold sg_length in E. lia.
  - rewrite Ea. reflexivity.
Qed.
Lemma val3_out N F mo top x c f t : good3 N F mo top x ->
  ~ (0 <= c < sg_count (snd x) /\ 0 <= f < sg_frequencies (snd x) /\ fst (fst x) <= t < snd (fst x)) -> val3 c f t x = o_zero O.
Proof.
  intros (W & E & _) C. unfold val3, sg_contribution, sg_at, sg_begins. cbn [fst snd].
  rewrite cell_out; auto; [apply W|]. unfold sg_length, sg_count, sg_frequencies in *. lia.
Qed.

(** The array is correct for the processed data sets [P] up to the column [last]. *)
Definition correct3 (N F L mo : Z) (P : list item) (last : Z) (m : cube A) : Prop :=
  wf_cube m /\ dim0 m = N /\ dim1 m = F /\ dim2 m = L /\ 0 <= last <= L /\
  forall c f j, 0 <= c < N -> 0 <= f < F -> 0 <= j < last -> cell m c f j = Some (S3 P c f (j + mo)).

Lemma S3_beyond N F mo top P c f t : Forall (good3 N F mo top) P -> (forall x, In x P -> snd (fst x) <= t) -> S3 P c f t = o_zero O.
Proof.
  intros G H. apply (sum_zero O Add0). intros x I. apply in_map_iff in I as (y & <- & I). rewrite Forall_forall in G.
  eapply val3_out; eauto. specialize (H y I). lia.
Qed.
Lemma S3_snoc P x c f t : S3 (P ++ [x]) c f t = o_add O (S3 P c f t) (val3 c f t x).
Proof. unfold S3. rewrite map_app. apply (sum_snoc O AddC AddA). Qed.

(** Copying a data set behind the correct part. *)
Lemma copy3_ok N F mo top P x last m (d : cube A) :
  Forall (good3 N F mo top) P -> good3 N F mo top x -> wf_cube m -> dim0 m = N -> dim1 m = F -> dim2 m = top - mo -> 0 <= last <= top - mo ->
  (forall y, In y P -> snd (fst y) - mo <= last) ->
  fst (fst x) - mo <= last -> last <= snd (fst x) - mo ->
  wf_cube d -> dim0 d = sg_count (snd x) -> dim1 d = sg_frequencies (snd x) -> dim2 d = snd (fst x) - mo - last ->
  (forall c f j, 0 <= c < dim0 d -> 0 <= f < dim1 d -> 0 <= j < dim2 d -> cell d c f j = Some (val3 c f (j + last + mo) x)) ->
  (forall c f j, 0 <= c < N -> 0 <= f < F -> 0 <= j < last -> cell m c f j = Some (S3 (P ++ [x]) c f (j + mo))) ->
  exists m', copy_spectrogram O N F m (dim0 d) (dim1 d) (between last (snd (fst x) - mo)) d = Ok m'
    /\ correct3 N F (top - mo) mo (P ++ [x]) (snd (fst x) - mo) m'.
Proof.
  intros FP G W H0 H1 H2 HL HP X1 X2 Wd D0 D1 D2 Hd Hm.
  pose proof G as (Wx & Ex & Gx1 & Gx2 & Gx3 & Gx4).
  pose proof Wd as (Nd0 & Nd1 & Nd2 & _). pose proof W as (Nm0 & Nm1 & Nm2 & _).
  destruct (scalar3_ok (o_zero O)) as (Ws & S0 & S1 & S2 & Sc).
  set (stop := snd (fst x) - mo) in *.
  unfold copy_spectrogram.
  edestruct (set3_ok m (between 0 (dim0 d)) (between 0 (dim1 d)) (between last stop) d 0 (dim0 d) 0 (dim1 d) last stop)
    as (m1 & -> & W1 & E10 & E11 & E12 & C1); auto; try (bnd; lia); try (left; lia). cbn [bind].
  assert (V : forall c f j, 0 <= c < N -> 0 <= f < F -> last <= j < stop -> S3 (P ++ [x]) c f (j + mo) = val3 c f (j + mo) x).
  { intros c f j Cc Cf J. rewrite S3_snoc, (S3_beyond N F mo top); auto. intros y I. specialize (HP y I). lia. }
  assert (B1 : forall c f j, 0 <= c < dim0 d -> 0 <= f < dim1 d -> last <= j < stop -> cell m1 c f j = Some (val3 c f (j + mo) x)).
  { intros c f j Cc Cf J. rewrite C1. replace (_ && _) with true by (ranges; lia).
    replace (stretch (dim0 d) (c - 0)) with c by (ranges; zcases).
    replace (stretch (dim1 d) (f - 0)) with f by (ranges; zcases).
    replace (stretch (dim2 d) (j - last)) with (j - last) by (ranges; zcases).
    rewrite Hd by lia. do 2 f_equal. lia. }
  assert (B2 : forall c f j, 0 <= c < N -> 0 <= f < F -> 0 <= j < last -> cell m1 c f j = cell m c f j).
  { intros c f j Cc Cf J. rewrite C1. replace (_ && _) with false by (ranges; lia). reflexivity. }
  assert (Step2 : exists m2, (if dim1 d <? F then set3 m1 (between 0 (dim0 d)) (from (dim1 d)) (between last stop) (scalar3 (o_zero O)) else Ok m1) = Ok m2 /\
     wf_cube m2 /\ dim0 m2 = N /\ dim1 m2 = F /\ dim2 m2 = top - mo /\
     (forall c f j, 0 <= c < dim0 d -> 0 <= f < F -> last <= j < stop -> cell m2 c f j = Some (val3 c f (j + mo) x)) /\
     forall c f j, 0 <= c < N -> 0 <= f < F -> 0 <= j < last -> cell m2 c f j = cell m c f j).
  { destruct (Z.ltb_spec (dim1 d) F) as [Lt|Ge].
    - edestruct (set3_ok m1 (between 0 (dim0 d)) (from (dim1 d)) (between last stop) (scalar3 (o_zero O)) 0 (dim0 d) (dim1 d) F last stop)
        as (m2 & -> & W2 & E20 & E21 & E22 & C2); auto; try (bnd; lia).
      exists m2. split; [reflexivity|]. split; [exact W2|]. split; [lia|]. split; [lia|]. split; [lia|]. split.
      + intros c f j Cc Cf J. rewrite C2. destruct (Z.lt_ge_cases f (dim1 d)).
        * replace (_ && _) with false by (ranges; lia). apply B1; lia.
        * replace (_ && _) with true by (ranges; lia). rewrite S0, S1, S2. unfold stretch. cbn [Z.eqb Pos.eqb]. rewrite Sc.
          f_equal. symmetry. eapply val3_out; eauto. lia.
      + intros c f j Cc Cf J. rewrite C2. replace (_ && _) with false by (ranges; lia). apply B2; lia.
    - exists m1. split; [reflexivity|]. split; [exact W1|]. split; [lia|]. split; [lia|]. split; [lia|]. split; auto.
      intros; apply B1; lia. }
  destruct Step2 as (m2 & -> & W2 & E20 & E21 & E22 & B3 & B4). cbn [bind].
  destruct (Z.ltb_spec (dim0 d) N) as [Lt|Ge].
  - edestruct (set3_ok m2 (from (dim0 d)) everything (between last stop) (scalar3 (o_zero O)) (dim0 d) N 0 F last stop)
      as (m3 & -> & W3 & E30 & E31 & E32 & C3); auto; try (bnd; lia).
    exists m3. split; [reflexivity|]. split; [exact W3|]. split; [lia|]. split; [lia|]. split; [lia|]. split; [lia|].
    intros c f j Cc Cf J. rewrite C3. destruct (Z.lt_ge_cases j last) as [Jl|Jl].
    + replace (_ && _) with false by (ranges; lia). rewrite B4 by lia. apply Hm; lia.
    + rewrite V by lia. destruct (Z.lt_ge_cases c (dim0 d)).
      * replace (_ && _) with false by (ranges; lia). apply B3; lia.
      * replace (_ && _) with true by (ranges; lia). rewrite S0, S1, S2. unfold stretch. cbn [Z.eqb Pos.eqb]. rewrite Sc.
        f_equal. symmetry. eapply val3_out; eauto. lia.
  - exists m2. split; [reflexivity|]. split; [exact W2|]. split; [lia|]. split; [lia|]. split; [lia|]. split; [lia|].
    intros c f j Cc Cf J. destruct (Z.lt_ge_cases j last) as [Jl|Jl].
    + rewrite B4 by lia. apply Hm; lia.
    + rewrite V by lia. apply B3; lia.
Qed.

(** Adding a part of a data set within the correct part. *)
Lemma add3_ok N F mo top P x last m (d : cube A) stop :
  good3 N F mo top x -> correct3 N F (top - mo) mo P last m ->
  fst (fst x) - mo <= stop <= last -> snd (fst x) - mo <= stop \/ stop = last ->
  wf_cube d -> dim0 d = sg_count (snd x) -> dim1 d = sg_frequencies (snd x) -> dim2 d = stop - (fst (fst x) - mo) ->
  (forall c f j, 0 <= c < dim0 d -> 0 <= f < dim1 d -> 0 <= j < dim2 d -> cell d c f j = Some (val3 c f (j + fst (fst x)) x)) ->
  exists m', add3 O m (between 0 (dim0 d)) (between 0 (dim1 d)) (between (fst (fst x) - mo) stop) d = Ok m'
    /\ wf_cube m' /\ dim0 m' = N /\ dim1 m' = F /\ dim2 m' = top - mo /\
    (forall c f j, 0 <= c < N -> 0 <= f < F -> 0 <= j < last -> cell m' c f j = Some (S3 (P ++ [x]) c f (j + mo))).
Proof.
  intros G (W & H0 & H1 & H2 & HL & Hm) X1 X2 Wd D0 D1 D2 Hd.
  pose proof G as (Wx & Ex & Gx1 & Gx2 & Gx3 & Gx4). pose proof Wd as (Nd0 & Nd1 & Nd2 & _).
  unfold add3. set (a := fst (fst x) - mo) in *.
  edestruct (sub3_ok m (between 0 (dim0 d)) (between 0 (dim1 d)) (between a stop) 0 (dim0 d) 0 (dim1 d) a stop) as (Wb & Z0 & Z1 & Z2 & Cb);
    auto; try (bnd; lia).
  set (b := sub3 m (between 0 (dim0 d)) (between 0 (dim1 d)) (between a stop)) in *.
  edestruct (ufunc3_into_ok (o_add O) b d m (between 0 (dim0 d)) (between 0 (dim1 d)) (between a stop) 0 (dim0 d) 0 (dim1 d) a stop)
    as (m' & -> & W' & E0 & E1 & E2 & C'); auto; try (bnd; lia); try (left; lia).
  exists m'. split; [reflexivity|]. split; [exact W'|]. split; [lia|]. split; [lia|]. split; [lia|].
  intros c f j Cc Cf J. rewrite C', S3_snoc. destruct (_ && _) eqn:I.
  - assert (I' : 0 <= c < dim0 d /\ 0 <= f < dim1 d /\ a <= j < stop) by (ranges; lia). destruct I' as (I1 & I2 & I3).
    replace (stretch (dim0 b) (c - 0)) with c by (ranges; zcases).
    replace (stretch (dim1 b) (f - 0)) with f by (ranges; zcases).
    replace (stretch (dim2 b) (j - a)) with (j - a) by (ranges; zcases).
    replace (stretch (dim0 d) (c - 0)) with c by (ranges; zcases).
    replace (stretch (dim1 d) (f - 0)) with f by (ranges; zcases).
    replace (stretch (dim2 d) (j - a)) with (j - a) by (ranges; zcases).
    rewrite Cb. replace (_ && _) with true by (ranges; lia). rewrite Hm by lia. rewrite Hd by lia. cbn [both].
    do 2 f_equal; f_equal; lia.
  - rewrite Hm by lia. f_equal. rewrite (val3_out N F mo top x); auto; [now rewrite AddC, Add0|]. ranges; lia.
Qed.

Lemma step3_ok N F mo top P x prev last0 last m :
  Forall (good3 N F mo top) P -> good3 N F mo top x -> In prev P ->
  last = Z.max last0 (snd (fst prev) - mo) ->
  (forall y, In y P -> snd (fst y) - mo <= last) ->
  correct3 N F (top - mo) mo P last m ->
  exists m', concatenate_spectrogram_step O mo N F (m, last0) (x, prev) = Ok (m', last) /\
    correct3 N F (top - mo) mo (P ++ [x]) (Z.max last (snd (fst x) - mo)) m'.
Proof.
  intros FP G Ip L HP C. pose proof C as (W & H0 & H1 & H2 & HL & Hm). pose proof G as (Wx & Ex & Gx1 & Gx2 & Gx3 & Gx4).
  destruct x as [[start stop] s]. destruct prev as [[pstart pstop] ps]. cbn [fst snd] in *.
  pose proof (proj1 Wx) as Wc. pose proof Wc as (P0 & P1 & P2 & _).
  unfold concatenate_spectrogram_step. rewrite <- L.
  assert (D0 : dim0 (sg_channels s) = sg_count s) by reflexivity.
  assert (D1 : dim1 (sg_channels s) = sg_frequencies s) by reflexivity.
  assert (D2 : dim2 (sg_channels s) = sg_length s) by reflexivity.
  assert (Es : forall c f j, 0 <= c < sg_count s -> 0 <= f < sg_frequencies s -> 0 <= j < sg_length s ->
    cell (sg_channels s) c f j = Some (val3 c f (j + start) ((start, stop), s))).
  { intros c f j Cc Cf J. rewrite <- (val3_in N F mo top _ c f (j + start) G); cbn [fst snd]; try lia. f_equal. lia. }
  destruct (Z.ltb_spec (start - mo) last) as [Ov|NOv].
  - destruct (Z.leb_spec (stop - mo) last) as [In|Out].
    + destruct (add3_ok N F mo top P ((start, stop), s) last m (sg_channels s) (stop - mo)) as (m' & E & W' & E0 & E1 & E2 & H');
        auto; cbn [fst snd]; try lia.
      replace (start - mo + dim2 (sg_channels s)) with (stop - mo) by lia.
      cbn [fst snd] in E. rewrite E. cbn [bind]. exists m'. split; auto.
      replace (Z.max last (stop - mo)) with last by lia. repeat (split; [auto|]); auto.
    + set (k := last - (start - mo)).
      edestruct (sub3_ok (sg_channels s) everything everything (between 0 k) 0 (sg_count s) 0 (sg_frequencies s) 0 k) as (Wa & A0 & A1 & A2 & Ca);
        auto; try (bnd; lia).
      edestruct (sub3_ok (sg_channels s) everything everything (from k) 0 (sg_count s) 0 (sg_frequencies s) k (sg_length s)) as (Wb & B0 & B1 & B2 & Cb);
        auto; try (bnd; lia).
      set (da := sub3 (sg_channels s) everything everything (between 0 k)) in *.
      set (db := sub3 (sg_channels s) everything everything (from k)) in *.
      destruct (add3_ok N F mo top P ((start, stop), s) last m da last) as (m1 & E & W1 & E0 & E1 & E2 & H1'); auto; cbn [fst snd]; try lia.
      { intros c f j Cc Cf J. rewrite Ca. replace (_ && _) with true by (ranges; lia). rewrite !Z.add_0_l. apply Es; lia. }
      cbn [fst snd] in E. rewrite A0, A1, !Z.sub_0_r in E. rewrite D0, D1, E. cbn [bind].
      destruct (copy3_ok N F mo top P ((start, stop), s) last m1 db) as (m2 & E' & C2); auto; cbn [fst snd]; try lia.
      { intros c f j Cc Cf J. rewrite Cb. replace (_ && _) with true by (ranges; lia). rewrite !Z.add_0_l. rewrite Es by (unfold k in *; lia).
        do 2 f_equal. unfold k. lia. }
      cbn [fst snd] in E'. rewrite B0, B1, !Z.sub_0_r in E'. rewrite E'. cbn [bind]. exists m2. split; auto.
      replace (Z.max last (stop - mo)) with (stop - mo) by lia. exact C2.
  - destruct (Z.ltb_spec last (start - mo)) as [Gap|NoGap].
    + destruct (scalar3_ok (o_zero O)) as (Ws & S0 & S1 & S2 & Sc).
      edestruct (set3_ok m everything everything (between last (start - mo)) (scalar3 (o_zero O)) 0 N 0 F last (start - mo))
        as (m1 & -> & W1 & E0 & E1 & E2 & C1); auto; try (bnd; lia).
      cbn [bind].
      destruct (copy3_ok N F mo top P ((start, stop), s) (start - mo) m1 (sg_channels s)) as (m2 & E' & C2); auto; cbn [fst snd]; try lia.
      * intros y I. specialize (HP y I). lia.
      * intros c f j Cc Cf J. rewrite Es by lia. do 2 f_equal. lia.
      * intros c f j Cc Cf J. rewrite S3_snoc, (val3_out N F mo top ((start, stop), s)), AddC, Add0; auto; [|cbn; lia]. rewrite C1.
        destruct (Z.lt_ge_cases j last).
        -- replace (_ && _) with false by (ranges; lia). apply Hm; lia.
        -- replace (_ && _) with true by (ranges; lia). rewrite S0, S1, S2. unfold stretch. cbn [Z.eqb Pos.eqb]. rewrite Sc.
           f_equal. symmetry. apply (S3_beyond N F mo top); auto. intros y I. specialize (HP y I). lia.
      * cbn [fst snd] in E'. rewrite E'. cbn [bind]. exists m2. split; auto. replace (Z.max last (stop - mo)) with (stop - mo) by lia. exact C2.
    + destruct (copy3_ok N F mo top P ((start, stop), s) (start - mo) m (sg_channels s)) as (m2 & E' & C2); auto; cbn [fst snd]; try lia.
      * intros y I. specialize (HP y I). lia.
      * intros c f j Cc Cf J. rewrite Es by lia. do 2 f_equal. lia.
      * intros c f j Cc Cf J. rewrite S3_snoc, (val3_out N F mo top ((start, stop), s)), AddC, Add0; auto; [|cbn; lia]. apply Hm; lia.
      * cbn [fst snd] in E'. rewrite E'. cbn [bind]. exists m2. split; auto. replace (Z.max last (stop - mo)) with (stop - mo) by lia. exact C2.
Qed.

Lemma loop3_ok N F mo top : forall others prev P last0 m,
  Forall (good3 N F mo top) P -> Forall (good3 N F mo top) others -> In prev P ->
  (forall y, In y P -> snd (fst y) - mo <= Z.max last0 (snd (fst prev) - mo)) ->
  correct3 N F (top - mo) mo P (Z.max last0 (snd (fst prev) - mo)) m ->
  exists m' last' k, for_each (combine others (prev :: others)) (concatenate_spectrogram_step O mo N F) (m, last0) = Ok (m', last') /\
    correct3 N F (top - mo) mo (P ++ others) k m' /\ forall y, In y (P ++ others) -> snd (fst y) - mo <= k.
Proof.
  induction others as [|x others IH]; intros prev P last0 m FP FO Ip HP C.
  - exists m, last0, (Z.max last0 (snd (fst prev) - mo)). rewrite app_nil_r. cbn. auto.
  - inversion FO as [|? ? Gx FO']; subst. cbn [combine for_each].
    destruct (step3_ok N F mo top P x prev last0 (Z.max last0 (snd (fst prev) - mo)) m) as (m1 & -> & C1); auto. cbn [bind].
    destruct (IH x (P ++ [x]) (Z.max last0 (snd (fst prev) - mo)) m1) as (m' & last' & k & E & C' & H'); auto.
    + apply Forall_app. auto.
    + apply in_app_iff. cbn; auto.
    + intros y I. apply in_app_iff in I as [I|[<-|[]]]; [|lia]. specialize (HP y I). lia.
    + rewrite E. exists m', last', k. rewrite <- app_assoc in C', H'. cbn in C', H'. auto.
Qed.

Theorem concatenate3_ok (data : list (spectrogram A R)) : 2 <= zlen data -> Forall wf_spectrogram data ->
  exists r, concatenate_spectrograms O junk data = Ok r /\ concatenated_spectrogram O data r.
Proof.
  intros L2 W. destruct data as [|first [|second rest]]; try (rewrite ?zlen_cons, ?zlen_nil in L2; lia).
  remember (first :: second :: rest) as data eqn:D.
  assert (Hd : concatenate_spectrograms O junk data =
      let number_of_channels := zmaximum 0 (map sg_count data) in
      match sort_spans (spans sg_offset sg_length 0 data) with
      | [] => Err IndexError
      | (((start, stop), s) :: others) as indices =>
          let offset := zminimum start (map (fun i => fst (fst i)) indices) in
          let len := zmaximum stop (map (fun i => snd (fst i)) indices) - offset in
          let d := sg_channels s in
          let number_of_frequencies := zmaximum (dim1 d) (map (fun i => dim1 (sg_channels (snd i))) indices) in
          m <- allocate3 junk number_of_channels number_of_frequencies len ;;
          m <- copy_spectrogram O number_of_channels number_of_frequencies m (dim0 d) (dim1 d) (between (start - offset) (stop - offset)) d ;;
          st <- for_each (combine others indices) (concatenate_spectrogram_step O offset number_of_channels number_of_frequencies) (m, 0) ;;
          Ok (mk_spectrogram (fst st) (sg_resolution first) (sg_rate first) offset (Some (concatenation_labels number_of_channels)))
      end) by (subst; reflexivity).
  rewrite Hd. clear Hd. cbv zeta.
  assert (First : zth data 0 = Some first) by (subst; reflexivity).
  assert (InFirst : In first data) by (subst; cbn; auto).
  clear D second rest.
  pose proof (sort_perm (spans sg_offset sg_length 0 data)) as Perm.
  pose proof (sort_least (spans sg_offset sg_length 0 data)) as Least.
  rewrite spans_placed in Perm at 2.
  set (tag := fun p : Z * spectrogram A R => (fst p, fst p + sg_length (snd p), snd p)) in *.
  destruct (sort_spans (spans sg_offset sg_length 0 data)) as [|[[start stop] d] others].
  { apply Permutation_nil in Perm. apply (f_equal (@zlen _)) in Perm. rewrite zlen_map, zlen_placed, zlen_nil in Perm. lia. }
  cbv beta iota zeta.
  set (indices := ((start, stop), d) :: others) in *.
  set (N := zmaximum 0 (map sg_count data)).
  set (mo := zminimum start (map (fun i => fst (fst i)) indices)).
  set (top := zmaximum stop (map (fun i => snd (fst i)) indices)).
  set (F := zmaximum (dim1 (sg_channels d)) (map (fun i => dim1 (sg_channels (snd i))) indices)).
  assert (Emo : mo = start).
  { unfold mo. destruct (zminimum_le (map (fun i => fst (fst i)) indices) start) as [H1 _].
    destruct (zminimum_in (map (fun i => fst (fst i)) indices) start) as [E|I]; auto.
    apply in_map_iff in I as (y & Ey & I). specialize (Least y I). cbn [fst] in Least. lia. }
  destruct (zmaximum_ge (map (fun i => snd (fst i)) indices) stop) as [T1 T2]. fold top in T1, T2.
  destruct (zmaximum_ge (map sg_count data) 0) as [N1 N2]. fold N in N1, N2.
  destruct (zmaximum_ge (map (fun i => dim1 (sg_channels (snd i))) indices) (dim1 (sg_channels d))) as [Q1 Q2]. fold F in Q1, Q2.
  assert (Good : forall x, In x indices -> good3 N F mo top x).
  { intros x I. pose proof I as I'. apply (Permutation_in _ Perm) in I. apply in_map_iff in I as ([b s] & <- & I).
    assert (Is : In s data) by (apply placed_In in I; auto). rewrite Forall_forall in W.
    split; [auto|]. cbn [tag fst snd]. split; [auto|]. split.
    - rewrite Emo. apply (Least _ I').
    - split; [|split; [apply N2, in_map; auto|]]. { apply T2. apply in_map_iff. exists (tag (b, s)). auto. }
      apply Q2. apply in_map_iff. exists (tag (b, s)). auto. }
  assert (Gd : good3 N F mo top ((start, stop), d)) by (apply Good; cbn; auto).
  pose proof Gd as (Wd & Ed & _ & Gt & Gc & Gf). cbn [fst snd] in Wd, Ed, Gt, Gc, Gf.
  pose proof Wd as [(Nd0 & Nd1 & Nd2 & _) _].
  assert (Ends : forall y, In y indices -> snd (fst y) <= top).
  { intros y I. apply T2. apply in_map_iff. eauto. }
  assert (Ld : dim2 (sg_channels d) = sg_length d) by reflexivity.
  destruct (allocate3_ok junk N F (top - mo)) as (m & -> & Wm & M0 & M1 & M2); [lia|lia|lia|]. cbn [bind].
  destruct (copy3_ok N F mo top [] ((start, stop), d) 0 m (sg_channels d)) as (m1 & E1 & C1); auto; cbn [fst snd]; try lia.
  { intros y []. }
  { apply Wd. }
  { intros c f j Cc Cf J. rewrite <- (val3_in N F mo top _ c f (j + 0 + mo) Gd); cbn [fst snd]; auto; try lia. f_equal. lia. }
  cbn [fst snd app] in E1, C1. replace (start - mo) with 0 by lia. rewrite E1. cbn [bind].
  destruct (loop3_ok N F mo top others ((start, stop), d) [((start, stop), d)] 0 m1) as (m' & last' & k & E & C' & H').
  - repeat constructor; apply Gd.
  - apply Forall_forall. intros; apply Good; cbn; auto.
  - cbn; auto.
  - intros y [<-|[]]. lia.
  - cbn [fst snd]. replace (Z.max 0 (stop - mo)) with (stop - mo) by lia. exact C1.
  - unfold indices. rewrite E. cbn [bind fst]. eexists; split; [reflexivity|].
    destruct C' as (W' & K0 & K1 & K2 & Hk & H). change ([((start, stop), d)] ++ others) with indices in H, H'.
    assert (Ek : k = top - mo).
    { destruct (zmaximum_in (map (fun i => snd (fst i)) indices) stop) as [E0|I]; [fold top in E0|fold top in I].
      - specialize (H' _ (or_introl eq_refl)). cbn [fst snd] in H'. lia.
      - apply in_map_iff in I as (y & Ey & I). specialize (H' y I). lia. }
    set (r := mk_spectrogram m' (sg_resolution first) (sg_rate first) mo (Some (concatenation_labels N))).
    assert (Cr : sg_count r = N) by auto. assert (Fr : sg_frequencies r = F) by auto. assert (Br : sg_begins r = mo) by reflexivity.
    assert (Er : sg_ends r = top) by (unfold sg_ends, sg_length, r; cbn [mk_spectrogram sg_channels sg_offset]; lia).
    assert (Zl : zlen (concatenation_labels N) = N) by (unfold concatenation_labels; rewrite zlen_map, zlen_seq; lia).
    unfold concatenated_spectrogram. rewrite Cr, Fr, Br, Er.
    assert (Tag : forall b s, In (b, s) (placed sg_offset sg_length 0 data) <-> In (b, b + sg_length s, s) indices).
    { intros b s. split.
      - intros I. apply (Permutation_in _ (Permutation_sym Perm)). apply in_map_iff. exists (b, s). auto.
      - intros I. apply (Permutation_in _ Perm) in I. apply in_map_iff in I as ([b' s'] & [= -> _ ->] & I). auto. }
    assert (Member : forall s, In s data -> exists x, In x indices /\ snd x = s).
    { intros s I. clear -Perm I. assert (exists b, In (b, s) (placed sg_offset sg_length 0 data)) as [b Ib].
      { clear -I. revert I. generalize 0. induction data as [|u v IH]; intros z; cbn; [intros []|]. intros [->|I]; [eexists; left; reflexivity|].
        destruct (IH (z + sg_offset u + sg_length u) I) as [b Ib]. eauto. }
      exists (tag (b, s)). split; auto. apply (Permutation_in _ (Permutation_sym Perm)). apply in_map. exact Ib. }
    split; [apply mk_spectrogram_wf; auto; lia|]. split; [exists first; auto|].
    split.
    { intros c Hc. unfold r. cbn [mk_spectrogram sg_labels].
      rewrite sanitize_same by lia. unfold concatenation_labels. rewrite zth_map_zseq. replace (_ && _) with true by lia.
      do 3 f_equal. lia. }
    split.
    { intros s I. split; [apply N2, in_map; auto|]. destruct (Member s I) as (x & Ix & <-). apply (Good x Ix). }
    split.
    { destruct (zmaximum_in (map sg_count data) 0) as [E0|I]; [fold N in E0|fold N in I].
      - exists first. split; auto. rewrite Forall_forall in W. destruct (W first InFirst) as [(Hf & _) _].
        specialize (N2 (sg_count first) (in_map _ _ _ InFirst)). unfold sg_count in *. lia.
      - apply in_map_iff in I as (s & Es & I). eauto. }
    split.
    { assert (exists x, In x indices /\ dim1 (sg_channels (snd x)) = F) as (x & Ix & Ex).
      { destruct (zmaximum_in (map (fun i => dim1 (sg_channels (snd i))) indices) (dim1 (sg_channels d))) as [E0|I]; [fold F in E0|fold F in I].
        - exists (start, stop, d). cbn; auto.
        - apply in_map_iff in I as (x & Ex & I). eauto. }
      exists (snd x). split; auto. apply (Permutation_in _ Perm) in Ix. apply in_map_iff in Ix as (p & <- & Ip). cbn [tag snd]. eapply placed_In; eauto. }
    split.
    { intros b s I. apply Tag in I. pose proof (Least _ I) as L1. cbn [fst snd] in L1. specialize (Ends _ I). cbn [fst snd] in Ends. lia. }
    assert (Id : In (start, d) (placed sg_offset sg_length 0 data)).
    { apply Tag. rewrite <- Ed. cbn; auto. }
    split; [exists start, d; auto|].
    split.
    { destruct (zmaximum_in (map (fun i => snd (fst i)) indices) stop) as [E0|I]; [fold top in E0|fold top in I].
      - exists start, d. split; auto. lia.
      - apply in_map_iff in I as ([[b e] s] & Ey & I). cbn in Ey.
        pose proof (Good _ I) as (_ & Ee & _). cbn [fst snd] in Ee. exists b, s. rewrite Tag, <- Ee. split; auto. }
    intros c f t Cc Cf T. unfold sg_at, r. cbn [mk_spectrogram sg_channels sg_offset]. rewrite H by lia. f_equal.
    unfold S3. replace (t - mo + mo) with t by lia.
    rewrite (sum_perm O AddC AddA _ _ (Permutation_map (val3 c f t) Perm)). rewrite map_map. reflexivity.
Qed.

End Concat.

Theorem concatenate_spectrograms_ok {A R} (O : ops A) junk (data : list (spectrogram A R)) : exact_addition O ->
  2 <= zlen data -> Forall wf_spectrogram data ->
  exists r, concatenate_spectrograms O junk data = Ok r /\ concatenated_spectrogram O data r.
Proof. intros (H0 & HC & HA). apply concatenate3_ok; auto. Qed.

(** ** After a history of calls *)

Lemma history_spectrograms {A R} (O : ops A) junk mode (h : list (call (spectrogram A R))) : sensible [] h ->
  remaining h <> [] -> Forall wf_spectrogram (remaining h) -> Forall (fun d => 1 <= sg_count d) (remaining h) ->
  exists r, merge_output_spectrograms O junk (run (Merger [] mode) h) = Ok r /\
    merged_spectrogram O (latest_mode mode h) (remaining h) r.
Proof.
  intros S N W C. destruct (history mode h S) as [E1 E2]. unfold merge_output_spectrograms. rewrite E1, E2.
  apply merge_spectrograms_ok; auto.
Qed.
Lemma history_filters {K X} mode (h : list (call (filter K X))) : sensible [] h ->
  remaining h <> [] -> Forall labelled (remaining h) -> Forall (fun d => 1 <= f_count d) (remaining h) ->
  exists r, merge_output_filters (run (Merger [] mode) h) = Ok r /\ merged_filter (latest_mode mode h) (remaining h) r.
Proof.
  intros S N W C. destruct (history mode h S) as [E1 E2]. unfold merge_output_filters. rewrite E1, E2.
  apply merge_filters_ok; auto.
Qed.
Lemma history_concatenated_spectrograms {A R} (O : ops A) junk mode (h : list (call (spectrogram A R))) : exact_addition O ->
  sensible [] h -> 2 <= zlen (remaining h) -> Forall wf_spectrogram (remaining h) ->
  exists r, concatenate_spectrograms O junk (multi_values (mg_data (run (Merger [] mode) h))) = Ok r /\
    concatenated_spectrogram O (remaining h) r.
Proof.
  intros X S N W. destruct (history mode h S) as [E1 E2]. rewrite E1. apply concatenate_spectrograms_ok; auto.
Qed.
(** Replacing a data set, that is not there, adds it. *)
Lemma replace_unknown {D} (s : merger D) i d : ~ In i (multi_ids (mg_data s)) ->
  exists s', perform s (Replace i d) = Ok s' /\ multi_values (mg_data s') = multi_values (mg_data s) ++ [d] /\ mg_mode s' = mg_mode s.
Proof.
  intros N. cbn. eexists. split; [reflexivity|]. split; auto. cbn [mg_data]. unfold multi_ids, multi_values in *.
  induction (mg_data s) as [|[k x] m IH]; auto. cbn [map fst snd multi_replace] in *.
  destruct (Z.eqb_spec k i) as [->|]; [exfalso; cbn in N; tauto|]. cbn [map snd app]. rewrite IH; auto. cbn in N. tauto.
Qed.
