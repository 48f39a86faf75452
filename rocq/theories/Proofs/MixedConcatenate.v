(** Concatenating data sets with different types *)

From Coq Require Import String ZArith List Bool Lia ZifyBool Permutation.
From Verif.Model Require Import Py Numpy Functions Signal Spectrum Cube Spectrogram Terms Filter Merge Concatenate CubeBlocks MixedBlocks.
From Verif.Spec Require Import TimeSpec FrequencySpec MergeSpec MixedSpec.
From Verif.Proofs Require Import PyFacts NumpyFacts MergeOrder MergeFacts MixedMerge.
Import ListNotations.
Open Scope Z_scope.

(** ** Sorting *)

Definition under {D E} (g : D -> E) (x : (Z * Z) * D) : (Z * Z) * E := (fst x, g (snd x)).

Lemma spans_map {D E} (g : D -> E) (o l : E -> Z) data : forall i, spans o l i (map g data) = map (under g) (spans (fun d => o (g d)) (fun d => l (g d)) i data).
Proof. induction data as [| d data IH]; intros i; [reflexivity |]. cbn [map spans]. rewrite IH. reflexivity. Qed.
Lemma insert_map {D E} (g : D -> E) x l : insert_span (under g x) (map (under g) l) = map (under g) (insert_span x l).
Proof. induction l as [| y l IH]; [reflexivity |]. cbn [map insert_span under fst]. destruct (span_le _ _); [reflexivity |]. cbn [map]. now rewrite <- IH. Qed.
Lemma sort_map {D E} (g : D -> E) l : sort_spans (map (under g) l) = map (under g) (sort_spans l).
Proof. induction l as [| y l IH]; [reflexivity |]. cbn [map sort_spans fold_right]. fold (sort_spans (map (under g) l)). rewrite IH. apply insert_map. Qed.

Lemma insert_in {D} (x y : (Z * Z) * D) l : In y (insert_span x l) <-> y = x \/ In y l.
Proof.
  induction l as [| z l IH]; [cbn; intuition auto |]. cbn [insert_span]. destruct (span_le _ _); cbn [In]; [intuition auto |]. rewrite IH. intuition auto.
Qed.
Lemma sort_in {D} (y : (Z * Z) * D) l : In y (sort_spans l) <-> In y l.
Proof. induction l as [| z l IH]; [reflexivity |]. cbn [sort_spans fold_right]. fold (sort_spans l). rewrite insert_in, IH. cbn [In]. intuition auto. Qed.
Lemma spans_in {D} (o l : D -> Z) d data : In d data -> forall i, exists s, In (s, d) (spans o l i data).
Proof.
  induction data as [| x data IH]; intros I i; [destruct I |]. destruct I as [-> | I]; cbn [spans].
  - eexists. left. reflexivity.
  - destruct (IH I (i + o x + l x)) as (s & S). exists s. right. exact S.
Qed.
Lemma in_spans {D} (o l : D -> Z) s d data : forall i, In (s, d) (spans o l i data) -> In d data.
Proof.
  induction data as [| x data IH]; intros i I; [destruct I |]. destruct I as [E | I]; [injection E as _ ->; left; reflexivity | right; eapply IH, I].
Qed.

Lemma in_combine_longer {B C} (a : list B) (b : list C) x : zlen a <= zlen b -> In x a -> exists y, In (x, y) (combine a b).
Proof.
  revert b. induction a as [| z a IH]; intros [| y b] L I; [destruct I | destruct I | unfold zlen in L; cbn in L; lia |].
  destruct I as [-> | I]; [exists y; left; reflexivity |]. destruct (IH b) as (w & W); [unfold zlen in *; cbn in *; lia | exact I |].
  exists w. right. exact W.
Qed.

Section Mixed.
Context {A K X : Type}.
Variable O : ops A.
Variable re : A -> A.
Variable junk : Z -> Z -> A.
Variable junk3 : Z -> Z -> Z -> A.
Notation dataset := (dataset A K X).
Notation concatenate := (concatenate_mixed (K := K) (X := X) O re junk junk3).

(** ** The same type *)

Definition after_sorting (first : dataset) (n : Z) (indices : list ((Z * Z) * part)) : result dataset :=
  match indices with
  | [] => Err IndexError
  | (((start, stop), p) :: others) =>
      let offset := zminimum start (map (fun i => fst (fst i)) indices) in
      let len := zmaximum stop (map (fun i => snd (fst i)) indices) - offset in
      match part_array p with
      | Array2 d =>
          m <- allocate junk n len ;;
          let c := between (start - offset) (stop - offset) in
          m <- set_block m (between 0 (nrows d)) c d ;;
          m <- (if nrows d <? n then set_block m (from (nrows d)) c (scalar (o_zero O)) else Ok m) ;;
          st <- for_each (combine others indices) (mixed_concatenate_signal_step O re offset n) (m, 0) ;;
          rate <- d_rate first ;;
          Ok (DSignal (mk_signal (fst st) rate offset (Some (concatenation_labels n))))
      | Array3 d =>
          let f := zmaximum (dim1 d) (map (fun i => shape1 (part_array (snd i))) indices) in
          m <- allocate3 junk3 n f len ;;
          m <- copy_spectrogram O n f m (dim0 d) (dim1 d) (between (start - offset) (stop - offset)) d ;;
          st <- for_each (combine others indices) (mixed_concatenate_spectrogram_step O offset n f) (m, 0) ;;
          resolution <- d_resolution first ;;
          rate <- d_rate first ;;
          Ok (DSpectrogram (mk_spectrogram (fst st) resolution rate offset (Some (concatenation_labels n))))
      end
  end.

Lemma concatenate_branch d d' l : concatenate (d :: d' :: l) =
  (parts <- sequence (map part_of (d :: d' :: l)) ;;
   after_sorting d (zmaximum 0 (map (fun p => shape0 (part_array p)) parts)) (sort_spans (spans part_offset part_length 0 parts))).
Proof. unfold concatenate_mixed, after_sorting. destruct (sequence _) as [parts |]; [| reflexivity]. cbn [bind]. destruct (sort_spans _) as [| [[start stop] p] others]; reflexivity. Qed.

Definition signal_part (s : signal A) : part := Part (offset s) (Signal.length s) (Array2 (channels s)).
Definition spectrogram_part (s : spectrogram A A) : part := Part (sg_offset s) (sg_length s) (Array3 (sg_channels s)).

Lemma pairs_map {D E} (g : D -> E) (a b : list ((Z * Z) * D)) :
  combine (map (under g) a) (map (under g) b) = map (fun p => (under g (fst p), under g (snd p))) (combine a b).
Proof. revert b. induction a as [| x a IH]; intros [| y b]; cbn; [reflexivity .. |]. now rewrite IH. Qed.

Lemma concatenate_same_signals (l : list (signal A)) : concatenate (map DSignal l) = rmap DSignal (concatenate_signals O junk l).
Proof.
  destruct l as [| s [| s' l]]; [reflexivity .. |]. cbn [map]. rewrite concatenate_branch.
  change (DSignal s :: DSignal s' :: map DSignal l) with (map (@DSignal A K X) (s :: s' :: l)). rewrite map_map.
  rewrite (sequence_ok _ signal_part) by reflexivity. cbn [bind]. rewrite map_map, spans_map, sort_map. cbn [signal_part part_offset part_length part_array shape0].
  unfold concatenate_signals. change (fun d => offset d) with (@offset A). change (fun d => Signal.length d) with (@Signal.length A).
  change (map (fun x : signal A => nrows (channels x)) (s :: s' :: l)) with (map count (s :: s' :: l)).
  destruct (sort_spans (spans offset Signal.length 0 (s :: s' :: l))) as [| [[start stop] d] others]; [reflexivity |].
  unfold after_sorting. cbn [map under fst snd part_array signal_part]. rewrite !map_map. cbn [under fst snd].
  destruct (allocate junk _ _) as [m |]; [| reflexivity]. cbn [bind].
  destruct (set_block m _ _ _) as [m1 |]; [| reflexivity]. cbn [bind].
  destruct (if nrows (channels d) <? _ then _ else _) as [m2 |]; [| reflexivity]. cbn [bind].
  change (under signal_part (start, stop, d) :: map (under signal_part) others) with (map (under signal_part) (((start, stop), d) :: others)).
  rewrite pairs_map. erewrite each_map with (h := concatenate_step O _ _).
  2: { intros [m0 i0] [[[a b] x] [[a' b'] x']]. reflexivity. }
  destruct (for_each _ _ _) as [[m' i'] |]; reflexivity.
Qed.

Lemma concatenate_same_spectrograms (l : list (spectrogram A A)) : concatenate (map DSpectrogram l) = rmap DSpectrogram (concatenate_spectrograms O junk3 l).
Proof.
  destruct l as [| s [| s' l]]; [reflexivity .. |]. cbn [map]. rewrite concatenate_branch.
  change (DSpectrogram s :: DSpectrogram s' :: map DSpectrogram l) with (map (@DSpectrogram A K X) (s :: s' :: l)). rewrite map_map.
  rewrite (sequence_ok _ spectrogram_part) by reflexivity. cbn [bind]. rewrite map_map, spans_map, sort_map. cbn [spectrogram_part part_offset part_length part_array shape0].
  unfold concatenate_spectrograms. change (fun d => sg_offset d) with (@sg_offset A A). change (fun d => sg_length d) with (@sg_length A A).
  change (map (fun x : spectrogram A A => dim0 (sg_channels x)) (s :: s' :: l)) with (map sg_count (s :: s' :: l)).
  destruct (sort_spans (spans sg_offset sg_length 0 (s :: s' :: l))) as [| [[start stop] d] others]; [reflexivity |].
  unfold after_sorting. cbn [map under fst snd part_array spectrogram_part]. rewrite !map_map. cbn [under fst snd part_array spectrogram_part shape1].
  destruct (allocate3 junk3 _ _ _) as [m |]; [| reflexivity]. cbn [bind].
  destruct (copy_spectrogram O _ _ m _ _ _ _) as [m1 |]; [| reflexivity]. cbn [bind].
  change (under spectrogram_part (start, stop, d) :: map (under spectrogram_part) others) with (map (under spectrogram_part) (((start, stop), d) :: others)).
  rewrite pairs_map. erewrite each_map with (h := concatenate_spectrogram_step O _ _ _).
  2: { intros [m0 i0] [[[a b] x] [[a' b'] x']]. reflexivity. }
  destruct (for_each _ _ _) as [[m' i'] |]; reflexivity.
Qed.

(** ** Different types *)

Lemma sheet_block_refused (m x : arr A) c : 2 <= nrows x -> exists e, set_block m (between 0 1) c x = Err e.
Proof.
  intros H. unfold set_block. assert (U : upper (between 0 1) (nrows m) - lower (between 0 1) (nrows m) <= 1).
  { pose proof (zlen_nonneg (rows m)). unfold nrows in *. unfold_bounds. zcases; lia. }
  unfold broadcast. destruct (negb _); [eexists; reflexivity |]. destruct (Z.eqb_spec (nrows x) (upper (between 0 1) (nrows m) - lower (between 0 1) (nrows m))); [lia |].
  destruct (rows x) as [| r [| r' t]] eqn:E; [eexists; reflexivity | | eexists; reflexivity].
  exfalso. unfold nrows in H. rewrite E in H. unfold zlen in H. cbn in H. lia.
Qed.

Lemma sheet_refused (m : arr A) c q : 2 <= dim1 q -> exists e, assign2 re m (between 0 (dim0 q)) c (Array3 q) = Err e.
Proof.
  intros H. cbn [assign2]. destruct (Z.eqb_spec (dim0 q) 1) as [-> |]; [| eexists; reflexivity]. apply sheet_block_refused.
  unfold ufunc1, nrows. cbn [rows]. rewrite zlen_map. change (2 <= nrows (sheet q 0)). rewrite nrows_sheet; lia.
Qed.

Lemma signal_step_refused offset n st start stop p previous q : part_array p = Array3 q -> 2 <= dim1 q ->
  exists e, mixed_concatenate_signal_step O re offset n st (((start, stop), p), previous) = Err e.
Proof.
  intros E H. destruct st as [m last]. destruct previous as [[a b] x]. unfold mixed_concatenate_signal_step. rewrite E. cbn [shape0 add2].
  destruct (start - offset <? Z.max last (b - offset)).
  - destruct (stop - offset <=? Z.max last (b - offset)); eexists; reflexivity.
  - destruct (Z.max last (b - offset) <? start - offset).
    + destruct (set_block m everything _ _) as [m1 |]; [| eexists; reflexivity]. cbn [bind].
      edestruct (sheet_refused m1) as (e & ->); [exact H | eexists; reflexivity].
    + edestruct (sheet_refused m) as (e & ->); [exact H | eexists; reflexivity].
Qed.

Lemma set3_dim (m s m' : cube A) b0 b1 b2 : set3 m b0 b1 b2 s = Ok m' -> dim1 m' = dim1 m.
Proof. unfold set3. destruct (fits3 _ _ _ _); [| discriminate]. intros [= <-]. reflexivity. Qed.
Lemma add3_dim (m s m' : cube A) b0 b1 b2 : add3 O m b0 b1 b2 s = Ok m' -> dim1 m' = dim1 m.
Proof. unfold add3, ufunc3_into. destruct (ufunc3 _ _ _ _ _ _) as [x |]; [| discriminate]. cbn [bind]. apply set3_dim. Qed.
Lemma copy_dim n f m l g t (d m' : cube A) : copy_spectrogram O n f m l g t d = Ok m' -> dim1 m' = dim1 m.
Proof.
  unfold copy_spectrogram. destruct (set3 m _ _ _ _) as [m1 |] eqn:E1; [| discriminate]. cbn [bind]. apply set3_dim in E1.
  destruct (g <? f).
  - destruct (set3 m1 _ _ _ _) as [m2 |] eqn:E2; [| discriminate]. cbn [bind]. apply set3_dim in E2. destruct (l <? n).
    + intros E. apply set3_dim in E. congruence.
    + intros [= <-]. congruence.
  - cbn [bind]. destruct (l <? n).
    + intros E. apply set3_dim in E. congruence.
    + intros [= <-]. congruence.
Qed.

Lemma spectrogram_step_dim offset n f st item st' : mixed_concatenate_spectrogram_step O offset n f st item = Ok st' -> dim1 (fst st') = dim1 (fst st).
Proof.
  destruct st as [m last], item as [[[start stop] p] [[a b] x]]. unfold mixed_concatenate_spectrogram_step, mixed_copy.
  destruct (start - offset <? Z.max last (b - offset)).
  - destruct (stop - offset <=? Z.max last (b - offset)).
    + destruct (add3 O m _ _ _ _) as [m1 |] eqn:E1; [| discriminate]. intros [= <-]. cbn [fst]. eapply add3_dim, E1.
    + destruct (frames _ _) as [x1 |]; [| discriminate]. cbn [bind]. destruct (add3 O m _ _ _ _) as [m1 |] eqn:E1; [| discriminate]. cbn [bind].
      destruct (frames _ _) as [x2 |]; [| discriminate]. cbn [bind]. destruct (copy_spectrogram O _ _ m1 _ _ _ _) as [m2 |] eqn:E2; [| discriminate].
      intros [= <-]. cbn [fst]. apply add3_dim in E1. apply copy_dim in E2. congruence.
  - destruct (Z.max last (b - offset) <? start - offset).
    + destruct (set3 m _ _ _ _) as [m1 |] eqn:E1; [| discriminate]. cbn [bind]. destruct (copy_spectrogram O _ _ m1 _ _ _ _) as [m2 |] eqn:E2; [| discriminate].
      intros [= <-]. cbn [fst]. apply set3_dim in E1. apply copy_dim in E2. congruence.
    + destruct (copy_spectrogram O _ _ m _ _ _ _) as [m2 |] eqn:E2; [| discriminate]. intros [= <-]. cbn [fst]. eapply copy_dim, E2.
Qed.

Lemma sheet_unfit (a : arr A) n0 f n2 F : 0 <= cols a -> cols a <= F -> nrows a <> 1 -> nrows a <> cols a -> f = cols a ->
  fits3 (cube_of a) n0 (upper (between 0 f) F - lower (between 0 f) F) n2 = false.
Proof.
  intros H1 H2 H3 H4 ->. assert (U : upper (between 0 (cols a)) F - lower (between 0 (cols a)) F = cols a) by (unfold_bounds; zcases; lia).
  rewrite U. unfold fits3, fits, cube_of. cbn [dim0 dim1 dim2]. destruct (Z.eqb_spec (nrows a) (cols a)); [lia |]. destruct (Z.eqb_spec (nrows a) 1); [lia |].
  cbn. now rewrite andb_false_r.
Qed.

Lemma spectrogram_step_refused offset n f st start stop p previous a : part_array p = Array2 a -> 0 <= cols a -> nrows a <> 1 -> nrows a <> cols a ->
  cols a <= f -> dim1 (fst st) = f -> exists e, mixed_concatenate_spectrogram_step O offset n f st (((start, stop), p), previous) = Err e.
Proof.
  intros E H1 H2 H3 H4 D. destruct st as [m last]. destruct previous as [[x y] z]. cbn [fst] in D. unfold mixed_concatenate_spectrogram_step, mixed_copy. rewrite E.
  cbn [shape0 shape1 frames operand].
  assert (C : forall m1 t, dim1 m1 = f -> exists e, copy_spectrogram O n f m1 (nrows a) (cols a) t (cube_of a) = Err e).
  { intros m1 t D1. unfold copy_spectrogram, set3. rewrite sheet_unfit by (auto; lia). eexists; reflexivity. }
  destruct (start - offset <? Z.max last (y - offset)).
  - destruct (stop - offset <=? Z.max last (y - offset)); [| eexists; reflexivity].
    unfold add3, ufunc3_into, ufunc3. rewrite (sheet_unfit a) by (auto; lia). rewrite andb_false_r. eexists; reflexivity.
  - destruct (Z.max last (y - offset) <? start - offset).
    + destruct (set3 m _ _ _ _) as [m1 |] eqn:E1; [| eexists; reflexivity]. cbn [bind]. apply set3_dim in E1.
      destruct (C m1 (between (start - offset) (stop - offset))) as (e & ->); [congruence | eexists; reflexivity].
    + destruct (C m (between (start - offset) (stop - offset))) as (e & ->); [exact D | eexists; reflexivity].
Qed.

Theorem concatenate_mixed_result data r : Forall proper data -> mixed data -> concatenate data = Ok r ->
  kind_of r = KSpectrogram /\ forall s, In (DSignal s) data -> count s = 1 \/ count s = Signal.length s.
Proof.
  intros P M E. rewrite Forall_forall in P. destruct data as [| d [| d' l]].
  - destruct M as (a & _ & [] & _).
  - destruct M as (a & b & [<- | []] & [<- | []] & N). congruence.
  - rewrite concatenate_branch in E. set (data := d :: d' :: l) in *. destruct (sequence (map part_of data)) as [parts |] eqn:S; [| discriminate]. cbn [bind] in E.
    assert (Q : forall x, In x data -> exists y s, part_of x = Ok y /\ In (s, y) (sort_spans (spans part_offset part_length 0 parts))).
    { intros x I. destruct (sequence_in _ _ _ S x I) as (y & Y1 & Y2). destruct (spans_in part_offset part_length y parts Y2 0) as (s & I'). exists y, s.
      split; [exact Y1 |]. apply sort_in, I'. }
    set (n := zmaximum 0 _) in E. destruct (sort_spans (spans part_offset part_length 0 parts)) as [| [[start stop] p] others] eqn:SO; [discriminate |].
    unfold after_sorting in E. set (indices := ((start, stop), p) :: others) in *.
    destruct (part_array p) as [a0 | q0] eqn:PA.
    + exfalso. destruct (mixed_other KSignal data M) as (x & Ix & Nx). destruct (Q x Ix) as (y & s & Y & I).
      destruct x as [x | x | x | x | x]; cbn in Nx, Y; try congruence. injection Y as <-. pose proof (P _ Ix) as (_ & _ & F).
      destruct I as [I | I]; [injection I as _ I; rewrite I in PA; discriminate |].
      destruct (in_combine_longer others indices _ ltac:(unfold indices, zlen; cbn; lia) I) as (pr & Ip).
      destruct (allocate junk _ _) as [m |]; [| discriminate]. cbn [bind] in E. destruct (set_block m _ _ _) as [m1 |]; [| discriminate]. cbn [bind] in E.
      destruct (if nrows a0 <? n then _ else _) as [m2 |]; [| discriminate]. cbn [bind] in E.
      edestruct (each_bad (fun _ => True) (mixed_concatenate_signal_step O re (zminimum start (map (fun i => fst (fst i)) indices)) n)) as (e & B); [| | exact Ip | exact Logic.I | rewrite B in E; discriminate].
      * auto.
      * intros st _. destruct s as [s0 s1]. eapply signal_step_refused; [reflexivity | exact F].
    + split.
      * destruct (allocate3 junk3 _ _ _) as [m |]; [| discriminate]. cbn [bind] in E. destruct (copy_spectrogram O _ _ m _ _ _ _) as [m1 |]; [| discriminate]. cbn [bind] in E.
        destruct (for_each _ _ _) as [st |]; [| discriminate]. cbn [bind] in E. destruct (d_resolution d); [| discriminate]. cbn [bind] in E.
        destruct (d_rate d); [| discriminate]. cbn [bind] in E. injection E as <-. reflexivity.
      * intros s Is. destruct (Q _ Is) as (y & sp & Y & I). cbn in Y. injection Y as <-. pose proof (P _ Is) as ((W & _) & C).
        destruct (Z.eq_dec (count s) 1); [left; assumption |]. destruct (Z.eq_dec (count s) (Signal.length s)); [right; assumption |]. exfalso.
        destruct I as [I | I]; [injection I as _ I; rewrite I in PA; discriminate |].
        destruct (in_combine_longer others indices _ ltac:(unfold indices, zlen; cbn; lia) I) as (pr & Ip).
        set (f := zmaximum (dim1 q0) _) in E.
        assert (Ff : cols (channels s) <= f).
        { apply zmaximum_ge. apply (in_map (fun i : Z * Z * part => shape1 (part_array (snd i))) indices (sp, Part (offset s) (Signal.length s) (Array2 (channels s)))). right. exact I. }
        destruct (allocate3 junk3 n f _) as [m |] eqn:EA; [| discriminate]. cbn [bind] in E. destruct (copy_spectrogram O _ _ m _ _ _ _) as [m1 |] eqn:E1; [| discriminate]. cbn [bind] in E.
        apply copy_dim in E1. assert (D : dim1 m = f) by (unfold allocate3 in EA; destruct (_ || _)%bool; [discriminate | injection EA as <-; reflexivity]).
        edestruct (each_bad (fun st : cube A * Z => dim1 (fst st) = f) (mixed_concatenate_spectrogram_step O (zminimum start (map (fun i => fst (fst i)) indices)) n f)) as (e & B);
          [| | exact Ip | | rewrite B in E; discriminate].
        -- intros st y st' V G. rewrite (spectrogram_step_dim _ _ _ _ _ _ G). exact V.
        -- intros st V. destruct sp as [s0 s1]. eapply spectrogram_step_refused; [reflexivity | exact (proj1 W) | exact n0 | exact n1 | exact Ff | exact V].
        -- cbn [fst]. congruence.
Qed.
End Mixed.
