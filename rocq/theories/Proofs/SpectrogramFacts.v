(** Spectrograms: the statements of C22 and C43. *)

From Coq Require Import String ZArith QArith List Bool Lia ZifyBool.
From Verif.Model Require Import Py Numpy Functions Signal Spectrum Cube Spectrogram.
From Verif.Spec Require Import TimeSpec SliceSpec FrequencySpec SpectrogramSpec.
From Verif.Proofs Require Import PyFacts NumpyFacts SliceFacts SignalAlgebra SignalShape SignalExtra SignalHelpers MergeOrder CubeFacts
  SpectrogramAlgebra SpectrogramMixed SpectrogramSignal.
Import ListNotations.
Open Scope Z_scope.

Section Facts.
Context {A R : Type}.
Variable O : ops A.
Variable junk : Z -> Z -> Z -> A.
Implicit Types s : spectrogram A R.

(** ** C22 *)

Section Operators.
Hypothesis minus_zero : forall x, o_sub O x (o_zero O) = x.
Hypothesis over_one : forall x, o_div O x (o_one O) = x.

Lemma op_neutral p : forall q x, op_pivot O p = Some q -> op_function O p x q = x.
Proof. destruct p; cbn; intros q x [= <-]; auto. Qed.

Lemma combination_op p gap x y :
  combination (op_function O p) (right_only (op_function O p) (op_pivot O p)) gap x y =
  combination (meaning' O p) (alone' O p) gap x y.
Proof. destruct p; reflexivity. Qed.

Lemma spectrogram_op_ok (p : operator) s o :
  wf_spectrogram s -> wf_spectrogram o -> 1 <= sg_count s -> 1 <= sg_count o ->
  exists r, spectrogram_op O junk p s o = Ok r /\ wf_spectrogram r /\
    sg_resolution r = sg_resolution s /\ sg_rate r = sg_rate s /\
    sg_count r = Z.max (sg_count s) (sg_count o) /\ sg_frequencies r = Z.max (sg_frequencies s) (sg_frequencies o) /\
    sg_begins r = Z.min (sg_begins s) (sg_begins o) /\ sg_ends r = Z.max (sg_ends s) (sg_ends o) /\
    (forall c, 0 <= c < sg_count r -> zth (sg_labels r) c = Some (label_of_result p)) /\
    forall c f t, 0 <= c < sg_count r -> 0 <= f < sg_frequencies r -> sg_begins r <= t < sg_ends r ->
      sg_at r c f t = Some (combination (meaning' O p) (alone' O p) (o_zero O) (operand_sg s c f t) (operand_sg o c f t)).
Proof.
  intros Ws Wo Cs Co.
  destruct (sg_algebra_ok junk (op_function O p) (op_pivot O p) (op_neutral p) O (op_label p) s o)
    as (r & E & W & P1 & P2 & P3 & P4 & P5 & P6 & P7 & C); auto.
  exists r. split; [exact E|]. split; [exact W|]. do 4 (split; [assumption|]). unfold sg_begins, sg_ends in *.
  split; [exact P3|]. split; [lia|].
  split. { intros c Hc. rewrite P4, zth_repeat. replace (_ && _) with true by lia. destruct p; reflexivity. }
  intros c f t Hc Hf Ht. unfold sg_at. rewrite C by lia. rewrite combination_op.
  unfold operand_sg, sg_at, part, stretch. rewrite P3. do 2 f_equal; f_equal; lia.
Qed.

Lemma spectrogram_op_signal_ok (p : operator) s (o : signal A) :
  wf_spectrogram s -> wf_signal o -> 1 <= sg_count s -> 1 <= count o ->
  exists r r', spectrogram_op_signal O junk p s o = Ok r /\ signal_op_spectrogram O junk p o s = Ok r' /\
    (forall q, q = r \/ q = r' -> wf_spectrogram q /\
       sg_resolution q = sg_resolution s /\ sg_rate q = sg_rate s /\
       sg_count q = Z.max (sg_count s) (count o) /\ sg_frequencies q = sg_frequencies s /\
       sg_begins q = Z.min (sg_begins s) (begins o) /\ sg_ends q = Z.max (sg_ends s) (ends o) /\
       forall c, 0 <= c < sg_count q -> zth (sg_labels q) c = Some (label_of_result p)) /\
    forall c f t, 0 <= c < Z.max (sg_count s) (count o) -> 0 <= f < sg_frequencies s ->
      Z.min (sg_begins s) (begins o) <= t < Z.max (sg_ends s) (ends o) ->
      sg_at r c f t = Some (combination (meaning' O p) (alone' O p) (o_zero O) (operand_sg s c f t) (operand_at o c t)) /\
      sg_at r' c f t = Some (combination (meaning' O p) (alone' O p) (o_zero O) (operand_at o c t) (operand_sg s c f t)).
Proof.
  intros Ws Wo Cs Co.
  destruct (sg_algebra_signal_ok junk (op_function O p) (op_pivot O p) (op_neutral p) O (op_label p) s o)
    as (r & E & W & P1 & P2 & P3 & P4 & P5 & P6 & P7 & C); auto; [apply Wo|].
  destruct (sg_algebra_signal_right_ok junk (op_function O p) (op_pivot O p) (op_neutral p) O (op_label p) s o)
    as (r' & E' & W' & P1' & P2' & P3' & P4' & P5' & P6' & P7' & C'); auto; [apply Wo|].
  exists r, r'. split; [exact E|]. split; [exact E'|]. unfold sg_begins, sg_ends, begins, ends in *. split.
  - intros q [-> | ->]; (split; [assumption|]); do 4 (split; [assumption|]);
      (split; [assumption|]); (split; [lia|]);
      intros c Hc; rewrite ?P4, ?P4', zth_repeat; (replace (_ && _) with true by lia); destruct p; reflexivity.
  - intros c f t Hc Hf Ht. unfold sg_at. rewrite C, C' by lia. rewrite !combination_op.
    unfold operand_sg, operand_at, sg_at, at_time, part, value, stretch, count. cbn [ax2]. rewrite P3, P3'.
    split; do 2 f_equal; f_equal; lia.
Qed.

Lemma spectrogram_op_spectrum_ok (p : operator) s (o : spectrum A R) :
  wf_spectrogram s -> wf_spectrum o -> 1 <= sg_count s -> 1 <= sp_count o -> sp_length o = sg_frequencies s ->
  exists r r', spectrogram_op_spectrum O junk p s o = Ok r /\ spectrum_op_spectrogram O junk p o s = Ok r' /\
    (forall q, q = r \/ q = r' -> wf_spectrogram q /\
       sg_resolution q = sg_resolution s /\ sg_rate q = sg_rate s /\
       sg_count q = Z.max (sg_count s) (sp_count o) /\ sg_frequencies q = sg_frequencies s /\
       sg_begins q = sg_begins s /\ sg_ends q = sg_ends s /\
       forall c, 0 <= c < sg_count q -> zth (sg_labels q) c = Some (label_of_result p)) /\
    forall c f t, 0 <= c < Z.max (sg_count s) (sp_count o) -> 0 <= f < sg_frequencies s -> sg_begins s <= t < sg_ends s ->
      sg_at r c f t = either (meaning' O p) (alone' O p) (operand_sg s c f t) (operand_bin o c f) /\
      sg_at r' c f t = either (meaning' O p) (alone' O p) (operand_bin o c f) (operand_sg s c f t).
Proof.
  intros Ws Wo Cs Co Sh.
  destruct (sg_algebra_spectrum_same junk (op_function O p) (op_pivot O p) (op_neutral p) (op_label p) (o_zero O) s o)
    as (r & E & W & P1 & P2 & P3 & P4 & P5 & P6 & P7 & C); auto; [apply Wo|].
  destruct (sg_algebra_spectrum_right_same junk (op_function O p) (op_pivot O p) (op_neutral p) (op_label p) (o_zero O) s o)
    as (r' & E' & W' & P1' & P2' & P3' & P4' & P5' & P6' & P7' & C'); auto; [apply Wo|].
  exists r, r'. split; [exact E|]. split; [exact E'|]. unfold sg_begins, sg_ends, sp_count in *. split.
  - intros q [-> | ->]; (split; [assumption|]); do 4 (split; [assumption|]);
      (split; [assumption|]); (split; [lia|]);
      intros c Hc; rewrite ?P4, ?P4', zth_repeat; (replace (_ && _) with true by lia); destruct p; reflexivity.
  - intros c f t Hc Hf Ht. unfold sg_at. rewrite P3, P3'. rewrite C, C' by lia. rewrite !combination_op.
    unfold operand_sg, operand_bin, bin, sg_at, part, value, stretch, sp_count. cbn [ax2].
    destruct (cell _ _ _ _) eqn:X, (el _ _ _) eqn:Y; auto. exfalso.
    destruct Ws as [Ws _]. destruct Wo as [Wo _].
    destruct (Z.eqb_spec (sg_count s) 1).
    + destruct (cell_in (sg_channels s) 0 f (t - sg_offset s)) as [x X']; auto; unfold sg_count, sg_length in *; try lia. congruence.
    + destruct (Z.eqb_spec (nrows (sp_channels o)) 1).
      * destruct (el_in (sp_channels o) 0 f) as [x X']; auto; unfold sp_length in *; try lia. congruence.
      * destruct (Z_lt_ge_dec c (sg_count s)).
        -- destruct (cell_in (sg_channels s) c f (t - sg_offset s)) as [x X']; auto; unfold sg_count, sg_length in *; try lia. congruence.
        -- destruct (el_in (sp_channels o) c f) as [x X']; auto; unfold sp_length in *; try lia. congruence.
Qed.
End Operators.

Lemma spectrogram_op_spectrum_lengths (p : operator) s (o : spectrum A R) : sp_length o <> sg_frequencies s ->
  spectrogram_op_spectrum O junk p s o = Err ValueError /\ spectrum_op_spectrogram O junk p o s = Err ValueError.
Proof.
  intros H. unfold spectrogram_op_spectrum, spectrum_op_spectrogram, sg_algebra_spectrum, sg_algebra_spectrum_right.
  replace (negb _) with true by lia. auto.
Qed.

(** Numbers and arrays *)
Lemma spectrogram_op_array_ok (p : operator) s (x : cube A) : wf_spectrogram s -> wf_cube x ->
  dim0 x = sg_count s \/ dim0 x = 1 -> dim1 x = sg_frequencies s \/ dim1 x = 1 -> dim2 x = sg_length s \/ dim2 x = 1 ->
  exists r r', spectrogram_op_array O junk p s x = Ok r /\ spectrogram_op_array_right O junk p s x = Ok r' /\
    (forall q, q = r \/ q = r' -> wf_spectrogram q /\
       sg_resolution q = sg_resolution s /\ sg_rate q = sg_rate s /\ sg_labels q = sg_labels s /\
       sg_count q = sg_count s /\ sg_frequencies q = sg_frequencies s /\ sg_begins q = sg_begins s /\ sg_ends q = sg_ends s) /\
    forall c f k, 0 <= c < sg_count s -> 0 <= f < sg_frequencies s -> 0 <= k < sg_length s ->
      exists a b, sg_at s c f (sg_begins s + k) = Some a /\
        cell x (if dim0 x =? 1 then 0 else c) (if dim1 x =? 1 then 0 else f) (if dim2 x =? 1 then 0 else k) = Some b /\
        sg_at r c f (sg_begins s + k) = Some (meaning' O p a b) /\
        sg_at r' c f (sg_begins s + k) = Some (meaning' O p b a).
Proof.
  intros [Ws Ls] Wx X0 X1 X2. unfold spectrogram_op_array, spectrogram_op_array_right, sg_algebra_array, sg_algebra_array_right, elementwise.
  unfold sg_count, sg_frequencies, sg_length, sg_at, sg_begins, sg_ends in *. pose proof Ws as (S0 & S1 & S2 & _).
  set (S := sg_channels s) in *. do_allocate m. do_ufunc m1.
  edestruct (ufunc3_into_ok (op_function O p) x S m everything everything everything) as (m2 & E2 & W2 & F0 & F1 & F2 & C2);
    [assumption|assumption|assumption|bds|bds|bds|bds|bds|bds|lia|lia|lia|lia|lia|lia|].
  rewrite E2. cbn [bind]. do 2 eexists. split; [reflexivity|]. split; [reflexivity|]. split.
  - assert (L : sanitize_labels (Some (sg_labels s)) (dim0 m1) = sg_labels s) by (apply sanitize_same; lia).
    assert (L' : sanitize_labels (Some (sg_labels s)) (dim0 m2) = sg_labels s) by (apply sanitize_same; lia).
    intros q [-> | ->]; (split; [now apply mk_spectrogram_wf|]); cbn [sg_resolution sg_rate sg_labels sg_channels sg_offset mk_spectrogram];
      unfold sg_length; cbn [sg_channels mk_spectrogram];
      repeat split; auto; fold S; try lia.
  - intros c f k Hc Hf Hk. cbn [sg_channels sg_offset mk_spectrogram]. fold S.
    replace (sg_offset s + k - sg_offset s) with k by lia.
    destruct (cell_in S c f k) as [a Ea]; auto.
    destruct (cell_in x (stretch (dim0 x) c) (stretch (dim1 x) f) (stretch (dim2 x) k)) as [b Eb]; auto; try arith.
    exists a, b. split; [exact Ea|]. split; [exact Eb|].
    rewrite C, C2. replace (_ && _ && _) with true by arith. use Ea. rewrite !Z.sub_0_r, Eb. destruct p; split; reflexivity.
Qed.

Lemma spectrogram_op_number_ok (p : operator) s (x : A) : wf_spectrogram s ->
  exists r r', spectrogram_op_array O junk p s (scalar3 x) = Ok r /\ spectrogram_op_array_right O junk p s (scalar3 x) = Ok r' /\
    (forall q, q = r \/ q = r' -> wf_spectrogram q /\
       sg_resolution q = sg_resolution s /\ sg_rate q = sg_rate s /\ sg_labels q = sg_labels s /\
       sg_count q = sg_count s /\ sg_frequencies q = sg_frequencies s /\ sg_begins q = sg_begins s /\ sg_ends q = sg_ends s) /\
    forall c f t, sg_at r c f t = option_map (fun a => meaning' O p a x) (sg_at s c f t) /\
                  sg_at r' c f t = option_map (fun a => meaning' O p x a) (sg_at s c f t).
Proof.
  intros Ws. destruct (scalar3_ok x) as (W & D0 & D1 & D2 & C).
  destruct (spectrogram_op_array_ok p s (scalar3 x)) as (r & r' & E & E' & Q & H); auto.
  exists r, r'. split; [exact E|]. split; [exact E'|]. split; [exact Q|]. intros c f t.
  destruct (Q r) as ((Wr & _) & _ & _ & _ & R0 & R1 & R2 & R3); auto. destruct (Q r') as ((Wr' & _) & _ & _ & _ & R0' & R1' & R2' & R3'); auto.
  unfold sg_at, sg_begins, sg_ends in *. rewrite R2, R2'.
  destruct (cell (sg_channels s) c f (t - sg_offset s)) as [a|] eqn:Ea; cbn [option_map].
  - apply cell_range in Ea as Ra; [|apply Ws]. destruct (H c f (t - sg_offset s)) as (a' & b & Ha & Hb & Hr & Hr'); try apply Ra.
    rewrite D0, D1, D2 in Hb. change (1 =? 1) with true in Hb. cbv iota in Hb. rewrite C in Hb. injection Hb as <-.
    rewrite R2 in Hr. rewrite R2' in Hr'.
    replace (sg_offset s + (t - sg_offset s) - sg_offset s) with (t - sg_offset s) in * by lia.
    rewrite Ha in Ea. injection Ea as ->. auto.
  - assert (NI : ~ (0 <= c < sg_count s /\ 0 <= f < sg_frequencies s /\ 0 <= t - sg_offset s < sg_length s)).
    { intros (I & J & K). destruct (cell_in (sg_channels s) c f (t - sg_offset s)) as [a Ea']; auto; try apply Ws. congruence. }
    unfold sg_count, sg_frequencies, sg_length in *. split; apply cell_out; auto; lia.
Qed.

Lemma spectrogram_unary_ok (conj : A -> A) s : wf_spectrogram s ->
  forall q f, (q = spectrogram_neg O s /\ f = o_neg O) \/ (q = spectrogram_abs O s /\ f = o_abs O) \/
              (q = spectrogram_conjugate conj s /\ f = conj) ->
    wf_spectrogram q /\ sg_resolution q = sg_resolution s /\ sg_rate q = sg_rate s /\ sg_labels q = sg_labels s /\
    sg_count q = sg_count s /\ sg_frequencies q = sg_frequencies s /\ sg_begins q = sg_begins s /\ sg_ends q = sg_ends s /\
    forall c k t, sg_at q c k t = option_map f (sg_at s c k t).
Proof.
  intros [Ws Ls] q f H.
  assert (E : q = spectrogram_map f s) by (destruct H as [[-> ->]|[[-> ->]|[-> ->]]]; reflexivity).
  subst q. unfold spectrogram_map. split; [now apply mk_spectrogram_wf, map3_ok|].
  repeat split; auto. cbn. now apply sanitize_same.
Qed.

End Facts.
