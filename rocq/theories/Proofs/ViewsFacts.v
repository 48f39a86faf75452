(** The derived parameters of data sets: Model/Views.v. *)

From Coq Require Import ZArith QArith Qfield Reals List Bool Lia Lra ZifyBool.
From Verif.Model Require Import Py Numpy Signal Spectrum Cube Spectrogram Tables Views.
From Verif.Spec Require Import InterpolationSpec ComplexSpec ViewsSpec.
From Verif.Proofs Require Import PyFacts NumpyFacts CubeFacts TableResults TableSpectrum ComplexFacts.
Import ListNotations.
Open Scope Z_scope.

(** ** Axes *)
Lemma linspace_evenly a b n step : 0 <= n -> (1 < n -> (b == a + inject_Z (n - 1) * step)%Q) ->
  exists l, linspace a b n = Ok l /\ evenly_spaced l n a step.
Proof.
  intros N H. destruct (linspace_ok a b n N) as (l & E & L & V). exists l. split; auto. split; auto. intros k I.
  destruct (V k I) as (t & Et & T1 & T2). exists t. split; auto.
  destruct (Z.eq_dec n 1) as [->|N1].
  - assert (k = 0) as -> by lia. rewrite T1 by auto. change (inject_Z 0) with 0%Q. ring.
  - rewrite T2, H by lia. field. apply positive_nonzero, inject_pos. lia.
Qed.

Lemma times_evenly o n rate : (~ rate == 0)%Q -> 0 <= n ->
  exists l, linspace (inject_Z o / rate)%Q (inject_Z (n + o - 1) / rate)%Q n = Ok l /\ evenly_spaced l n (inject_Z o / rate) (1 / rate).
Proof.
  intros R N. apply linspace_evenly; auto. intros _. replace (n + o - 1) with (o + (n - 1)) by lia. rewrite inject_Z_plus. field. auto.
Qed.

Lemma signal_axis s : wf_signal s -> (~ sampling_rate s == 0)%Q ->
  exists l d, time_samples s = Ok l /\ evenly_spaced l (Signal.length s) (inject_Z (offset s) / sampling_rate s) (1 / sampling_rate s) /\
    signal_duration s = Ok d /\ (d * sampling_rate s == inject_Z (Signal.length s))%Q.
Proof.
  intros W R. destruct (times_evenly (offset s) (Signal.length s) _ R) as (l & E & H); [apply W|].
  exists l. unfold time_samples, signal_duration. destruct (Qeq_bool (sampling_rate s) 0) eqn:Z; [apply Qeq_bool_iff in Z; tauto|].
  eexists. do 3 (split; eauto). field. auto.
Qed.

Lemma signal_axis_error s : (sampling_rate s == 0)%Q -> time_samples s = Err ZeroDivisionError /\ signal_duration s = Err ZeroDivisionError.
Proof. intros H. apply Qeq_bool_iff in H. unfold time_samples, signal_duration. rewrite H. auto. Qed.

Lemma spectrum_axis {A} (s : spectrum A Q) : wf_spectrum s ->
  exists l, frequency_samples s = Ok l /\ evenly_spaced l (sp_length s) 0 (resolution s) /\
    forall x, zth l (sp_length s - 1) = Some x -> (x == spectrum_maximum_frequency s)%Q.
Proof.
  intros W. unfold frequency_samples. destruct (linspace_evenly 0%Q (inject_Z (sp_length s - 1) * resolution s) (sp_length s) (resolution s)) as (l & E & H).
  - apply W.
  - intros _. ring.
  - exists l. do 2 (split; auto). intros x Hx. destruct H as [L H]. pose proof (zth_range _ _ _ Hx).
    destruct (H (sp_length s - 1)) as (y & Hy & Ey); [lia|]. rewrite Hx in Hy. injection Hy as <-. rewrite Ey. unfold spectrum_maximum_frequency. ring.
Qed.

Lemma spectrogram_axes {A} (s : spectrogram A Q) : wf_spectrogram s -> (~ sg_rate s == 0)%Q ->
  exists f t d, spectrogram_frequency_samples s = Ok f /\ evenly_spaced f (sg_frequencies s) 0 (sg_resolution s) /\
    (forall x, zth f (sg_frequencies s - 1) = Some x -> (x == spectrogram_maximum_frequency s)%Q) /\
    spectrogram_time_samples s = Ok t /\ evenly_spaced t (sg_length s) (inject_Z (sg_offset s) / sg_rate s) (1 / sg_rate s) /\
    spectrogram_duration s = Ok d /\ (d * sg_rate s == inject_Z (sg_length s))%Q.
Proof.
  intros [(_ & W1 & W2 & _) _] R. unfold spectrogram_frequency_samples.
  destruct (linspace_evenly 0%Q (spectrogram_maximum_frequency s) (sg_frequencies s) (sg_resolution s)) as (f & E & H); auto.
  { intros _. unfold spectrogram_maximum_frequency. ring. }
  destruct (times_evenly (sg_offset s) (sg_length s) _ R W2) as (l & El & Hl).
  exists f, l. unfold spectrogram_time_samples, spectrogram_duration. destruct (Qeq_bool (sg_rate s) 0) eqn:Z; [apply Qeq_bool_iff in Z; tauto|].
  eexists. do 2 (split; eauto). split; [|do 3 (split; eauto); field; auto].
  intros x Hx. destruct H as [L H]. pose proof (zth_range _ _ _ Hx).
  destruct (H (sg_frequencies s - 1)) as (y & Hy & Ey); [lia|]. rewrite Hx in Hy. injection Hy as <-. rewrite Ey. unfold spectrogram_maximum_frequency. ring.
Qed.

(** ** The polar form *)
Open Scope R_scope.

Lemma ltb_true x y : R_ltb x y = true -> x < y.
Proof. unfold R_ltb. destruct (Rlt_dec x y); auto; discriminate. Qed.
Lemma ltb_false x y : R_ltb x y = false -> y <= x.
Proof. unfold R_ltb. destruct (Rlt_dec x y); intros; [discriminate|lra]. Qed.

Lemma polar_right x y : 0 < x -> sqrt (x * x + y * y) * cos (atan (y / x)) = x /\ sqrt (x * x + y * y) * sin (atan (y / x)) = y.
Proof.
  intros X. set (t := atan (y / x)). assert (B := atan_bound (y / x)). fold t in B.
  assert (Ct : 0 < cos t) by (apply cos_gt_0; lra).
  assert (Tt : sin t = cos t * (y / x)). { rewrite <- (tan_atan (y / x)). fold t. unfold tan. field. lra. }
  assert (S : sqrt (x * x + y * y) = x / cos t).
  { apply sqrt_lem_1; [nra|apply Rlt_le, Rdiv_lt_0_compat; auto|]. pose proof (sin2_cos2 t) as P. unfold Rsqr in P.
    assert (Q : cos t * cos t * (x * x + y * y) = x * x). { transitivity (x * x * (sin t * sin t + cos t * cos t)); [rewrite Tt; field; lra|rewrite P; ring]. }
    apply (Rmult_eq_reg_l (cos t * cos t)); [|nra]. rewrite Q. field. lra. }
  rewrite S, Tt. split; field; lra.
Qed.

Lemma polar z : Cmul (C_of_R (modulus z)) (cis (argument z)) = z.
Proof.
  destruct z as [x y]. apply C_ext; unfold Cmul, C_of_R, cis, modulus, norm2, argument, re, im; cbn [fst snd].
  all: destruct (R_ltb 0 x) eqn:E1; [apply ltb_true in E1|apply ltb_false in E1].
  1, 3: destruct (polar_right x y E1); lra.
  all: destruct (R_ltb x 0) eqn:E2; [apply ltb_true in E2|apply ltb_false in E2].
  1, 3: destruct (polar_right (- x) (- y)) as [Pc Ps]; [lra|];
    replace (- y / - x) with (y / x) in * by (field; lra); replace (- x * - x + - y * - y) with (x * x + y * y) in * by ring;
    destruct (R_ltb y 0);
    [rewrite cos_minus, sin_minus, cos_PI, sin_PI; lra|rewrite neg_cos, neg_sin; lra].
  all: assert (x = 0) as -> by lra; replace (0 * 0 + y * y) with (y * y) by ring;
    destruct (R_ltb 0 y) eqn:E3; [apply ltb_true in E3; rewrite ?cos_PI2, ?sin_PI2, ?(sqrt_square y) by lra; lra|apply ltb_false in E3].
  all: destruct (R_ltb y 0) eqn:E4; [apply ltb_true in E4|apply ltb_false in E4].
  1, 3: rewrite ?cos_neg, ?sin_neg, ?cos_PI2, ?sin_PI2; replace (y * y) with (- y * - y) by ring; rewrite ?(sqrt_square (- y)) by lra; lra.
  all: assert (y = 0) as -> by lra; rewrite cos_0, sin_0, Rmult_0_l, sqrt_0; lra.
Qed.

Lemma argument_range z : - PI < argument z <= PI.
Proof.
  destruct z as [x y]. unfold argument, re, im; cbn [fst snd]. pose proof PI_RGT_0. pose proof (atan_bound (y / x)).
  destruct (R_ltb 0 x) eqn:E1; [lra|apply ltb_false in E1].
  destruct (R_ltb x 0) eqn:E2; [apply ltb_true in E2|].
  - destruct (R_ltb y 0) eqn:E3.
    + apply ltb_true in E3. assert (P : 0 < y / x) by (replace (y / x) with (- y / - x) by (field; lra); apply Rdiv_lt_0_compat; lra).
      apply atan_increasing in P. rewrite atan_0 in P. lra.
    + apply ltb_false in E3. assert (P : y / x <= 0).
      { replace (y / x) with (- (y / - x)) by (field; lra). assert (0 <= y / - x) by (apply Rmult_le_pos; [lra|apply Rlt_le, Rinv_0_lt_compat; lra]). lra. }
      assert (atan (y / x) <= 0). { destruct P as [P | P]; [apply atan_increasing in P; rewrite atan_0 in P; lra|rewrite P, atan_0; lra]. } lra.
  - destruct (R_ltb 0 y), (R_ltb y 0); lra.
Qed.

(** A number has only one polar form. *)
Lemma polar_unique r t z : 0 < r -> - PI < t <= PI -> Cmul (C_of_R r) (cis t) = z -> r = modulus z /\ t = argument z.
Proof.
  intros P T E. assert (Hr : r = modulus z).
  { rewrite <- E. unfold modulus, norm2, Cmul, C_of_R, cis, re, im. cbn [fst snd]. symmetry. apply sqrt_lem_1; try lra.
    - apply Rplus_le_le_0_compat; apply Rle_0_sqr.
    - pose proof (sin2_cos2 t) as S. unfold Rsqr in S. transitivity (r * r * (sin t * sin t + cos t * cos t)); [rewrite S; ring|ring]. }
  split; auto. pose proof (argument_range z) as A. pose proof (polar z) as Q. rewrite <- Hr, <- E in Q. rewrite E in Q.
  set (a := argument z) in *.
  assert (cos a = cos t /\ sin a = sin t) as [Ca Sa].
  { unfold Cmul, C_of_R, cis, re, im in Q, E. cbn [fst snd] in Q, E. rewrite <- E in Q. injection Q as Q1 Q2.
    split; apply (Rmult_eq_reg_l r); lra. }
  assert (D : cos (t - a) = 1). { rewrite cos_minus, Ca, Sa. pose proof (sin2_cos2 t) as S. unfold Rsqr in S. lra. }
  assert (D2 : sin (t - a) = 0). { rewrite sin_minus, Ca, Sa. ring. }
  destruct (Rtotal_order t a) as [L | [L | L]]; auto; exfalso.
  - assert (0 < a - t < 2 * PI) by lra. assert (S : sin (a - t) = 0) by (replace (a - t) with (- (t - a)) by ring; rewrite sin_neg; lra).
    assert (C' : cos (a - t) = 1) by (replace (a - t) with (- (t - a)) by ring; rewrite cos_neg; auto).
    destruct (Rtotal_order (a - t) PI) as [G | [G | G]].
    + pose proof (sin_gt_0 (a - t)). lra.
    + rewrite G, cos_PI in C'. lra.
    + pose proof (sin_lt_0 (a - t)). lra.
  - assert (0 < t - a < 2 * PI) by lra. destruct (Rtotal_order (t - a) PI) as [G | [G | G]].
    + pose proof (sin_gt_0 (t - a)). lra.
    + rewrite G, cos_PI in D. lra.
    + pose proof (sin_lt_0 (t - a)). lra.
Qed.

Lemma cartesian z : Cadd (C_of_R (re z)) (Cmul j (C_of_R (im z))) = z.
Proof. destruct z as [x y]. unfold Cadd, Cmul, C_of_R, j, re, im. cbn. f_equal; ring. Qed.

(** ** The arrays *)
Open Scope Z_scope.

Lemma views_ok z : views_of z (option_map modulus (Some z)) (option_map argument (Some z)) (option_map re (Some z)) (option_map im (Some z)).
Proof.
  exists (modulus z), (argument z), (re z), (im z). do 4 (split; [reflexivity|]).
  split; [apply modulus_nonneg|]. split; [apply argument_range|]. split; [apply polar|apply cartesian].
Qed.

Lemma spectrum_views X (s : spectrum C X) :
  (forall view, In view [spectrum_magnitude numpy_functions s; spectrum_phase numpy_functions s; spectrum_real numpy_functions s; spectrum_imaginary numpy_functions s] ->
     nrows view = sp_count s /\ cols view = sp_length s) /\
  forall c k z, el (sp_channels s) c k = Some z ->
    views_of z (el (spectrum_magnitude numpy_functions s) c k) (el (spectrum_phase numpy_functions s) c k) (el (spectrum_real numpy_functions s) c k) (el (spectrum_imaginary numpy_functions s) c k) /\
    forall power modulo, el (sp_channels (spectrum_abs (complex_ops power modulo) s)) c k = option_map C_of_R (el (spectrum_magnitude numpy_functions s) c k).
Proof.
  unfold spectrum_magnitude, spectrum_phase, spectrum_real, spectrum_imaginary, numpy_functions. cbn [absolute angle real_part imaginary_part]. split; [intros view [<-|[<-|[<-|[<-|[]]]]]; rewrite nrows_ufunc1; split; reflexivity|].
  intros c k z E. rewrite !el_ufunc1, E. split; [apply views_ok|].
  intros. unfold spectrum_abs, mk_spectrum. cbn [sp_channels]. rewrite el_ufunc1, E. reflexivity.
Qed.

Lemma spectrogram_views X (s : spectrogram C X) :
  (forall view, In view [spectrogram_magnitude numpy_functions s; spectrogram_phase numpy_functions s; spectrogram_real numpy_functions s; spectrogram_imaginary numpy_functions s] ->
     dim0 view = sg_count s /\ dim1 view = sg_frequencies s /\ dim2 view = sg_length s) /\
  forall c f n z, cell (sg_channels s) c f n = Some z ->
    views_of z (cell (spectrogram_magnitude numpy_functions s) c f n) (cell (spectrogram_phase numpy_functions s) c f n)
      (cell (spectrogram_real numpy_functions s) c f n) (cell (spectrogram_imaginary numpy_functions s) c f n) /\
    forall power modulo, cell (sg_channels (spectrogram_abs (complex_ops power modulo) s)) c f n = option_map C_of_R (cell (spectrogram_magnitude numpy_functions s) c f n).
Proof.
  split; [intros view [<-|[<-|[<-|[<-|[]]]]]; repeat split|]. intros c f n z E. unfold spectrogram_magnitude, spectrogram_phase, spectrogram_real, spectrogram_imaginary, map3, numpy_functions. cbn [absolute angle real_part imaginary_part].
  cbn [cell]. rewrite E. split; [apply views_ok|]. intros. unfold spectrogram_abs, spectrogram_map, mk_spectrogram, map3. cbn [cell sg_channels]. rewrite E. reflexivity.
Qed.
