(** Small signals, for which the hypotheses of the theorems about Fourier transforms hold. *)

From Coq Require Import String ZArith List Bool Lia ZifyBool Reals Lra.
From Verif.Model Require Import Py Numpy Functions Signal Spectrum Fft Fourier Convolution.
From Verif.Spec Require Import TimeSpec FrequencySpec RealSpec ComplexSpec DftSpec ConvolutionSpec FourierSpec.
From Verif.Proofs Require Import PyFacts NumpyFacts ComplexFacts DftFacts PlacedFacts MethodFacts FourierFacts FourierResults LevelFacts InvertFacts.
Import ListNotations.
Open Scope Z_scope.
Ltac Zify.zify_post_hook ::= idtac.

(** One channel, the samples 1 at the time -1 and 2 at the time 0 *)
Definition pulse : signal R := Signal (Arr [[1; 2]]%R 2) 48000%R (-1) ["pulse"%string].
Definition triple : signal R := Signal (Arr [[1; 2; 4]]%R 3) 48000%R 0 ["triple"%string].
Definition single : signal R := Signal (Arr [[2]]%R 1) 48000%R 0 ["single"%string].
Definition unit : signal R := Signal (Arr [[1]]%R 1) 48000%R 0 ["unit"%string].
Definition comb : spectrum C R := Spectrum (Arr [[(1, 0); (2, 3); (5, 0)]]%R 3) 10%R ["comb"%string].

Ltac wf_case := split; [split; [cbn; lia|repeat constructor]|reflexivity].

Lemma pulse_wf : wf_signal pulse. Proof. wf_case. Qed.
Lemma pulse_rate : sampling_rate pulse <> 0%R. Proof. cbn. lra. Qed.

Lemma pulse_ok : wf_signal pulse /\ 0 < length pulse /\ length pulse mod 2 = 0 /\ sampling_rate pulse <> 0%R /\
  begins pulse = -1 /\ at_time pulse 0 (-1) = Some 1%R /\ -1 mod length pulse = 1.
Proof. split; [apply pulse_wf|]. split; [reflexivity|]. split; [reflexivity|]. split; [apply pulse_rate|]. auto. Qed.

Lemma pulse_even : wf_signal pulse /\ 0 < length pulse /\ length pulse mod 2 = 0 /\ sampling_rate pulse <> 0%R /\ 0 < count pulse.
Proof. split; [apply pulse_wf|]. split; [reflexivity|]. split; [reflexivity|]. split; [apply pulse_rate|reflexivity]. Qed.

Lemma pulse_sum f : fourier_sum pulse 0 f = Cadd (cis (2 * PI * f)) (C_of_R 2).
Proof.
  unfold fourier_sum, Csum_over_time. change (zseq (begins pulse) (length pulse)) with [-1; 0]. cbn [fold_right].
  change (sample pulse 0 (-1)) with 1%R. change (sample pulse 0 0) with 2%R.
  replace (- (2 * PI * f * IZR (-1)))%R with (2 * PI * f)%R by ring. replace (- (2 * PI * f * IZR 0))%R with 0%R by ring.
  unfold cis, Cadd, Cmul, C_of_R. cbn [fst snd]. rewrite cos_0, sin_0. apply C_ext; cbn; ring.
Qed.

Lemma pulse_spectrum : wf_signal pulse /\ length pulse = 2 /\ sampling_rate pulse <> 0%R /\ count pulse = 1 /\
  fourier_sum pulse 0 (IZR 0 / IZR 2)%R = C_of_R 3 /\ fourier_sum pulse 0 (IZR 1 / IZR 2)%R = C_of_R 1.
Proof.
  split; [apply pulse_wf|]. split; [reflexivity|]. split; [apply pulse_rate|]. split; [reflexivity|]. rewrite !pulse_sum.
  replace (2 * PI * (IZR 0 / IZR 2))%R with 0%R by field. replace (2 * PI * (IZR 1 / IZR 2))%R with PI by field.
  unfold cis. rewrite cos_0, sin_0, cos_PI, sin_PI. split; apply C_ext; cbn; ring.
Qed.

Lemma triple_ok : wf_signal triple /\ 1 < length triple /\ length triple mod 2 = 1 /\ sampling_rate triple <> 0%R.
Proof. split; [wf_case|]. split; [reflexivity|]. split; [reflexivity|]. cbn. lra. Qed.

Lemma comb_ok : wf_spectrum comb /\ 0 < sp_length comb /\ resolution comb <> 0%R /\
  (forall c z, bin comb c 0 = Some z \/ bin comb c (sp_length comb - 1) = Some z -> im z = 0%R) /\ bin comb 0 1 = Some (2%R, 3%R).
Proof.
  split; [wf_case|]. split; [reflexivity|]. split; [cbn; lra|]. split; [|reflexivity]. intros c z H.
  assert (W : wf (sp_channels comb)) by (split; [cbn; lia|repeat constructor]).
  assert (Hc : c = 0). { destruct H as [H|H]; apply el_range in H; auto; change (nrows (sp_channels comb)) with 1 in H; lia. } subst c.
  destruct H as [H|H]; injection H as <-; reflexivity.
Qed.

Lemma pulse_level : wf_signal pulse /\ 0 < length pulse /\ mean_square pulse 0 = (5 / 2)%R.
Proof.
  split; [apply pulse_wf|]. split; [reflexivity|]. unfold mean_square, sum_over_time. change (zseq (begins pulse) (length pulse)) with [-1; 0]. cbn [fold_right].
  change (sample pulse 0 (-1)) with 1%R. change (sample pulse 0 0) with 2%R. change (length pulse) with 2. field.
Qed.

Lemma pulse_overall : wf_signal pulse /\ 0 < length pulse /\ 0 < count pulse /\ overall_mean_square pulse = (5 / 2)%R.
Proof.
  split; [apply pulse_wf|]. split; [reflexivity|]. split; [reflexivity|]. unfold overall_mean_square. change (zseq 0 (count pulse)) with [0]. cbn [fold_right].
  rewrite (proj2 (proj2 pulse_level)). change (count pulse) with 1. field.
Qed.

Lemma pulse_nonzero : wf_signal pulse /\ 0 < length pulse /\ length pulse mod 2 = 0 /\
  forall c k, 0 <= c < count pulse -> 0 <= k <= length pulse / 2 -> fourier_sum pulse c (IZR k / IZR (length pulse))%R <> C_of_R 0.
Proof.
  split; [apply pulse_wf|]. split; [reflexivity|]. split; [reflexivity|]. intros c k Hc Hk. change (count pulse) with 1 in Hc. change (length pulse / 2) with 1 in Hk.
  change (length pulse) with 2. replace c with 0 by lia. destruct pulse_spectrum as (_ & _ & _ & _ & H0 & H1).
  assert (k = 0 \/ k = 1) as [-> | ->] by lia; [rewrite H0|rewrite H1]; intros E; injection E; lra.
Qed.

Lemma single_nonzero : wf_signal single /\ length single mod 2 = 1 /\
  forall c k, 0 <= c < count single -> 0 <= k <= 2 * length single / 2 -> fourier_sum single c (IZR k / IZR (2 * length single))%R <> C_of_R 0.
Proof.
  split; [wf_case|]. split; [reflexivity|]. intros c k Hc _. change (count single) with 1 in Hc. replace c with 0 by lia.
  unfold fourier_sum, Csum_over_time. change (zseq (begins single) (length single)) with [0]. cbn [fold_right].
  change (sample single 0 0) with 2%R. rewrite Rmult_0_r, Ropp_0. unfold cis. rewrite cos_0, sin_0. intros E. apply (f_equal re) in E. cbn in E. lra.
Qed.

Lemma one_sample_level : exists s : signal R, wf_signal s /\ length s = 1 /\ forall power modulo cpower cmodulo junk cjunk overlap pad,
  exists r, fourier_transform (real_ops power modulo) real_transforms (real_numbers cpower cmodulo) junk cjunk s None overlap pad = Ok r /\
    signal_level (real_ops power modulo) (real_numbers cpower cmodulo) s = [1%R] /\
    spectrum_level (real_ops power modulo) (real_numbers cpower cmodulo) r = Ok [sqrt 2].
Proof.
  exists unit. split; [wf_case|]. split; [reflexivity|]. intros power modulo cpower cmodulo junk cjunk overlap pad.
  assert (W : wf_signal unit) by wf_case.
  destruct (transform_ok power modulo cpower cmodulo junk cjunk unit overlap pad W ltac:(reflexivity) ltac:(cbn; lra)) as (r & E & Wr & Nr & Lr & _ & _ & V).
  exists r. split; [exact E|]. split.
  - unfold signal_level. cbn [map rows channels unit]. f_equal. unfold square_sum, sum_over. cbn. rewrite Rmult_1_r, Rplus_0_r, sqrt_1. field.
  - assert (B : bin r 0 0 = Some (C_of_R 1)).
    { rewrite V by (split; reflexivity || discriminate). f_equal. unfold fourier_sum, Csum_over_time. change (zseq (begins unit) (length unit)) with [0]. cbn [fold_right].
      change (sample unit 0 0) with 1%R. rewrite Rmult_0_r, Ropp_0. unfold cis. rewrite cos_0, sin_0. apply C_ext; cbn; ring. }
    destruct r as [[rs n] res lab]. change (zlen rs = 1) in Nr. change (n = 1) in Lr. subst n.
    assert (one : forall T (l : list T), zlen l = 1 -> exists x, l = [x]).
    { intros T [|x [|y l]] H; [discriminate|eauto|]. rewrite !zlen_cons in H. pose proof (zlen_nonneg l). lia. }
    destruct (one _ _ Nr) as (row & ->). destruct Wr as [[_ Wr] _]. cbn [rows cols sp_channels] in Wr. apply Forall_inv in Wr.
    destruct (one _ _ Wr) as (x & ->). injection B as ->.
    cbn. unfold modulus, norm2, C_of_R. cbn [re im fst snd].
    replace (1 * 1 + 0 * 0)%R with 1%R by ring. rewrite sqrt_1, Rmult_1_r.
    assert (forall x, energy (real_ops power modulo) (real_numbers cpower cmodulo) [x] = Ok (0 * 2 + x + x)%R) as -> by reflexivity.
    cbn [bind]. do 3 f_equal. replace (0 * 2 + 1 + 1)%R with 2%R by ring. field.
Qed.
