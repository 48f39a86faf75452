(** The cases for the measures of windows: a Hann window with four samples. *)

From Coq Require Import String ZArith List Bool Lia Reals Lra.
From Verif.Model Require Import Py Numpy Functions Signal Windows WindowSpectra.
From Verif.Spec Require Import TimeSpec RealSpec ComplexSpec DftSpec BlockSpec WindowSpec WindowSpectraSpec.
From Verif.Proofs Require Import BlockCases WindowResults WindowSpectraFacts.
Import ListNotations.
Open Scope Z_scope.

Lemma hann4_sum : (forall n, 0 <= window_at hann4 0 n)%R /\ window_sum hann4 = 2%R.
Proof.
  split; [apply hann4_measures|]. unfold window_sum. change (length hann4) with 4. change (zseq 0 4) with [0; 1; 2; 3]. unfold Rsum_list. cbn [fold_right].
  change (window_at hann4 0 0) with 0%R. change (window_at hann4 0 1) with (1 / 2)%R. change (window_at hann4 0 2) with 1%R. change (window_at hann4 0 3) with (1 / 2)%R. lra.
Qed.

Lemma hann4_bandwidth : wf_signal hann4 /\ count hann4 = 1 /\ 0 < length hann4 /\ 0 < 8 /\ (0 < sampling_rate hann4)%R /\
  exists k, 0 <= k <= 8 * length hann4 / 2 /\ (magnitude_at hann4 (IZR k / IZR (8 * length hann4)) < threshold hann4)%R.
Proof.
  split; [apply hann4_measures|]. split; [reflexivity|]. split; [reflexivity|]. split; [reflexivity|]. split; [cbn; lra|]. exists 16. change (length hann4) with 4. split; [split; discriminate|].
  change (8 * 4) with 32. replace (16 / 32)%R with (1 / 2)%R by field.
  assert (T : (0 < threshold hann4)%R). { unfold threshold. rewrite magnitude_0, (proj2 hann4_sum), Rabs_right by lra. apply Rdiv_lt_0_compat; [lra|apply sqrt_lt_R0; lra]. }
  assert (Z0 : (magnitude_at hann4 (1 / 2) * magnitude_at hann4 (1 / 2) = 0)%R); [|pose proof (magnitude_nonneg hann4 (1 / 2)); nra].
  rewrite magnitude_parts. change (length hann4) with 4. change (zseq 0 4) with [0; 1; 2; 3]. unfold Rsum_list. cbn [fold_right].
  change (window_at hann4 0 0) with 0%R. change (window_at hann4 0 1) with (1 / 2)%R. change (window_at hann4 0 2) with 1%R. change (window_at hann4 0 3) with (1 / 2)%R.
  replace (2 * PI * (1 / 2) * 1)%R with PI by field. replace (2 * PI * (1 / 2) * 2)%R with (2 * PI)%R by field. replace (2 * PI * (1 / 2) * 3)%R with (PI + 2 * PI)%R by field.
  rewrite cos_plus, sin_plus, cos_PI, sin_PI, cos_2PI, sin_2PI. field.
Qed.
