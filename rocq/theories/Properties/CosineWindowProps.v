(** Property C65: the flat top, Nuttall, Gaussian and exponential windows.  The samples are exact real numbers; [power] and [modulo] are operations
    that are not used, [junk] is the contents of freshly allocated memory. *)

From Coq Require Import String ZArith QArith List Bool Lia Reals Lra.
From Verif.Model Require Import Py Numpy Functions Signal Generators Windows CosineWindows.
From Verif.Spec Require Import TimeSpec RealSpec BlockSpec DftSpec GeneratorsSpec CosineWindowSpec.
From Verif.Proofs Require Import CosineDecay CosineWindowResults.
Import ListNotations.
Open Scope Z_scope.

(** The samples are those of a shape that does not depend on the length of the window.  A symmetric window ends with the end of the shape, the
    sample after the last one of a window that is not symmetric would do so. *)
Theorem C65_shape : forall power modulo (junk : Z -> R) c rate length symmetric, sensible_window c -> 1 < length ->
  exists w, real_cosine_window power modulo junk c rate (NInt 0) length symmetric = Ok w /\ wf_signal w /\ count w = 1 /\ begins w = 0 /\ Signal.length w = length /\
    sampling_rate w = rate /\ labels w = [cosine_window_label c] /\
    forall t, 0 <= t < length -> at_time w 0 t = Some (cosine_shape c (IZR t / IZR (if symmetric then length - 1 else length) - 1 / 2)).
Proof. exact cosine_window_ok. Qed.
Print Assumptions C65_shape.

(** The case: the first sample of a Nuttall window is zero, that of a Gaussian window with the standard deviation 1 is [exp(-1/2)]. *)
Example C65_shape_case : sensible_window (Gaussian 1%R) /\ 1 < 5 /\ cosine_shape (Gaussian 1%R) (IZR 0 / IZR (5 - 1) - 1 / 2) = exp (- (1 / 2)) /\
  cosine_window_label (Nuttall NUTTALL3 : cosine_window R) = "Nuttall window"%string /\ cosine_shape (Nuttall NUTTALL3) (IZR 0 / IZR (5 - 1) - 1 / 2) = 0%R.
Proof.
  split; [cbn; lra|]. split; [reflexivity|]. split; [cbn [cosine_shape]; f_equal; change (5 - 1) with 4; field|]. split; [reflexivity|].
  cbn [cosine_shape]. change (5 - 1) with 4. replace (0 / 4 - 1 / 2)%R with (- / 2)%R by field. unfold sum_of_cosines, weights, rational, at_R. cbn - [IZR].
  match goal with |- context [zseq 0 ?n] => change (zseq 0 n) with [0; 1; 2] end. cbn - [IZR Rmult Rplus PI].
  match goal with |- context [cos (2 * PI * 0 * ?u)] => replace (2 * PI * 0 * u)%R with 0%R by field; replace (2 * PI * 1 * u)%R with (- PI)%R by field;
    replace (2 * PI * 2 * u)%R with (- (2 * PI))%R by field end. rewrite !cos_neg, cos_0, cos_PI, cos_2PI.
  match goal with |- context [zth [?a; ?b; ?c] 0] => change (zth [a; b; c] 0) with (Some a); change (zth [a; b; c] 1) with (Some b); change (zth [a; b; c] 2) with (Some c) end. lra.
Qed.

(** The window functions meet the hypotheses of the theorems C36 about plateaus and about symmetry. *)
Theorem C65_symmetry : forall power modulo c M, sensible_window c -> 0 <= M ->
  zlen (cosine_window_function (real_ops power modulo) IZR PI cos exp (ln 10) c M) = M /\ mirrored (cosine_window_function (real_ops power modulo) IZR PI cos exp (ln 10) c M).
Proof. exact (fun power modulo c M S H => conj (samples_length power modulo c M H) (samples_mirrored power modulo c M S H)). Qed.
Print Assumptions C65_symmetry.

Example C65_symmetry_case : sensible_window (Exponential 100%R) /\ 0 <= 8.
Proof. now split. Qed.

(** The number of cosines is the documented one, all have positive weights ... *)
Theorem C65_terms : forall c n, documented_terms c = Some n -> zlen (weights c) = n /\ (forall k a, zth (weights c) k = Some a -> 0 < a)%R /\
  forall u, cosine_shape c u = sum_of_cosines (weights c) u.
Proof. exact (fun c n H => conj (terms_ok c n H) (conj (weights_pos c) (documented_shape c n H))). Qed.
Print Assumptions C65_terms.

Example C65_terms_case : documented_terms (FlatTop HFT248D) = Some 11 /\ documented_terms (Nuttall NUTTALL4B) = Some 4.
Proof. now split. Qed.

(** ... so that no sample is larger than the middle of the window, which is 1 up to the fifth decimal place. *)
Theorem C65_range : forall c, cosine_sum c -> (1 - / 100000 <= cosine_shape c 0 <= 1 + / 100000)%R /\ forall u, (Rabs (cosine_shape c u) <= cosine_shape c 0)%R.
Proof. exact (fun c S => conj (maximum_ok c S) (fun u => bound_ok c u S)). Qed.
Print Assumptions C65_range.

Example C65_range_case : cosine_sum (FlatTop SFT3M).
Proof. exact I. Qed.

(** The middle of a window with an odd number of samples is 1 (up to the fifth decimal place), if it has more than one sample ... *)
Theorem C65_middle_partial : forall power modulo (junk : Z -> R) c rate n, sensible_window c -> 0 < n ->
  exists w x, real_cosine_window power modulo junk c rate (NInt 0) (2 * n + 1) true = Ok w /\ at_time w 0 n = Some x /\ (1 - / 100000 <= x <= 1 + / 100000)%R.
Proof. exact middle_window_ok. Qed.
Print Assumptions C65_middle_partial.

Example C65_middle_case : sensible_window (FlatTop HFT70) /\ 0 < 3.
Proof. now split. Qed.

(** ... while a flat top window with one sample can be less than 1/4, as SciPy's result for this length is also divided by the sum of the coefficients. *)
Theorem C65_one_sample_refuted : forall power modulo (junk : Z -> R) rate,
  exists w x, real_cosine_window power modulo junk (FlatTop HFT70) rate (NInt 0) 1 true = Ok w /\ at_time w 0 0 = Some x /\ (x < 1 / 4)%R.
Proof. exact one_sample_window. Qed.
Print Assumptions C65_one_sample_refuted.

(** The [decay] of the exponential window is the level of its first and its last sample, below that of the sample in the middle. *)
Theorem C65_exponential_levels : forall power modulo (junk : Z -> R) decay rate n, 0 < n ->
  exists w, real_cosine_window power modulo junk (Exponential decay) rate (NInt 0) (2 * n + 1) true = Ok w /\
    at_time w 0 0 = Some (Rpower 10 (- decay / 20)) /\ at_time w 0 n = Some 1%R /\ at_time w 0 (2 * n) = Some (Rpower 10 (- decay / 20)).
Proof. exact exponential_levels_ok. Qed.
Print Assumptions C65_exponential_levels.

Example C65_exponential_levels_case : 0 < 4 /\ Rpower 10 (- 0 / 20) = 1%R.
Proof. split; [reflexivity|]. unfold Rpower. replace (- 0 / 20 * ln 10)%R with 0%R by field. apply exp_0. Qed.

(** The side lobes decay as documented, except for one of the flat top windows. *)
Theorem C65_decay_partial : forall c d, documented_decay c = Some d -> c <> FlatTop HFT169D -> decays (cosine_shape c) (Z.to_nat (d / 6)).
Proof. exact decay_ok. Qed.
Print Assumptions C65_decay_partial.

Example C65_decay_case : documented_decay (Nuttall NUTTALL4) = Some 42 /\ Z.to_nat (42 / 6) = 7%nat /\ (Nuttall NUTTALL4 : cosine_window R) <> FlatTop HFT169D.
Proof. repeat split; discriminate. Qed.

(** There is only one decay for each shape. *)
Theorem C65_decay_unique : forall f p q, decays f p -> decays f q -> p = q.
Proof. exact decays_unique. Qed.
Print Assumptions C65_decay_unique.

Example C65_decay_unique_case : decays (cosine_shape (Nuttall NUTTALL4)) 7.
Proof. exact (C65_decay_partial (Nuttall NUTTALL4) 42 eq_refl ltac:(discriminate)). Qed.

(** The flat top windows that are optimized for a fast decay of the side lobes: 18, 30 and 42 decibels per octave. *)
Theorem C65_fast_decay : decays (cosine_shape (FlatTop SFT3F)) 3 /\ decays (cosine_shape (FlatTop SFT4F)) 5 /\ decays (cosine_shape (FlatTop SFT5F)) 7.
Proof. exact fast_decay_ok. Qed.
Print Assumptions C65_fast_decay.

(** The rounded coefficients of HFT169D do not cancel each other at the ends of the window, so that its side lobes eventually decay with 6 instead of
    18 decibels per octave. *)
Theorem C65_decay_refuted : documented_decay (FlatTop HFT169D) = Some 18 /\ decays (cosine_shape (FlatTop HFT169D)) 1 /\ ~ decays (cosine_shape (FlatTop HFT169D)) 3.
Proof. exact HFT169D_refuted. Qed.
Print Assumptions C65_decay_refuted.
