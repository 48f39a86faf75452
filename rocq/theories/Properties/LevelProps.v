(** Time dependent levels (C56) and statistical parameters (C57) of signals.

    Real numbers are exact.  [junk] and [vjunk] are the contents of uninitialised memory. *)

From Coq Require Import String ZArith List Bool Reals Lia Lra.
From Verif.Model Require Import Py Numpy Functions Signal Fourier Sweeps Levels.
From Verif.Spec Require Import TimeSpec RealSpec ComplexSpec FourierSpec SweepSpec LevelSpec.
From Verif.Proofs Require Import LevelTimeFacts LevelCases StatisticFacts.
Import ListNotations.
Open Scope Z_scope.

Section Levels.
Variables power modulo : R -> R -> R.
Variables cpower cmodulo : C -> C -> C.
Variable junk : Z -> Z -> R.
Notation O := (real_ops power modulo).
Notation N := (real_numbers cpower cmodulo).
Notation M := real_functions.
Notation levels := (level_vs_time O N M junk).

(** The full statement is, that the conclusion holds for each positive integration time.  Missing: integration intervals longer than one
    sample, whose length is not an integer number of samples (C56_fraction_refuted), unless the interval around each sample covers the
    whole signal; intervals with an even number of samples, whose half is one sample shorter than the signal (C56_half_window_refuted);
    and intervals, that are as long as the signal, without padding (C56_uninitialised_refuted). *)
Theorem C56_level_vs_time_partial (vjunk : Z -> R) (s : signal R) (T : R) (pad : bool) :
  wf_signal s -> let w := (T * sampling_rate s)%R in (0 < w)%R ->
  ((w <= 1)%R \/ (exists W, w = IZR W) \/ (2 * IZR (length s) <= w + 1)%R) ->
  (forall k, w = (2 * IZR k)%R -> length s <> k + 1) ->
  (pad = false -> forall k, 1 <= k -> w = (2 * IZR k)%R \/ w = (2 * IZR k + 1)%R -> length s <> 2 * k + 1) ->
  exists r, levels vjunk s T pad = Ok r /\ is_level_vs_time r s w pad.
Proof. exact (level_vs_time_ok power modulo cpower cmodulo junk vjunk s T pad). Qed.

(** For a signal of ones and an integration interval of 5/4 samples, the level is sqrt(11/5) instead of 1. *)
Theorem C56_fraction_refuted (vjunk : Z -> R) :
  exists r, levels vjunk (ones 4) (5 / 4)%R false = Ok r /\ at_time r 0 8 = Some (sqrt (11 / 5)) /\
    squared_level (ones 4) (5 / 4 * sampling_rate (ones 4)) false 0 8 = 1%R.
Proof. exact (fraction_case power modulo cpower cmodulo junk vjunk). Qed.

(** For a signal of three ones and an integration interval of three samples, the level in the middle depends on the contents of
    uninitialised memory. *)
Theorem C56_uninitialised_refuted (vjunk : Z -> R) : (0 < vjunk 1%Z <= 3)%R ->
  exists r, levels vjunk (ones 3) 3%R false = Ok r /\ at_time r 0 8 = Some (sqrt (3 / vjunk 1%Z)) /\
    squared_level (ones 3) (3 * sampling_rate (ones 3)) false 0 8 = 1%R.
Proof. exact (uninitialised_case power modulo cpower cmodulo junk vjunk). Qed.

(** For a signal of three ones and an integration interval of four samples, half of the last sample is outside of the interval around the
    first one, but it is counted as a whole. *)
Theorem C56_half_window_refuted (vjunk : Z -> R) :
  exists r, levels vjunk (ones 3) 4%R true = Ok r /\ at_time r 0 7 = Some (sqrt (3 / 4)) /\
    squared_level (ones 3) (4 * sampling_rate (ones 3)) true 0 7 = (5 / 8)%R.
Proof. exact (half_window_case power modulo cpower cmodulo junk vjunk). Qed.

(** The hypotheses are met by signals, with six, four and two samples and an interval of four
    samples. *)
Example C56_example (vjunk : Z -> R) n pad : n = 2 \/ n = 4 \/ n = 6 ->
  exists r, levels vjunk (ones n) 4%R pad = Ok r /\ is_level_vs_time r (ones n) (4 * sampling_rate (ones n)) pad.
Proof.
  intros H. assert (E : (4 * sampling_rate (ones n) = IZR 4)%R) by (cbn; lra). apply C56_level_vs_time_partial.
  - apply ones_wf. lia.
  - rewrite E. lra.
  - right. left. exists 4. exact E.
  - intros k. rewrite E, <- mult_IZR. intros Hk. apply eq_IZR in Hk. change (length (ones n)) with n. lia.
  - intros _ k Hk. rewrite E, <- mult_IZR, <- plus_IZR. change (length (ones n)) with n.
    intros [Hk'|Hk']; apply eq_IZR in Hk'; lia.
Qed.

(** ** Statistical parameters *)
Variables resolution undefined : R.
Notation mean s c := (mean_over_time s c (fun x => x)).
Notation variance s c := (central_mean s c (fun d => d * d)%R).
Notation skewness := (signal_skewness O N M resolution undefined).
Notation kurtosis := (signal_kurtosis O M resolution undefined).

(** The samples of a channel are not considered to be equal *)
Definition varied (s : signal R) (c : Z) : Prop := ((resolution * mean s c) * (resolution * mean s c) < variance s c)%R.

Theorem C57_channels (s : signal R) : wf_signal s ->
  values_are (signal_mean O M s) (count s) (fun c => mean s c) /\
  values_are (signal_variance O M s) (count s) (fun c => variance s c) /\
  values_are (signal_standard_deviation O N M s) (count s) (fun c => sqrt (variance s c)).
Proof. exact (statistics_ok power modulo cpower cmodulo s). Qed.

Theorem C57_shape (s : signal R) (c : Z) : wf_signal s -> 0 <= c < count s -> varied s c ->
  zth (skewness s) c = Some (central_mean s c (fun d => d * d * d) / (variance s c * sqrt (variance s c)))%R /\
  zth (kurtosis s) c = Some (central_mean s c (fun d => d * d * (d * d)) / (variance s c * variance s c) - 3)%R.
Proof. exact (skewness_ok power modulo cpower cmodulo resolution undefined s c). Qed.

(** The square of the level is the sum of the variance and the square of the mean. *)
Theorem C57_level (s : signal R) (c : Z) (l m v : R) : wf_signal s -> 0 < length s ->
  zth (signal_level O N s) c = Some l -> zth (signal_mean O M s) c = Some m -> zth (signal_variance O M s) c = Some v ->
  (l * l = m * m + v)%R.
Proof. exact (level_variance power modulo cpower cmodulo s c l m v). Qed.

Theorem C57_affine (r s : signal R) (a b : R) (c : Z) (m v : R) : affine_image r s a b -> wf_signal s -> 0 < length s ->
  zth (signal_mean O M s) c = Some m -> zth (signal_variance O M s) c = Some v ->
  zth (signal_mean O M r) c = Some (a * m + b)%R /\ zth (signal_variance O M r) c = Some (a * a * v)%R /\
  zth (signal_standard_deviation O N M r) c = Some (Rabs a * sqrt v)%R.
Proof. exact (affine_statistics power modulo cpower cmodulo r s a b c m v). Qed.

Theorem C57_affine_shape (r s : signal R) (a b : R) (c : Z) (k u : R) :
  affine_image r s a b -> wf_signal s -> 0 < length s -> 0 <= c < count s -> a <> 0%R -> varied s c -> varied r c ->
  zth (skewness s) c = Some k -> zth (kurtosis s) c = Some u ->
  zth (skewness r) c = Some (if Rlt_dec a 0 then - k else k)%R /\ zth (kurtosis r) c = Some u.
Proof. exact (affine_shape power modulo cpower cmodulo resolution undefined r s a b c k u). Qed.

Theorem C57_kurtosis_bound (s : signal R) (c : Z) (k u : R) : wf_signal s -> 0 < length s -> 0 <= c < count s -> varied s c ->
  zth (skewness s) c = Some k -> zth (kurtosis s) c = Some u -> (k * k - 2 <= u)%R.
Proof. exact (pearson power modulo cpower cmodulo resolution undefined s c k u). Qed.

(** The parameters of all channels together: the total variance is the mean of the channels' variances plus the variance of their means. *)
Theorem C57_single_value (s : signal R) : wf_signal s -> 0 < length s -> 0 < count s ->
  let total := mean_over_channels s (fun c => mean s c) in
  signal_total_mean O M s = total /\
  signal_total_variance O M s =
    (mean_over_channels s (fun c => variance s c) + mean_over_channels s (fun c => (mean s c - total) * (mean s c - total)))%R /\
  signal_total_standard_deviation O N M s = sqrt (signal_total_variance O M s).
Proof. exact (total_ok power modulo cpower cmodulo s). Qed.

(** The samples 1, 2 and 6 *)
Example C57_example : (resolution * resolution < 1 / 2)%R ->
  zth (signal_mean O M steps) 0 = Some 3%R /\ zth (signal_variance O M steps) 0 = Some (14 / 3)%R /\
  zth (skewness steps) 0 = Some (6 / (14 / 3 * sqrt (14 / 3)))%R /\ zth (kurtosis steps) 0 = Some (- (3 / 2))%R /\
  signal_total_mean O M steps = 2%R.
Proof.
  intros H. destruct steps_values as (V1 & V2 & V3 & V4 & V5). destruct (C57_channels steps steps_wf) as ([_ S1] & [_ S2] & _).
  assert (K : 0 <= 0 < count steps) by (change (count steps) with 2; lia). rewrite S1, S2 by exact K. rewrite V1, V2.
  destruct (C57_shape steps 0 steps_wf K) as [S3 S4]. { unfold varied. rewrite V1, V2. lra. } rewrite S3, S4, V2, V3, V4.
  repeat split. { f_equal. lra. }
  destruct (C57_single_value steps steps_wf) as [T _]; [change (length steps) with 3; lia|change (count steps) with 2; lia|].
  rewrite T. change (mean_over_channels steps (fun c => mean steps c)) with ((mean steps 0 + (mean steps 1 + 0)) / 2)%R. rewrite V1, V5. lra.
Qed.

End Levels.

Print Assumptions C56_level_vs_time_partial.
Print Assumptions C56_fraction_refuted.
Print Assumptions C56_uninitialised_refuted.
Print Assumptions C56_half_window_refuted.
Print Assumptions C57_channels.
Print Assumptions C57_shape.
Print Assumptions C57_level.
Print Assumptions C57_affine.
Print Assumptions C57_affine_shape.
Print Assumptions C57_kurtosis_bound.
Print Assumptions C57_single_value.
