(** Property C66: the bandwidth, the scalloping loss and the recommended overlap of windows.  The samples are exact real numbers; [power] and
    [modulo] are operations that are not used, [junk] is the contents of freshly allocated memory. *)

From Coq Require Import String ZArith List Bool Lia Reals Lra.
From Verif.Model Require Import Py Numpy Functions Signal Fft Generators Windows WindowSpectra.
From Verif.Spec Require Import TimeSpec RealSpec ComplexSpec DftSpec BlockSpec WindowSpec WindowSpectraSpec.
From Verif.Proofs Require Import BlockCases WindowResults WindowSpectraFacts WindowSpectraResults WindowSpectraCases.
Import ListNotations.
Open Scope Z_scope.

(** * The bandwidth *)

(** The maximum of the spectrum of a window without negative samples is at 0 Hz. *)
Theorem C66_maximum : forall w nu, (forall n, 0 <= window_at w 0 n)%R -> (magnitude_at w nu <= magnitude_at w 0)%R /\ magnitude_at w 0 = Rabs (window_sum w).
Proof. exact (fun w nu H => conj (magnitude_max w nu H) (magnitude_0 w)). Qed.
Print Assumptions C66_maximum.

Example C66_maximum_case : (forall n, 0 <= window_at hann4 0 n)%R /\ window_sum hann4 = 2%R.
Proof. exact hann4_sum. Qed.

(** Half of the result is the frequency, at which the line between two neighbouring bins of the padded spectrum crosses the threshold.  All bins
    before are not below the threshold.  The exact frequency, at which the spectrum crosses the threshold, differs by not more than one bin.
    What is missing: the documentation says that the result itself is this frequency (see C66_bandwidth_refuted). *)
Theorem C66_bandwidth_partial : forall power modulo junk w, wf_signal w -> count w = 1 -> 0 < length w -> forall oversampling, 0 < oversampling -> (0 < sampling_rate w)%R ->
  (exists k, 0 <= k <= oversampling * length w / 2 /\ (magnitude_at w (IZR k / IZR (oversampling * length w)) < threshold w)%R) ->
  exists b k f1 f2, real_bandwidth power modulo junk w oversampling = Ok (Some b) /\ 0 <= k < oversampling * length w / 2 /\
    f1 = (IZR k * (sampling_rate w / IZR (oversampling * length w)))%R /\ f2 = (IZR (k + 1) * (sampling_rate w / IZR (oversampling * length w)))%R /\
    (forall i, 0 <= i <= k -> (threshold w <= magnitude_at w (IZR i / IZR (oversampling * length w)))%R) /\
    (magnitude_at w (IZR (k + 1) / IZR (oversampling * length w)) < threshold w)%R /\
    (f1 <= b / 2 < f2)%R /\ line f1 (magnitude_at w (f1 / sampling_rate w)) f2 (magnitude_at w (f2 / sampling_rate w)) (b / 2) = threshold w /\
    exists f, (f1 <= f <= f2)%R /\ magnitude_at w (f / sampling_rate w) = threshold w /\ (Rabs (b / 2 - f) <= sampling_rate w / IZR (oversampling * length w))%R.
Proof. exact bandwidth_line. Qed.
Print Assumptions C66_bandwidth_partial.

(** The case: at the Nyquist frequency, the spectrum of a Hann window is zero. *)
Example C66_bandwidth_case : wf_signal hann4 /\ count hann4 = 1 /\ 0 < length hann4 /\ 0 < 8 /\ (0 < sampling_rate hann4)%R /\
  exists k, 0 <= k <= 8 * length hann4 / 2 /\ (magnitude_at hann4 (IZR k / IZR (8 * length hann4)) < threshold hann4)%R.
Proof. exact hann4_bandwidth. Qed.

(** The result is twice the documented frequency: for a rectangular window with two samples, the spectrum is zero at the frequency that is returned. *)
Theorem C66_bandwidth_refuted : forall power modulo (junk : Z -> R) rate, (0 < rate)%R ->
  exists w b, real_window power modulo junk RectangularWindow rate (NInt 0) 2 true = Ok w /\ real_bandwidth power modulo junk w 8 = Ok (Some b) /\
    magnitude_at w (b / rate) = 0%R /\ magnitude_at w (b / 2 / rate) = threshold w /\ (0 < threshold w)%R.
Proof. exact bandwidth_refuted. Qed.
Print Assumptions C66_bandwidth_refuted.

(** The bandwidth of a window with one sample is not a number, because its spectrum does not drop at all. *)
Theorem C66_one_sample_refuted : forall power modulo (junk : Z -> R) rate oversampling, 1 < oversampling ->
  exists w, real_window power modulo junk RectangularWindow rate (NInt 0) 1 true = Ok w /\ real_bandwidth power modulo junk w oversampling = Ok None.
Proof. exact no_bandwidth. Qed.
Print Assumptions C66_one_sample_refuted.

Example C66_refuted_case : (0 < 48000)%R /\ 1 < 8.
Proof. split; [lra|reflexivity]. Qed.

(** * The scalloping loss *)

(** The scalloping loss is the ratio of the magnitudes at half a bin and at 0 Hz; it is not a number, if the sum of the samples is zero. *)
Theorem C66_scalloping_loss : forall power modulo junk w, wf_signal w -> count w = 1 -> 0 < length w ->
  real_scalloping_loss power modulo junk w = Ok (if Req_EM_T (window_sum w) 0 then None else Some (magnitude_at w (1 / (2 * IZR (length w))) / magnitude_at w 0)%R).
Proof. exact scalloping_ok. Qed.
Print Assumptions C66_scalloping_loss.

Example C66_scalloping_loss_case : wf_signal hann4 /\ count hann4 = 1 /\ 0 < length hann4 /\ window_sum hann4 <> 0%R.
Proof. repeat split; try apply hann4_bandwidth. rewrite (proj2 hann4_sum). lra. Qed.

(** It is between 0 and 1 for windows without negative samples. *)
Theorem C66_scalloping_range : forall power modulo junk w, wf_signal w -> count w = 1 -> 0 < length w -> (forall n, 0 <= window_at w 0 n)%R -> window_sum w <> 0%R ->
  exists x, real_scalloping_loss power modulo junk w = Ok (Some x) /\ (0 <= x <= 1)%R.
Proof. exact scalloping_range. Qed.
Print Assumptions C66_scalloping_range.

Example C66_scalloping_range_case : wf_signal hann4 /\ count hann4 = 1 /\ 0 < length hann4 /\ (forall n, 0 <= window_at hann4 0 n)%R /\ window_sum hann4 <> 0%R.
Proof. repeat split; try apply hann4_bandwidth; try apply hann4_sum. rewrite (proj2 hann4_sum). lra. Qed.

(** * The recommended overlap *)

(** The recommended overlap is the first one that maximizes the difference of the amplitude flatness and the overlap correlation. *)
Theorem C66_recommended_overlap : forall power modulo junk w, wf_signal w -> count w = 1 -> 0 < length w -> (0 < window_sum w)%R ->
  exists k d, real_recommended_overlap power modulo junk w = Ok k /\ 0 <= k < length w /\ is_compromise w k d /\
    forall k', 0 <= k' < length w -> exists d', is_compromise w k' d' /\ (d' <= d)%R /\ (k' < k -> (d' < d)%R).
Proof. exact recommended_ok. Qed.
Print Assumptions C66_recommended_overlap.

Example C66_recommended_overlap_case : wf_signal hann4 /\ count hann4 = 1 /\ 0 < length hann4 /\ (0 < window_sum hann4)%R.
Proof. repeat split; try apply hann4_bandwidth. rewrite (proj2 hann4_sum). lra. Qed.

(** There is only one value to be maximized for each overlap. *)
Theorem C66_compromise_unique : forall w k d d', is_compromise w k d -> is_compromise w k d' -> d = d'.
Proof. exact compromise_unique. Qed.
Print Assumptions C66_compromise_unique.

Example C66_compromise_case : exists d, is_compromise hann4 2 d.
Proof. destruct (compromise_ok (fun x _ => x) (fun x _ => x) (fun _ => 0%R) hann4) with (k := 2) as (f & c & _ & _ & C); try apply hann4_bandwidth.
  - rewrite (proj2 hann4_sum). lra.
  - split; [discriminate|reflexivity].
  - now exists (f - c)%R.
Qed.

(** * Rectangular windows: the scalloping loss has a closed form and is never less than 2/pi, which are -3.92 decibels.  Rectangular windows shall
    not overlap. *)
Theorem C66_rectangular : forall power modulo (junk : Z -> R) rate length symmetric, 0 < length ->
  exists w, real_window power modulo junk RectangularWindow rate (NInt 0) length symmetric = Ok w /\
    real_scalloping_loss power modulo junk w = Ok (Some (1 / (IZR length * sin (PI / (2 * IZR length))))%R) /\
    (2 / PI < 1 / (IZR length * sin (PI / (2 * IZR length))))%R /\
    real_recommended_overlap power modulo junk w = Ok 0.
Proof. exact rectangular_measures. Qed.
Print Assumptions C66_rectangular.

Example C66_rectangular_case : 0 < 1024 /\ (1 / (IZR 1 * sin (PI / (2 * IZR 1))) = 1)%R.
Proof. split; [reflexivity|]. replace (PI / (2 * IZR 1))%R with (PI / 2)%R by field. rewrite sin_PI2. field. Qed.
