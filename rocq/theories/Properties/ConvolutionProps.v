(** Properties C15, C16 and C17: convolution and correlation of signals.
    [O] stands for exact arithmetic of the samples, [X] for the discrete Fourier transforms, [junk] for the contents of freshly allocated
    memory.  The modes FULL, SAME and VALID do not use the transforms; for the modes SPECTRUM and SPECTRUM_PADDED the samples are real
    numbers and the transforms are those that the documentation of numpy.fft defines (Spec/DftSpec.v). *)

From Coq Require Import String ZArith List Bool Lia Reals Ring InitialRing.
From Verif.Model Require Import Py Numpy Functions Signal Fft Convolution.
From Verif.Spec Require Import TimeSpec RealSpec ComplexSpec DftSpec ConvolutionSpec Demo.
From Verif.Proofs Require Import DftFacts SpectrumModes SignalConvolve.
Import ListNotations.
Open Scope Z_scope.

(** Integer samples; the transforms are not used. *)
Definition no_transforms : transforms Z Z := Transforms (fun x => x) (fun y _ => y) Z.mul (fun x => x) (fun x => x).
Lemma integer_ring : commutative_ring Zops.
Proof. exact InitialRing.Zth. Qed.

(** Real samples *)
Definition real_signal (s : signal Z) : signal R :=
  Signal (Arr (map (map IZR) (rows (channels s))) (cols (channels s))) 48000%R (offset s) (labels s).
Definition no_op : R -> R -> R := fun x _ => x.

(** * C15 Convolution *)

Theorem C15_full : forall A K (O : ops A) (X : transforms A K) junk, commutative_ring O -> forall a b,
  wf_signal a -> wf_signal b -> 0 < length a -> 0 < length b ->
  exists r, signal_convolve O X junk a (OtherSignal b) FULL = Ok r /\ sampling_rate r = sampling_rate a /\
    samples_are r (paired_count a b) (begins a + begins b) (ends a + ends b - 1) (convolution_at O a b).
Proof. intros A K O X junk RT a b. exact (full_convolution_ok O RT junk X a b). Qed.
Print Assumptions C15_full.

Example C15_full_case :
  rmap (fun r => (rows (channels r), offset r)) (signal_convolve Zops no_transforms Zjunk demo_ab (OtherSignal demo_c) FULL)
  = Ok ([[10; 40; 70; 60]; [40; 130; 160; 120]], 0)
  /\ map (convolution_at Zops demo_ab demo_c 0) [-1; 0; 1; 2; 3; 4] = [0; 10; 40; 70; 60; 0] /\ paired_count demo_ab demo_c = 2.
Proof. vm_compute. auto. Qed.

(** The convolution is zero at the other times: FULL contains all of it. *)
Theorem C15_full_contains_all : forall A (O : ops A), commutative_ring O -> forall a b c t, wf_signal a -> wf_signal b -> 0 <= c < paired_count a b ->
  ~ (begins a + begins b <= t < ends a + ends b - 1) -> convolution_at O a b c t = o_zero O.
Proof. intros A O RT a b c t. exact (convolution_outside O RT a b c t). Qed.
Print Assumptions C15_full_contains_all.

Example C15_full_contains_all_case : 0 <= 1 < paired_count demo_ab demo_c /\ ~ (begins demo_ab + begins demo_c <= 4 < ends demo_ab + ends demo_c - 1).
Proof. vm_compute. intuition discriminate. Qed.

(** The part in the middle, that is as long as the longer one of the signals *)
Theorem C15_same : forall A K (O : ops A) (X : transforms A K) junk, commutative_ring O -> forall a b,
  wf_signal a -> wf_signal b -> 0 < length a -> 0 < length b ->
  exists r lo hi, signal_convolve O X junk a (OtherSignal b) SAME = Ok r /\ sampling_rate r = sampling_rate a /\
    samples_are r (paired_count a b) lo hi (convolution_at O a b) /\ hi - lo = Z.max (length a) (length b) /\
    lo - (begins a + begins b) <= (ends a + ends b - 1) - hi <= lo - (begins a + begins b) + 1.
Proof. intros A K O X junk RT a b. exact (same_convolution_ok O RT junk X a b). Qed.
Print Assumptions C15_same.

Example C15_same_case :
  rmap (fun r => (rows (channels r), offset r)) (signal_convolve Zops no_transforms Zjunk demo_c (OtherSignal demo_ab) SAME)
  = Ok ([[10; 40; 70]; [40; 130; 160]], 0).
Proof. reflexivity. Qed.

(** The times, at which one of the signals lies completely within the (mirrored) other one *)
Theorem C15_valid : forall A K (O : ops A) (X : transforms A K) junk, commutative_ring O -> forall a b,
  wf_signal a -> wf_signal b -> 0 < length a -> 0 < length b ->
  exists r lo hi, signal_convolve O X junk a (OtherSignal b) VALID = Ok r /\ sampling_rate r = sampling_rate a /\
    samples_are r (paired_count a b) lo hi (convolution_at O a b) /\
    forall t, lo <= t < hi <-> (forall tau, begins a <= tau < ends a -> begins b <= t - tau < ends b) \/
                               (forall tau, begins b <= tau < ends b -> begins a <= t - tau < ends a).
Proof. intros A K O X junk RT a b. exact (valid_convolution_ok O RT junk X a b). Qed.
Print Assumptions C15_valid.

Example C15_valid_case :
  rmap (fun r => (rows (channels r), offset r)) (signal_convolve Zops no_transforms Zjunk demo_ab (OtherSignal demo_c) VALID)
  = Ok ([[40; 70]; [130; 160]], 1).
Proof. reflexivity. Qed.

Theorem C15_spectrum_padded : forall power modulo junk a b,
  wf_signal a -> wf_signal b -> 0 < length a -> 0 < length b ->
  exists r, signal_convolve (real_ops power modulo) real_transforms junk a (OtherSignal b) SPECTRUM_PADDED = Ok r /\ sampling_rate r = sampling_rate a /\
    samples_are r (paired_count a b) (begins a + begins b) (ends a + ends b - 1) (convolution_at (real_ops power modulo) a b).
Proof.
  intros power modulo junk a b Wa Wb Ha Hb.
  exact (padded_convolution_signal _ (real_ring power modulo) junk real_transforms a b Wa Wb Ha Hb (real_exact power modulo)).
Qed.
Print Assumptions C15_spectrum_padded.

(** The circular convolution: the period is the smallest even number that is not less than the length of the longer signal. *)
Theorem C15_spectrum : forall power modulo junk a b period,
  wf_signal a -> wf_signal b -> 0 < length a -> 0 < length b ->
  period mod 2 = 0 -> Z.max (length a) (length b) <= period <= Z.max (length a) (length b) + 1 ->
  exists r, signal_convolve (real_ops power modulo) real_transforms junk a (OtherSignal b) SPECTRUM = Ok r /\ sampling_rate r = sampling_rate a /\
    samples_are r (paired_count a b) (begins a + begins b) (begins a + begins b + Z.max (length a) (length b))
      (fun c t => (convolution_at (real_ops power modulo) a b c t + convolution_at (real_ops power modulo) a b c (t + period))%R).
Proof.
  intros power modulo junk a b period Wa Wb Ha Hb.
  exact (spectrum_convolution_signal _ (real_ring power modulo) junk real_transforms a b Wa Wb Ha Hb (real_exact power modulo) period).
Qed.
Print Assumptions C15_spectrum.

(** With three and two samples the period is 4: nothing is folded into the three samples, but the last sample of the convolution is lost. *)
Example C15_spectrum_case :
  wf_signal (real_signal demo_ab) /\ wf_signal (real_signal demo_c) /\ length (real_signal demo_ab) = 3 /\ length (real_signal demo_c) = 2 /\
  convolution_at (real_ops no_op no_op) (real_signal demo_ab) (real_signal demo_c) 1 2 = 160%R.
Proof.
  split; [repeat split; cbn; try discriminate; repeat constructor|]. split; [repeat split; cbn; try discriminate; repeat constructor|].
  split; [reflexivity|]. split; [reflexivity|]. cbv -[IZR Rplus Rmult]. ring.
Qed.

Theorem C15_commutes : forall A (O : ops A), commutative_ring O -> forall a b c t, wf_signal a -> wf_signal b -> 0 <= c < paired_count a b ->
  convolution_at O a b c t = convolution_at O b a c t.
Proof. exact @convolution_commutes. Qed.
Print Assumptions C15_commutes.

Example C15_commutes_case : map (convolution_at Zops demo_c demo_ab 1) [-1; 0; 1; 2; 3; 4] = [0; 40; 130; 160; 120; 0].
Proof. reflexivity. Qed.

(** * C16 Correlation *)

Theorem C16_full : forall A K (O : ops A) (X : transforms A K) junk, commutative_ring O -> forall a b,
  wf_signal a -> wf_signal b -> 0 < length a -> 0 < length b ->
  exists r, signal_correlate O X junk a (OtherSignal b) FULL = Ok r /\ sampling_rate r = sampling_rate a /\
    samples_are r (paired_count a b) (begins b - (ends a - 1)) (ends b - begins a) (correlation_at O a b).
Proof. intros A K O X junk RT a b. exact (full_correlation_ok O RT junk X a b). Qed.
Print Assumptions C16_full.

Example C16_full_case :
  rmap (fun r => (rows (channels r), offset r)) (signal_correlate Zops no_transforms Zjunk demo_ab (OtherSignal demo_c) FULL)
  = Ok ([[30; 80; 50; 20]; [60; 170; 140; 80]], 0)
  /\ map (correlation_at Zops demo_ab demo_c 0) [-1; 0; 1; 2; 3; 4] = [0; 30; 80; 50; 20; 0].
Proof. vm_compute. auto. Qed.

Theorem C16_full_contains_all : forall A (O : ops A), commutative_ring O -> forall a b c t, wf_signal a -> wf_signal b -> 0 <= c < paired_count a b ->
  ~ (begins b - (ends a - 1) <= t < ends b - begins a) -> correlation_at O a b c t = o_zero O.
Proof. intros A O RT a b c t. exact (correlation_outside O RT a b c t). Qed.
Print Assumptions C16_full_contains_all.

Example C16_full_contains_all_case : 0 <= 1 < paired_count demo_ab demo_c /\ ~ (begins demo_c - (ends demo_ab - 1) <= 4 < ends demo_c - begins demo_ab).
Proof. vm_compute. intuition discriminate. Qed.

Theorem C16_same : forall A K (O : ops A) (X : transforms A K) junk, commutative_ring O -> forall a b,
  wf_signal a -> wf_signal b -> 0 < length a -> 0 < length b ->
  exists r lo hi, signal_correlate O X junk a (OtherSignal b) SAME = Ok r /\ sampling_rate r = sampling_rate a /\
    samples_are r (paired_count a b) lo hi (correlation_at O a b) /\ hi - lo = Z.max (length a) (length b) /\
    lo - (begins b - (ends a - 1)) <= (ends b - begins a) - hi <= lo - (begins b - (ends a - 1)) + 1.
Proof. intros A K O X junk RT a b. exact (same_correlation_ok O RT junk X a b). Qed.
Print Assumptions C16_same.

Example C16_same_case :
  rmap (fun r => (rows (channels r), offset r)) (signal_correlate Zops no_transforms Zjunk demo_ab (OtherSignal demo_c) SAME)
  = Ok ([[30; 80; 50]; [60; 170; 140]], 0).
Proof. reflexivity. Qed.

(** The lags, at which one of the signals lies completely within the other one *)
Theorem C16_valid : forall A K (O : ops A) (X : transforms A K) junk, commutative_ring O -> forall a b,
  wf_signal a -> wf_signal b -> 0 < length a -> 0 < length b ->
  exists r lo hi, signal_correlate O X junk a (OtherSignal b) VALID = Ok r /\ sampling_rate r = sampling_rate a /\
    samples_are r (paired_count a b) lo hi (correlation_at O a b) /\
    forall t, lo <= t < hi <-> (forall tau, begins a <= tau < ends a -> begins b <= tau + t < ends b) \/
                               (forall tau, begins b <= tau < ends b -> begins a <= tau - t < ends a).
Proof. intros A K O X junk RT a b. exact (valid_correlation_ok O RT junk X a b). Qed.
Print Assumptions C16_valid.

Example C16_valid_case :
  rmap (fun r => (rows (channels r), offset r)) (signal_correlate Zops no_transforms Zjunk demo_c (OtherSignal demo_ab) VALID)
  = Ok ([[50; 80]; [140; 170]], -2).
Proof. reflexivity. Qed.

Theorem C16_spectrum_padded : forall power modulo junk a b,
  wf_signal a -> wf_signal b -> 0 < length a -> 0 < length b ->
  exists r, signal_correlate (real_ops power modulo) real_transforms junk a (OtherSignal b) SPECTRUM_PADDED = Ok r /\ sampling_rate r = sampling_rate a /\
    samples_are r (paired_count a b) (begins b - (ends a - 1)) (ends b - begins a) (correlation_at (real_ops power modulo) a b).
Proof.
  intros power modulo junk a b Wa Wb Ha Hb.
  exact (padded_correlation_signal _ (real_ring power modulo) junk real_transforms a b Wa Wb Ha Hb (real_exact power modulo)).
Qed.
Print Assumptions C16_spectrum_padded.

(** The circular correlation *)
Theorem C16_spectrum : forall power modulo junk a b period,
  wf_signal a -> wf_signal b -> 0 < length a -> 0 < length b ->
  period mod 2 = 0 -> Z.max (length a) (length b) <= period <= Z.max (length a) (length b) + 1 ->
  exists r, signal_correlate (real_ops power modulo) real_transforms junk a (OtherSignal b) SPECTRUM = Ok r /\ sampling_rate r = sampling_rate a /\
    samples_are r (paired_count a b) (begins b - (ends a - 1)) (begins b - (ends a - 1) + Z.max (length a) (length b))
      (fun c t => (correlation_at (real_ops power modulo) a b c t + correlation_at (real_ops power modulo) a b c (t + period))%R).
Proof.
  intros power modulo junk a b period Wa Wb Ha Hb.
  exact (spectrum_correlation_signal _ (real_ring power modulo) junk real_transforms a b Wa Wb Ha Hb (real_exact power modulo) period).
Qed.
Print Assumptions C16_spectrum.

Example C16_spectrum_case :
  wf_signal (real_signal demo_ab) /\ wf_signal (real_signal demo_c) /\ length (real_signal demo_ab) = 3 /\ length (real_signal demo_c) = 2 /\
  correlation_at (real_ops no_op no_op) (real_signal demo_ab) (real_signal demo_c) 1 2 = 140%R.
Proof.
  split; [repeat split; cbn; try discriminate; repeat constructor|]. split; [repeat split; cbn; try discriminate; repeat constructor|].
  split; [reflexivity|]. split; [reflexivity|]. cbv -[IZR Rplus Rmult]. ring.
Qed.

(** * C17 Channels and labels *)

(** In each mode channel [c] of the result is what the channels [c] of the operands alone would give; a signal with one channel stands for
    arbitrarily many equal channels. *)
Theorem C17_pairing : forall power modulo junk a b,
  wf_signal a -> wf_signal b -> 0 < length a -> 0 < length b -> forall op mode c x y,
  op = signal_convolve \/ op = signal_correlate -> 0 <= c < paired_count a b ->
  wf_signal x -> wf_signal y -> count x = 1 -> count y = 1 -> begins x = begins a -> ends x = ends a -> begins y = begins b -> ends y = ends b ->
  (forall t, at_time x 0 t = operand_at a c t) -> (forall t, at_time y 0 t = operand_at b c t) ->
  exists r r', op (real_ops power modulo) real_transforms junk a (OtherSignal b) mode = Ok r /\
    op (real_ops power modulo) real_transforms junk x (OtherSignal y) mode = Ok r' /\
    count r = paired_count a b /\ count r' = 1 /\ begins r' = begins r /\ ends r' = ends r /\ forall t, at_time r c t = at_time r' 0 t.
Proof. exact @real_pairing. Qed.
Print Assumptions C17_pairing.

(** Two channels and three channels: two pairs.  One channel and three channels: three pairs. *)
Definition demo_3 : signal Z := Signal (Arr [[1]; [2]; [3]] 1) 48000 0 ["x"; "y"; "z"]%string.
Example C17_pairing_case : paired_count demo_ab demo_3 = 2 /\ paired_count demo_c demo_3 = 3 /\ paired_count demo_3 demo_c = 3
  /\ rmap (fun r => (rows (channels r), offset r)) (signal_convolve Zops no_transforms Zjunk demo_3 (OtherSignal demo_ab) FULL) = Ok ([[1; 2; 3]; [8; 10; 12]], -1)
  /\ rmap (fun r => (rows (channels r), offset r)) (signal_convolve Zops no_transforms Zjunk demo_c (OtherSignal demo_3) FULL) = Ok ([[10; 20]; [20; 40]; [30; 60]], 1).
Proof. vm_compute. auto 6. Qed.

(** Each channel is labelled, unless a signal with one channel is combined with a signal with several ones. *)
Theorem C17_labels : forall power modulo junk a b,
  wf_signal a -> wf_signal b -> 0 < length a -> 0 < length b -> forall op name mode,
  (op = signal_convolve /\ name = "Convolution"%string) \/ (op = signal_correlate /\ name = "Correlation"%string) ->
  count a <> 1 \/ count b = 1 ->
  exists r, op (real_ops power modulo) real_transforms junk a (OtherSignal b) mode = Ok r /\ labels r = zrepeat name (count r).
Proof. exact @real_labels. Qed.
Print Assumptions C17_labels.

Example C17_labels_case : rmap labels (signal_correlate Zops no_transforms Zjunk demo_ab (OtherSignal demo_3) SAME) = Ok ["Correlation"; "Correlation"]%string.
Proof. reflexivity. Qed.

(** Found: in that case only the first channel is labelled. *)
Theorem C17_labels_refuted : exists (a b r : signal Z), wf_signal a /\ wf_signal b /\ 0 < length a /\ 0 < length b /\
  signal_convolve Zops no_transforms Zjunk a (OtherSignal b) FULL = Ok r /\ labels r = ["Convolution"; ""; ""]%string.
Proof.
  exists demo_c, demo_3. eexists. split; [exact demo_c_wf|]. split; [repeat split; cbn; try discriminate; repeat constructor|].
  split; [reflexivity|]. split; [reflexivity|]. split; reflexivity.
Qed.
Print Assumptions C17_labels_refuted.

(** A two dimensional array acts as a signal with the offset zero, but the labels are kept. *)
Theorem C17_arrays : forall A K (O : ops A) (X : transforms A K) junk mode op a b r,
  op = signal_convolve \/ op = signal_correlate -> wf_signal a -> begins b = 0 ->
  op O X junk a (OtherSignal b) mode = Ok r ->
  exists r', op O X junk a (Array2 (channels b)) mode = Ok r' /\ sampling_rate r' = sampling_rate r /\ same_samples r' r /\
    zlen (labels r') = count r' /\ forall c l, 0 <= c < count r' -> zth (labels a) c = Some l -> zth (labels r') c = Some l.
Proof. intros A K O X junk mode op a b r [->| ->] Wa Hb H; exact (with_array_ok O junk _ _ a b r Hb Wa H). Qed.
Print Assumptions C17_arrays.

Theorem C17_vectors : forall A K (O : ops A) (X : transforms A K) junk mode op a v, op = signal_convolve \/ op = signal_correlate ->
  op O X junk a (Array1 v) mode = op O X junk a (Array2 (Arr [v] (zlen v))) mode.
Proof. intros A K O X junk mode op a v [->| ->]; exact (with_vector_ok O junk _ _ a v). Qed.
Print Assumptions C17_vectors.

Example C17_arrays_case :
  rmap (fun r => (rows (channels r), offset r, labels r)) (signal_convolve Zops no_transforms Zjunk demo_ab (Array2 (Arr [[10; 20]] 2)) FULL)
  = Ok ([[10; 40; 70; 60]; [40; 130; 160; 120]], -1, ["a"; "b"]%string).
Proof. reflexivity. Qed.

(** A number is a factor. *)
Theorem C17_numbers : forall A K (O : ops A) (X : transforms A K) junk mode op a x, op = signal_convolve \/ op = signal_correlate -> wf_signal a ->
  exists r, op O X junk a (Number x) mode = Ok r /\ wf_signal r /\
  sampling_rate r = sampling_rate a /\ count r = count a /\ begins r = begins a /\ ends r = ends a /\ labels r = labels a /\
  forall c t, at_time r c t = option_map (fun y => o_mul O y x) (at_time a c t).
Proof. intros A K O X junk mode op a x [->| ->] Wa; exact (with_number_ok O junk _ _ a x Wa). Qed.
Print Assumptions C17_numbers.

Example C17_numbers_case :
  rmap (fun r => (rows (channels r), offset r)) (signal_correlate Zops no_transforms Zjunk demo_ab (Number 3) VALID) = Ok ([[3; 6; 9]; [12; 15; 18]], -1).
Proof. reflexivity. Qed.
