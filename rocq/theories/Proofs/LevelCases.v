(** Examples of levels and statistical parameters and cases, in which the level is wrong. *)

From Coq Require Import String ZArith List Bool Lia ZifyBool Reals Lra Field.
From Verif.Model Require Import Py Numpy Vector Functions Signal Spectrum Fft Fourier Convolution Sweeps Levels.
From Verif.Spec Require Import TimeSpec RealSpec ConvolutionSpec ComplexSpec DftSpec FourierSpec SweepSpec LevelSpec.
From Verif.Proofs Require Import PyFacts NumpyFacts SumFacts PlacedFacts DftFacts FourierFacts LevelFacts SweepFacts CoverageFacts LevelTimeFacts StatisticFacts.
Import ListNotations.
Open Scope Z_scope.
Ltac Zify.zify_post_hook ::= idtac.

Section Cases.
Variables power modulo : R -> R -> R.
Variables cpower cmodulo : C -> C -> C.
Variable junk : Z -> Z -> R.
Notation O := (real_ops power modulo).
Notation N := (real_numbers cpower cmodulo).
Notation M := real_functions.
Notation levels := (level_vs_time O N M junk).

(** A channel with [n] ones, whose first sample has the time 7 *)
Definition ones (n : Z) : signal R := Signal (Arr [zrepeat 1%R n] n) 1%R 7 ["one"%string].

Lemma ones_wf n : 0 <= n -> wf_signal (ones n).
Proof. intros H. split; [|reflexivity]. split; cbn; [lia|]. constructor; auto. rewrite zlen_repeat. lia. Qed.

Lemma ones_at n i : 0 <= i < n -> at_R (rowv (channels (ones n)) 0) i = 1%R.
Proof. intros H. unfold at_R. change (rowv (channels (ones n)) 0) with (zrepeat 1%R n). rewrite zth_repeat. now replace (_ && _) with true by lia. Qed.

Lemma ones_integral n w i : 0 <= n -> integral_of_squares (ones n) w 0 (7 + i) = covered_time (ones n) w (7 + i).
Proof.
  intros H. change 7 with (offset (ones n)). rewrite integral_ok, covered_time_ok; [|now apply ones_wf|change (count (ones n)) with 1; lia].
  apply sumz_ext. intros k Hk. change (length (ones n)) with n in Hk. rewrite ones_at by lia. ring.
Qed.

(** Without padding, the level is one. *)
Lemma ones_level n w i : (0 < w)%R -> 0 <= i < n -> squared_level (ones n) w false 0 (7 + i) = 1%R.
Proof.
  intros P H. unfold squared_level. rewrite ones_integral by lia. change 7 with (offset (ones n)). rewrite covered_time_ok. change (length (ones n)) with n.
  pose proof (sum_coverage_positive w n i P H). field. lra.
Qed.

Lemma weighted_ones n hf h i : 0 <= n -> weighted (rowv (channels (ones n)) 0) hf h i = sumz RO 0 n (fun k => weight hf h (k - i)).
Proof.
  intros H. unfold weighted. change (rowv (channels (ones n)) 0) with (zrepeat 1%R n). rewrite zlen_repeat. replace (Z.max 0 n) with n by lia.
  apply sumz_ext. intros k Hk. change (zrepeat 1%R n) with (rowv (channels (ones n)) 0). rewrite ones_at by lia. ring.
Qed.

Lemma frame_at r n i : same_frame r (ones n) -> at_time r 0 (7 + i) = el (channels r) 0 i.
Proof. intros (_ & _ & B & _). unfold at_time. change (begins r = 7) in B. unfold begins in B. rewrite B. f_equal. lia. Qed.

(** The length of the interval is not an integer number of samples. *)
Lemma fraction_case vjunk : exists r, levels vjunk (ones 4) (5 / 4)%R false = Ok r /\ at_time r 0 8 = Some (sqrt (11 / 5)) /\
  squared_level (ones 4) (5 / 4 * sampling_rate (ones 4)) false 0 8 = 1%R.
Proof.
  assert (Ew : (5 / 4 * sampling_rate (ones 4) = 5 / 4)%R) by (cbn; lra).
  destruct (long_ok power modulo cpower cmodulo junk vjunk (ones 4) (ones_wf 4 ltac:(lia)) (5 / 4)%R ltac:(rewrite Ew; lra) 1 ltac:(rewrite Ew; lra) false) as (r & E & F & V); [cbn; lia|].
  exists r. split; [exact E|]. change 8 with (7 + 1). split; [|apply ones_level; [rewrite Ew; lra|lia]]. rewrite (frame_at r 4) by auto.
  rewrite V; [|change (count (ones 4)) with 1; lia|change (length (ones 4)) with 4; lia]. rewrite Ew. f_equal.
  unfold factor. change (length (ones 4)) with 4. change (Z.min 1 (4 - 1 - 1) <? 1) with false. change (1 + 2 * 1 <? 4) with true. cbv iota. rewrite Rmult_1_r. f_equal.
  rewrite weighted_ones by lia. set (hf := ((5 / 4 - 1) / 2)%R).
  change (sumz RO 0 4 (fun k => weight hf 1 (k - 1))) with (corner hf 1 + (1 + (corner hf 1 + (0 + 0))))%R.
  unfold corner, hf. destruct (Req_EM_T _ _); lra.
Qed.

(** The window has as many samples as the signal: the correction of the sample in the middle is not initialised. *)
Lemma uninitialised_case vjunk : (0 < vjunk 1%Z <= 3)%R -> exists r, levels vjunk (ones 3) 3%R false = Ok r /\ at_time r 0 8 = Some (sqrt (3 / vjunk 1%Z)) /\
  squared_level (ones 3) (3 * sampling_rate (ones 3)) false 0 8 = 1%R.
Proof.
  intros J. assert (Ew : (3 * sampling_rate (ones 3) = 3)%R) by (cbn; lra).
  destruct (long_ok power modulo cpower cmodulo junk vjunk (ones 3) (ones_wf 3 ltac:(lia)) 3%R ltac:(rewrite Ew; lra) 1 ltac:(rewrite Ew; lra) false) as (r & E & F & V); [cbn; lia|].
  exists r. split; [exact E|]. change 8 with (7 + 1). split; [|apply ones_level; [rewrite Ew; lra|lia]]. rewrite (frame_at r 3) by auto.
  rewrite V; [|change (count (ones 3)) with 1; lia|change (length (ones 3)) with 3; lia]. rewrite Ew. f_equal.
  unfold factor. change (length (ones 3)) with 3. change (Z.min 1 (3 - 1 - 1) <? 1) with false. change (1 + 2 * 1 <? 3) with false. cbv iota. rewrite Ew.
  rewrite clip_ok by lra. rewrite Rmin_right by lra. rewrite weighted_ones by lia.
  assert (S : sumz RO 0 3 (fun k => weight ((3 - 1) / 2) 1 (k - 1)) = 3%R).
  { set (hf := ((3 - 1) / 2)%R). change (sumz RO 0 3 (fun k => weight hf 1 (k - 1))) with (corner hf 1 + (1 + (corner hf 1 + 0)))%R.
    unfold corner, hf. destruct (Req_EM_T _ _); lra. }
  rewrite S. replace (3 / 3)%R with 1%R by lra. rewrite sqrt_1. ring.
Qed.

(** The interval does not quite reach from the first sample to the last. *)
Lemma half_window_case vjunk : exists r, levels vjunk (ones 3) 4%R true = Ok r /\ at_time r 0 7 = Some (sqrt (3 / 4)) /\
  squared_level (ones 3) (4 * sampling_rate (ones 3)) true 0 7 = (5 / 8)%R.
Proof.
  assert (Ew : (4 * sampling_rate (ones 3) = 4)%R) by (cbn; lra).
  destruct (covered_ok power modulo cpower cmodulo junk vjunk (ones 3) (ones_wf 3 ltac:(lia)) 4%R ltac:(rewrite Ew; lra) 2 ltac:(rewrite Ew; lra) true) as (r & E & F & V); [cbn; lia|].
  exists r. split; [exact E|]. change 7 with (7 + 0). rewrite (frame_at r 3) by auto. split.
  - rewrite V; [|change (count (ones 3)) with 1; lia|change (length (ones 3)) with 3; lia]. rewrite Ew. do 3 f_equal. change (length (ones 3)) with 3.
    rewrite (sumz_ext RO 0 3 _ (fun _ => 1%R)); [apply sumz_ones; lia|]. intros k Hk. rewrite ones_at by lia. ring.
  - unfold squared_level. rewrite ones_integral by lia. change 7 with (offset (ones 3)). rewrite covered_time_ok. change (length (ones 3)) with 3.
    rewrite Ew, sum_coverage by (lra || lia). change (3 - 1 - 0) with 2. unfold Rmin. repeat destruct (Rle_dec _ _); lra.
Qed.

(** Three samples, whose statistical parameters can be computed *)
Definition steps : signal R := Signal (Arr [[1; 2; 6]; [0; 3; 0]]%R 3) 48000%R (-2) ["a"; "b"]%string.
Lemma steps_wf : wf_signal steps.
Proof. split; [|reflexivity]. split; cbn; [lia|]. repeat constructor. Qed.

Lemma steps_values : mean_over_time steps 0 (fun x => x) = 3%R /\ central_mean steps 0 (fun d => d * d)%R = (14 / 3)%R /\
  central_mean steps 0 (fun d => d * d * d)%R = 6%R /\ central_mean steps 0 (fun d => d * d * (d * d))%R = (98 / 3)%R /\
  mean_over_time steps 1 (fun x => x) = 1%R.
Proof.
  assert (E0 : forall f, mean_over_time steps 0 f = ((f 1 + (f 2 + (f 6 + 0))) / 3)%R) by (intros; reflexivity).
  assert (E1 : forall f, mean_over_time steps 1 f = ((f 0 + (f 3 + (f 0 + 0))) / 3)%R) by (intros; reflexivity).
  assert (M0 : mean_over_time steps 0 (fun x => x) = 3%R) by (rewrite E0; lra).
  unfold central_mean. cbv zeta. rewrite M0, !E0, E1. repeat split; lra.
Qed.

End Cases.
