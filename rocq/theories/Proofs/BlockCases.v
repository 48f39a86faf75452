(** Special cases of the Fourier transform in blocks: signals that are shorter than the window, and blocks that do not advance. *)

From Coq Require Import String ZArith List Bool Lia ZifyBool Reals Lra.
From Verif.Model Require Import Py Numpy Vector Functions Signal Spectrum Fft Fourier.
From Verif.Spec Require Import TimeSpec FrequencySpec RealSpec ConvolutionSpec ComplexSpec DftSpec FourierSpec BlockSpec.
From Verif.Proofs Require Import PyFacts NumpyFacts SumFacts ComplexFacts DftFacts PlacedFacts FourierFacts FourierCases BlockRanges BlockFacts BlockScaling BlockResults.
Import ListNotations.
Open Scope Z_scope.
Ltac Zify.zify_post_hook ::= idtac.

Section Cases.
Variables power modulo : R -> R -> R.
Variables cpower cmodulo : C -> C -> C.
Variable junk : Z -> Z -> R.
Variable cjunk : Z -> Z -> C.
Notation O := (real_ops power modulo).
Notation X := real_transforms.
Notation N := (real_numbers cpower cmodulo).

Lemma filter_true {A} (f : A -> bool) l : (forall x, In x l -> f x = true) -> filter f l = l.
Proof. induction l as [|x l IH]; intros H; [reflexivity|]. cbn. rewrite (H x) by (left; auto). rewrite IH; [reflexivity|]. intros y Hy. apply H. right. auto. Qed.

Lemma computed_long l n step : l <= n -> computed_blocks l n step = overlapping_blocks l n step.
Proof. intros L. unfold computed_blocks. apply filter_true. intros. replace (l <=? n) with true by lia. apply orb_true_r. Qed.

Lemma computed_short l n step : n < l -> computed_blocks l n step = filter (fun b => negb (b =? 0)) (overlapping_blocks l n step).
Proof. intros L. unfold computed_blocks. apply filter_ext. intros. replace (l <=? n) with false by lia. apply orb_false_r. Qed.

(** Without overlap, the only block that overlaps a short signal is the one that is skipped. *)
Lemma computed_none l n : 0 <= n < l -> computed_blocks l n l = [].
Proof.
  intros H. destruct (computed_blocks l n l) as [|b bl] eqn:E; [reflexivity|]. assert (I : In b (computed_blocks l n l)) by (rewrite E; left; auto).
  rewrite computed_short in I by lia. apply filter_In in I. destruct I as [I Z0]. unfold overlapping_blocks in I. apply filter_In in I. destruct I as [I M].
  apply in_zseq in I. exfalso. assert (b mod l = 0) by lia. assert (b <> 0) by lia. assert (-l < b < l) by lia.
  destruct (Z_lt_le_dec b 0).
  - assert (b mod l = b + l). { symmetry. apply Zmod_unique with (q := -1); lia. } lia.
  - rewrite Z.mod_small in * by lia. lia.
Qed.

Section Shapes.
Variables s w : signal R.
Variable overlap : num.
Variable step : Z.
Hypothesis Ws : wf_signal s.
Hypothesis Ww : wf_signal w.
Hypothesis Ps : 0 < count s.
Hypothesis Pw : 0 < count w.
Hypothesis Compatible : count s = count w \/ count s = 1 \/ count w = 1.
Hypothesis Rate : sampling_rate w = sampling_rate s.
Hypothesis Rate0 : sampling_rate s <> 0%R.

Lemma full_overlap_raises pad : 0 < length w -> index overlap (length w) = Ok (length w) ->
  fourier_transform O X N junk cjunk s (Some w) overlap pad = Err ValueError.
Proof.
  clear Compatible. intros Pl I. unfold fourier_transform, block_wise_fourier_transform. cbv zeta. pose proof (len_pos w Pl) as PL.
  replace (count s =? 0) with false by lia. replace (count w =? 0) with false by lia. replace (length w =? 0) with false by lia. cbn [orb].
  rewrite I. cbn [bind]. replace (length w - length w) with 0 by lia.
  destruct (allocate_ok cjunk (Z.max (count s) (count w)) (length w / 2 + 1)) as (ch0 & -> & W0 & N0 & C0'); try lia. cbn [bind].
  destruct (fill_cols_ok ch0 everything (o_zero (c_ops N)) 0 (length w / 2 + 1)) as (ch1 & -> & W1 & N1 & C1' & V1); auto; [rewrite C0'; apply upper_everything; lia|]. cbn [bind].
  destruct (allocate_ok junk (Z.max (count s) (count w)) (length w)) as (m0 & -> & Wm0 & Nm0 & Cm0); try lia. cbn [bind].
  destruct pad; reflexivity.
Qed.

Hypothesis Overlap : index overlap (length w) = Ok (length w - step).
Hypothesis Hstep : 0 < step <= length w.
Hypothesis Mean : forall c, 0 <= c < count w -> mean_overlap w c step <> 0%R.

Lemma padded_ok : length w <= length s ->
  exists r, fourier_transform O X N junk cjunk s (Some w) overlap true = Ok r /\ wf_spectrum r /\
    sp_count r = Z.max (count s) (count w) /\ sp_length r = length w / 2 + 1 /\
    resolution r = (sampling_rate s / IZR (length w))%R /\ sp_labels r = labels s ++ zrepeat EmptyString (Z.max (count s) (count w) - count s) /\
    forall c k, 0 <= c < Z.max (count s) (count w) -> 0 <= k <= length w / 2 ->
      bin r c k = Some (weighted_fourier_sum s c
        (fun t => overlap_sum w c (overlapping_blocks (length w) (length s) step) (t - begins s) / mean_overlap w c step)%R (IZR k / IZR (length w))).
Proof.
  intros L. rewrite <- (computed_long (length w) (length s) step L).
  apply (block_transform_ok power modulo cpower cmodulo junk cjunk s w overlap step) with (pad := true); auto.
Qed.

Lemma unpadded_ok :
  exists r, fourier_transform O X N junk cjunk s (Some w) overlap false = Ok r /\ wf_spectrum r /\
    sp_count r = Z.max (count s) (count w) /\ sp_length r = length w / 2 + 1 /\
    resolution r = (sampling_rate s / IZR (length w))%R /\ sp_labels r = labels s ++ zrepeat EmptyString (Z.max (count s) (count w) - count s) /\
    forall c k, 0 <= c < Z.max (count s) (count w) -> 0 <= k <= length w / 2 ->
      bin r c k = Some (weighted_fourier_sum s c
        (fun t => overlap_sum w c (inner_blocks (length w) (length s) step) (t - begins s) / mean_overlap w c step)%R (IZR k / IZR (length w))).
Proof. apply (block_transform_ok power modulo cpower cmodulo junk cjunk s w overlap step) with (pad := false); auto. Qed.

Lemma short_ok : length s < length w ->
  exists r, fourier_transform O X N junk cjunk s (Some w) overlap true = Ok r /\ wf_spectrum r /\
    sp_count r = Z.max (count s) (count w) /\ sp_length r = length w / 2 + 1 /\
    resolution r = (sampling_rate s / IZR (length w))%R /\ sp_labels r = labels s ++ zrepeat EmptyString (Z.max (count s) (count w) - count s) /\
    forall c k, 0 <= c < Z.max (count s) (count w) -> 0 <= k <= length w / 2 ->
      bin r c k = Some (weighted_fourier_sum s c
        (fun t => overlap_sum w c (filter (fun b => negb (b =? 0)) (overlapping_blocks (length w) (length s) step)) (t - begins s) / mean_overlap w c step)%R
        (IZR k / IZR (length w))).
Proof.
  intros L. rewrite <- (computed_short (length w) (length s) step L).
  apply (block_transform_ok power modulo cpower cmodulo junk cjunk s w overlap step) with (pad := true); auto.
Qed.

End Shapes.

(** A short signal vanishes, if the blocks do not overlap. *)
Lemma lost_ok s w overlap : wf_signal s -> wf_signal w -> 0 < count s -> 0 < count w ->
  count s = count w \/ count s = 1 \/ count w = 1 -> sampling_rate w = sampling_rate s -> sampling_rate s <> 0%R ->
  index overlap (length w) = Ok 0 -> length s < length w -> (forall c, 0 <= c < count w -> mean_overlap w c (length w) <> 0%R) ->
  exists r, fourier_transform O X N junk cjunk s (Some w) overlap true = Ok r /\ sp_count r = Z.max (count s) (count w) /\ sp_length r = length w / 2 + 1 /\
    forall c k, 0 <= c < Z.max (count s) (count w) -> 0 <= k <= length w / 2 -> bin r c k = Some (C_of_R 0).
Proof.
  intros Ws Ww Ps Pw Cp Ra R0 I L M. pose proof (n_nonneg s Ws).
  destruct (block_transform_ok power modulo cpower cmodulo junk cjunk s w overlap (length w)) with (pad := true) as (r & E & Wr & Cr & Lr & _ & _ & V); auto.
  { now rewrite Z.sub_diag. } { lia. }
  exists r. do 3 (split; [auto|]). intros c k Hc Hk. rewrite V by auto. f_equal. unfold blocks. rewrite computed_none by lia.
  unfold weighted_fourier_sum. rewrite Csum_over_time_sum. apply (sumz_zero CO CO_ring). intros t _. unfold overlap_sum. cbn [Rsum_list fold_right].
  unfold Rdiv. rewrite Rmult_0_l, Rmult_0_r. apply C_ext; cbn; ring.
Qed.

End Cases.

(** The periodic Hann window with four samples, the half overlap of which is constant *)
Definition hann4 : signal R := Signal (Arr [[0; 1/2; 1; 1/2]]%R 4) 48000%R 0 ["Hann window"%string].
Definition five : signal R := Signal (Arr [[1; 2; 3; 4; 5]; [1; 0; 0; 0; 0]]%R 5) 48000%R 3 ["five"%string; "one"%string].

Lemma hann4_constant : constant_overlap_add hann4 2 1.
Proof.
  intros c t Hc. change (count hann4) with 1 in Hc. replace c with 0 by lia. clear Hc c. change (length hann4) with 4. change (zseq 0 4) with [0; 1; 2; 3].
  unfold Rsum_list. cbn [fold_right].
  change (window_at hann4 0 0) with 0%R. change (window_at hann4 0 1) with (1 / 2)%R. change (window_at hann4 0 2) with 1%R. change (window_at hann4 0 3) with (1 / 2)%R.
  pose proof (Z.mod_pos_bound t 2 ltac:(lia)). assert (t mod 2 = 0 \/ t mod 2 = 1) as [M|M] by lia.
  all: rewrite (Zminus_mod 0 t), (Zminus_mod 1 t), (Zminus_mod 2 t), (Zminus_mod 3 t), M.
  - change ((0 mod 2 - 0) mod 2 =? 0) with true. change ((1 mod 2 - 0) mod 2 =? 0) with false. change ((2 mod 2 - 0) mod 2 =? 0) with true. change ((3 mod 2 - 0) mod 2 =? 0) with false.
    cbv iota. lra.
  - change ((0 mod 2 - 1) mod 2 =? 0) with false. change ((1 mod 2 - 1) mod 2 =? 0) with true. change ((2 mod 2 - 1) mod 2 =? 0) with false. change ((3 mod 2 - 1) mod 2 =? 0) with true.
    cbv iota. lra.
Qed.

Lemma hann4_mean c : 0 <= c < count hann4 -> mean_overlap hann4 c 2 <> 0%R.
Proof.
  intros Hc. change (count hann4) with 1 in Hc. replace c with 0 by lia.
  rewrite (constant_mean hann4 hann4 2) with (d := 1%R); [lra|wf_case|reflexivity|change (length hann4) with 4; lia|auto|apply hann4_constant|split; [lia|reflexivity]].
Qed.

Lemma five_ok : wf_signal five /\ wf_signal hann4 /\ 0 < count five /\ 0 < count hann4 /\
  (count five = count hann4 \/ count five = 1 \/ count hann4 = 1) /\ sampling_rate hann4 = sampling_rate five /\ sampling_rate five <> 0%R /\
  index (NInt 2) (length hann4) = Ok (length hann4 - 2) /\ 0 < 2 <= length hann4 /\ length hann4 <= length five /\
  (forall c, 0 <= c < count hann4 -> mean_overlap hann4 c 2 <> 0%R) /\
  overlapping_blocks (length hann4) (length five) 2 = [-2; 0; 2; 4] /\ inner_blocks (length hann4) (length five) 2 = [0].
Proof.
  split; [wf_case|]. split; [wf_case|]. split; [reflexivity|]. split; [reflexivity|]. split; [auto|]. split; [reflexivity|]. split; [cbn; lra|].
  split; [reflexivity|]. split; [change (length hann4) with 4; lia|]. split; [discriminate|]. split; [apply hann4_mean|]. split; reflexivity.
Qed.

(** A window of ones *)
Definition ones2 : signal R := Signal (Arr [[1; 1]]%R 2) 48000%R 0 ["Rectangular window"%string].
Lemma ones2_mean c : 0 <= c < count ones2 -> mean_overlap ones2 c (length ones2) <> 0%R.
Proof.
  intros Hc. change (count ones2) with 1 in Hc. replace c with 0 by lia. unfold mean_overlap, overlap_sum. change (length ones2) with 2.
  change (overlapping_blocks 2 2 2) with [0]. change (zseq 0 2) with [0; 1]. unfold Rsum_list. cbn [fold_right].
  change (window_at ones2 0 (0 - 0)) with 1%R. change (window_at ones2 0 (1 - 0)) with 1%R. lra.
Qed.

Lemma unit_ok : wf_signal unit /\ wf_signal ones2 /\ 0 < count unit /\ 0 < count ones2 /\
  (count unit = count ones2 \/ count unit = 1 \/ count ones2 = 1) /\ sampling_rate ones2 = sampling_rate unit /\ sampling_rate unit <> 0%R /\
  index (NInt 0) (length ones2) = Ok 0 /\ length unit < length ones2 /\ (forall c, 0 <= c < count ones2 -> mean_overlap ones2 c (length ones2) <> 0%R) /\
  at_time unit 0 0 = Some 1%R.
Proof.
  split; [wf_case|]. split; [wf_case|]. split; [reflexivity|]. split; [reflexivity|]. split; [auto|]. split; [reflexivity|]. split; [cbn; lra|].
  split; [reflexivity|]. split; [reflexivity|]. split; [apply ones2_mean|]. reflexivity.
Qed.

Lemma short_case : length pulse < length hann4 /\ overlapping_blocks (length hann4) (length pulse) 2 = [-2; 0] /\
  filter (fun b => negb (b =? 0)) (overlapping_blocks (length hann4) (length pulse) 2) = [-2].
Proof. split; [reflexivity|]. split; reflexivity. Qed.
