(** Windows with a constant sum of repetitions: their measures and the Fourier transform with the default window. *)

From Coq Require Import String ZArith QArith List Bool Lia ZifyBool Reals Lra.
From Verif.Model Require Import Py Numpy Vector Functions Signal Spectrum Fft Fourier Generators Windows.
From Verif.Spec Require Import TimeSpec FrequencySpec RealSpec ConvolutionSpec ComplexSpec DftSpec FourierSpec BlockSpec GeneratorsSpec WindowSpec.
From Verif.Proofs Require Import PyFacts NumpyFacts SliceFacts DftFacts BlockRanges BlockResults BlockCases WindowMeasures WindowShapes.
Import ListNotations.
Open Scope Z_scope.
Ltac Zify.zify_post_hook ::= idtac.

Section Results.
Variables power modulo : R -> R -> R.
Notation O := (real_ops power modulo).

Lemma index_rest step length : 0 < step <= length -> index (NInt (length - step)) length = Ok (length - step).
Proof. intros H. rewrite index_int by lia. replace (length - step <? 0) with false by lia. reflexivity. Qed.

Lemma mean_value_pos c : (0 < mean_value c)%R.
Proof. destruct c; cbn; lra. Qed.

Lemma enough_pos c m : enough c m -> 0 < m.
Proof. destruct c; cbn; lia. Qed.

Lemma overlapped_add w step d t : count w = 1 -> constant_overlap_add w step d -> overlapped (window_at w 0) (length w) step t = d.
Proof. intros C H. apply H. lia. Qed.

Lemma measures_ok (junk : Z -> R) c rate step m : 0 < step -> enough c m ->
  exists w, real_window power modulo junk c rate (NInt 0) (m * step) false = Ok w /\ constant_overlap_add w step (IZR m * mean_value c)%R /\
    amplitude_flatness O less junk w (NInt (m * step - step)) = Ok 1%R /\
    window_scaling_factor O IZR w (NInt (m * step - step)) = Ok (/ (IZR m * mean_value c))%R.
Proof.
  intros Hs En. pose proof (enough_pos c m En) as Hm. pose proof (mean_value_pos c) as Pc. assert (Pm : (0 < IZR m)%R) by (apply IZR_lt; lia).
  destruct (periodic_window_ok power modulo junk c rate (m * step)) as (w & Ew & Ww & Cw & Bw & Lw & _); [nia|].
  pose proof (constant_overlap_ok power modulo junk c rate step m w Hs En Ew) as Co. assert (Hl : 0 < step <= length w) by (rewrite Lw; nia).
  exists w. split; [exact Ew|]. split; [exact Co|]. rewrite <- Lw. split.
  - destruct (amplitude_flatness_ok power modulo junk w Ww Cw _ step (index_rest step (length w) Hl) Hl) as (f & Ef & F). rewrite Ef. f_equal.
    apply (flat_constant _ _ F).
    + intros t. rewrite (overlapped_add w step _ t Cw Co). nra.
    + exists 0. rewrite (overlapped_add w step _ 0 Cw Co). nra.
    + eexists. intros t. apply (overlapped_add w step _ t Cw Co).
  - rewrite (window_scaling_factor_ok power modulo w Ww Cw _ step (index_rest step (length w) Hl) Hl). do 2 f_equal.
    apply (constant_mean w w step); auto; lia.
Qed.

(** The flatness is 1, if and only if the sum is constant *)
Lemma flatness_constant (junk : Z -> R) w overlap step : wf_signal w -> count w = 1 -> index overlap (length w) = Ok (length w - step) -> 0 < step <= length w ->
  (forall n, 0 <= window_at w 0 n)%R -> (exists n, 0 < window_at w 0 n)%R ->
  exists f, amplitude_flatness O less junk w overlap = Ok f /\ (0 <= f <= 1)%R /\ (f = 1%R <-> exists d, constant_overlap_add w step d).
Proof.
  intros Ww Cw E Hs P (n0 & N0). destruct (amplitude_flatness_ok power modulo junk w Ww Cw overlap step E Hs) as (f & Ef & F). exists f. split; [exact Ef|].
  assert (Pos : forall t, (0 <= overlapped (window_at w 0) (length w) step t)%R).
  { intros t. unfold overlapped. generalize (zseq 0 (length w)). intros l. unfold Rsum_list. induction l as [|a l IH]; cbn; [lra|]. pose proof (P a). destruct (_ =? 0); lra. }
  assert (Hn0 : 0 <= n0 < length w).
  { unfold window_at in N0. destruct (el _ _ _) eqn:Q; [|lra]. apply el_range in Q; [|apply Ww]. unfold length. tauto. }
  assert (Some0 : (0 < overlapped (window_at w 0) (length w) step n0)%R).
  { unfold overlapped. assert (I : In n0 (zseq 0 (length w))) by (apply in_zseq; lia). revert I. generalize (zseq 0 (length w)). intros l. unfold Rsum_list. induction l as [|a l IH]; [intros []|].
    assert (Tail : (0 <= fold_right (fun b a => (if (b - n0) mod step =? 0 then window_at w 0 b else 0) + a) 0 l)%R).
    { clear - P. revert P. generalize (window_at w 0). intros g P. induction l as [|a l IH]; cbn; [lra|]. pose proof (P a). destruct (_ =? 0); lra. }
    intros [->|I]; cbn [fold_right].
    - replace (n0 - n0) with 0 by lia. rewrite Z.mod_0_l by lia. cbn [Z.eqb]. lra.
    - specialize (IH I). pose proof (P a). destruct (_ =? 0); lra. }
  split.
  - destruct F as (a & b & -> & B). pose proof (B n0). assert (0 < overlapped (window_at w 0) (length w) step b)%R by lra. pose proof (Pos a). pose proof (B b).
    split; apply (Rmult_le_reg_r (overlapped (window_at w 0) (length w) step b)); auto; unfold Rdiv; rewrite Rmult_assoc, Rinv_l by lra; lra.
  - rewrite (flat_constant _ _ F Pos (ex_intro _ n0 Some0)). split; intros (d & D); exists d.
    + intros c t Hc. replace c with 0 by lia. apply D.
    + intros t. apply D. lia.
Qed.

(** ** The Fourier transform with the default window *)

Lemma default_transform_ok cpower cmodulo junk cjunk wjunk s L : wf_signal s -> 0 < count s -> sampling_rate s <> 0%R -> 0 < L <= length s -> L mod 2 = 0 ->
  exists w r, real_get_window power modulo wjunk (WLength L) (NFloat (1 # 2)) false (sampling_rate s) = Ok w /\
    fourier_transform O real_transforms (real_numbers cpower cmodulo) junk cjunk s (Some w) (NFloat (1 # 2)) true = Ok r /\
    wf_spectrum r /\ sp_count r = count s /\ sp_length r = L / 2 + 1 /\ resolution r = (sampling_rate s / IZR L)%R /\ sp_labels r = labels s /\
    forall c k, 0 <= c < count s -> 0 <= k <= L / 2 -> bin r c k = Some (fourier_sum s c (IZR k / IZR L)).
Proof.
  intros Ws Ps R0 HL Ev. pose proof (Z.div_mod L 2 ltac:(lia)) as D. set (step := L / 2) in *. assert (EL : L = 2 * step) by lia.
  destruct (periodic_window_ok power modulo wjunk HannWindow (sampling_rate s) L) as (w & Ew & Ww & Cw & Bw & Lw & Rw & _); [lia|].
  assert (Co : constant_overlap_add w step (IZR 2 * (1/2))%R).
  { apply (constant_overlap_ok power modulo wjunk HannWindow (sampling_rate s) step 2 w); [lia|cbn; lia|]. now rewrite <- EL. }
  destruct (constant_transform_ok power modulo cpower cmodulo junk cjunk s w (NFloat (1 # 2)) step) with (d := (IZR 2 * (1/2))%R) as (r & Er & Wr & Cr & Lr & Rr & Br & V); auto; try lia.
  - rewrite Lw, half_index by lia. f_equal. lia.
  - lra.
  - exists w, r. split; [exact Ew|]. split; [exact Er|]. split; [exact Wr|]. split; [lia|]. split; [rewrite Lr, Lw; reflexivity|].
    split; [rewrite Rr, Lw; reflexivity|]. split.
    + rewrite Br. replace (Z.max (count s) (count w) - count s) with 0 by lia. cbn. apply app_nil_r.
    + intros c k Hc Hk. rewrite V by (rewrite ?Lw; fold step; lia). rewrite Lw. do 2 f_equal. destruct (count s =? 1) eqn:Q; lia.
Qed.

End Results.

(** The cases: a Hann window with four samples *)
Lemma hann4_measures : wf_signal hann4 /\ count hann4 = 1 /\ index (NInt 2) (length hann4) = Ok (length hann4 - 2) /\ 0 < 2 <= length hann4 /\
  (forall n, 0 <= window_at hann4 0 n)%R /\ (exists n, 0 < window_at hann4 0 n)%R /\ correlation (window_at hann4 0) (length hann4) 0 = (3/2)%R /\
  correlation (window_at hann4 0) (length hann4) 2 = (1/4)%R.
Proof.
  split; [split; [split; [cbn; lia|repeat constructor]|reflexivity]|]. split; [reflexivity|]. split; [reflexivity|]. split; [change (length hann4) with 4; lia|].
  split.
  - intros n. unfold window_at. change (if count hann4 =? 1 then 0 else 0) with 0. destruct (el (channels hann4) 0 n) as [x|] eqn:E; [|lra].
    assert (W : wf (channels hann4)) by (split; [cbn; lia|repeat constructor]). pose proof (el_range _ _ _ _ W E) as [_ B]. change (cols (channels hann4)) with 4 in B.
    assert (n = 0 \/ n = 1 \/ n = 2 \/ n = 3) as [-> | [-> | [-> | ->]]] by lia; injection E as <-; lra.
  - split; [exists 2; change (window_at hann4 0 2) with 1%R; lra|]. unfold correlation. change (length hann4) with 4. change (zseq 0 4) with [0; 1; 2; 3].
    unfold Rsum_list. cbn [fold_right].
    change (window_at hann4 0 0) with 0%R. change (window_at hann4 0 1) with (1 / 2)%R. change (window_at hann4 0 2) with 1%R. change (window_at hann4 0 3) with (1 / 2)%R.
    change (window_at hann4 0 (0 + 0)) with 0%R. change (window_at hann4 0 (1 + 0)) with (1 / 2)%R. change (window_at hann4 0 (2 + 0)) with 1%R. change (window_at hann4 0 (3 + 0)) with (1 / 2)%R.
    change (window_at hann4 0 (0 + 2)) with 1%R. change (window_at hann4 0 (1 + 2)) with (1/2)%R. change (window_at hann4 0 (2 + 2)) with 0%R. change (window_at hann4 0 (3 + 2)) with 0%R.
    split; lra.
Qed.
