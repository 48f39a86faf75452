(** The Bartlett-Hann, Blackman-Harris, Bohman, Parzen and Kaiser windows as signals *)

From Coq Require Import String ZArith QArith List Bool Lia ZifyBool Reals Lra Field Psatz.
From Verif.Model Require Import Py Numpy Vector Functions Signal Generators Windows CosineWindows FurtherWindows.
From Verif.Spec Require Import TimeSpec RealSpec BlockSpec DftSpec GeneratorsSpec WindowSpec CosineWindowSpec FurtherWindowSpec.
From Verif.Proofs Require Import PyFacts NumpyFacts VectorFacts SliceFacts FadeFacts BlockRanges WindowMeasures WindowShapes CosineDecay CosineWindowResults BesselSeries FurtherWindowResults FurtherWindowShapes.
Import ListNotations.
Open Scope Z_scope.

Section Signals.
Variables power modulo : R -> R -> R.
Notation O := (real_ops power modulo).

Section Bessel.
Variable bessel : R -> R.
Hypothesis B : is_bessel bessel.
Notation samples := (further_window_function O IZR PI cos sin sqrt bessel).

Lemma position_range M k : 2 <= M -> 0 <= k < M -> (Rabs (position M k) <= 1 / 2)%R.
Proof.
  intros H K. assert (P : (0 < IZR (M - 1))%R) by (apply IZR_lt; lia). unfold position.
  assert (0 <= IZR k / IZR (M - 1) <= 1)%R.
  { split; apply (Rmult_le_reg_r (IZR (M - 1))); auto; unfold Rdiv; rewrite Rmult_assoc, Rinv_l, Rmult_1_r by lra; rewrite ?Rmult_0_l, ?Rmult_1_l; apply IZR_le; lia. }
  apply Rabs_le. lra.
Qed.

Lemma signal_range (junk : Z -> R) c rate plateau length symmetric p s : 0 <= length -> index plateau length = Ok p -> 0 <= p <= length ->
  real_further_window power modulo bessel junk c rate plateau length symmetric = Ok s -> forall t x, at_time s 0 t = Some x -> (0 <= x <= 1)%R.
Proof.
  intros N E P Es t x Hx.
  destruct (window_ok O (samples c) (further_length power modulo bessel c) junk rate (further_window_label c) plateau length symmetric p N E P) as (s' & E' & Ws & Cs & Bs & En & _ & _ & _ & Q0 & Q1).
  unfold make_further_window in Es. rewrite E' in Es. apply ok_inv in Es. subst s'.
  assert (T : 0 <= t < length). { unfold at_time in Hx. apply el_range in Hx; [|apply Ws]. unfold begins, ends in *. unfold Signal.length in En. lia. }
  assert (S : forall M k, zth (samples c M) k = Some x -> 0 <= M -> (0 <= x <= 1)%R).
  { intros M k Hk HM. pose proof (zth_range _ _ _ Hk) as K. rewrite further_length in K by auto. assert (M = 1 \/ 2 <= M) as [->|M2] by lia.
    - replace k with 0 in Hk by lia. rewrite further_one in Hk. injection Hk as <-. lra.
    - rewrite further_at in Hk by lia. injection Hk as <-.
      pose proof (FurtherWindowShapes.shape_range bessel B c M (position M k) M2 (position_range M k M2 K)). pose proof (end_nonneg bessel B c M M2). lra. }
  destruct (Z.eq_dec p 0) as [Z0|Z0].
  - rewrite (Q0 Z0 t T) in Hx. apply S in Hx; auto. destruct symmetric; lia.
  - destruct (Q1 ltac:(lia)) as (f & F1 & F2 & G1 & G2 & G3). cbv zeta in *. destruct (Z_lt_le_dec t f) as [L|L]; [|destruct (Z_lt_le_dec t (length - f)) as [U|U]].
    + rewrite G1 in Hx by lia. apply S in Hx; auto. destruct symmetric; lia.
    + rewrite G2 in Hx by lia. injection Hx as <-. cbn. lra.
    + rewrite G3 in Hx by lia. apply S in Hx; auto. destruct symmetric; lia.
Qed.

(** The first, the middle and the last sample of a symmetric window with an odd length *)
Lemma landmarks (junk : Z -> R) c rate n : 0 < n ->
  exists w, real_further_window power modulo bessel junk c rate (NInt 0) (2 * n + 1) true = Ok w /\
    at_time w 0 0 = Some (further_end bessel c (2 * n + 1)) /\ at_time w 0 n = Some 1%R /\ at_time w 0 (2 * n) = Some (further_end bessel c (2 * n + 1)).
Proof.
  intros H. destruct (further_window_ok power modulo bessel junk c rate (2 * n + 1) true ltac:(lia)) as (w & E & _ & _ & _ & _ & _ & _ & Q). exists w. split; [exact E|].
  cbn iota in Q. assert (P : IZR n <> 0%R) by (apply not_0_IZR; lia). rewrite !Q by lia. replace (2 * n + 1 - 1) with (2 * n) by lia. rewrite mult_IZR.
  rewrite <- (shape_end bessel B c (2 * n + 1)) by lia. repeat split; f_equal.
  - rewrite <- (further_even bessel c (2 * n + 1) (1 / 2)). f_equal. field. exact P.
  - replace (IZR n / (2 * IZR n) - 1 / 2)%R with 0%R by (field; exact P). now apply shape_middle.
  - f_equal. field. exact P.
Qed.

Lemma parzen_end (junk : Z -> R) rate length : 1 < length ->
  exists w x, real_further_window power modulo bessel junk Parzen rate (NInt 0) length true = Ok w /\ at_time w 0 0 = Some x /\ x = (2 / IZR length ^ 3)%R /\ (0 < x)%R.
Proof.
  intros H. destruct (further_window_ok power modulo bessel junk Parzen rate length true ltac:(lia)) as (w & E & _ & _ & _ & _ & _ & _ & Q).
  exists w, (2 / IZR length ^ 3)%R. split; [exact E |]. split; [| split; [reflexivity |]].
  - rewrite Q by lia. f_equal. change (2 / IZR length ^ 3)%R with (further_end bessel Parzen length). rewrite <- (shape_end bessel B Parzen length) by lia. rewrite <- (further_even bessel Parzen length (1 / 2)). f_equal.
    field. apply not_0_IZR. lia.
  - apply Rdiv_lt_0_compat; [lra |]. apply pow_lt, IZR_lt. lia.
Qed.
End Bessel.

(** The combination of two other windows *)
Lemma combination bessel (junk junk' junk'' : Z -> R) rate length symmetric : 1 <= length ->
  exists w bartlett hann, real_further_window power modulo bessel junk BartlettHann rate (NInt 0) length symmetric = Ok w /\
    real_window power modulo junk' BartlettWindow rate (NInt 0) length symmetric = Ok bartlett /\
    real_window power modulo junk'' HannWindow rate (NInt 0) length symmetric = Ok hann /\ Signal.length w = length /\
    forall t, 0 <= t < length -> exists x y, at_time bartlett 0 t = Some x /\ at_time hann 0 t = Some y /\ at_time w 0 t = Some (24 / 100 * x + 76 / 100 * y)%R.
Proof.
  intros H.
  assert (I : index (NInt 0) length = Ok 0) by (rewrite index_int by lia; reflexivity).
  destruct (window_ok O (further_window_function O IZR PI cos sin sqrt bessel BartlettHann) (further_length power modulo bessel BartlettHann) junk rate
    (further_window_label (BartlettHann : further_window R)) (NInt 0) length symmetric 0 ltac:(lia) I ltac:(lia)) as (w & Ew & _ & _ & Bw & En & _ & _ & _ & Q & _).
  destruct (window_ok O (window_function O IZR PI cos BartlettWindow) (sized_ok power modulo BartlettWindow) junk' rate
    (window_label BartlettWindow) (NInt 0) length symmetric 0 ltac:(lia) I ltac:(lia)) as (b & Eb & _ & _ & _ & _ & _ & _ & _ & Qb & _).
  destruct (window_ok O (window_function O IZR PI cos HannWindow) (sized_ok power modulo HannWindow) junk'' rate
    (window_label HannWindow) (NInt 0) length symmetric 0 ltac:(lia) I ltac:(lia)) as (h & Eh & _ & _ & _ & _ & _ & _ & _ & Qh & _).
  exists w, b, h. split; [exact Ew |]. split; [exact Eb |]. split; [exact Eh |]. split; [unfold begins, ends in *; lia |].
  intros t T. rewrite (Q eq_refl t T), (Qb eq_refl t T), (Qh eq_refl t T). set (M := if symmetric then length else length + 1).
  assert (K : 0 <= t < M) by (unfold M; destruct symmetric; lia). clearbody M.
  assert (M = 1 \/ 2 <= M) as [-> | M2] by lia.
  - replace t with 0 by lia. exists 1%R, 1%R. rewrite (further_one power modulo bessel BartlettHann), !shape_1. repeat split. f_equal. field.
  - rewrite further_at, !shape_at by auto. eexists. eexists. split; [reflexivity |]. split; [reflexivity |]. f_equal. cbn [further_shape shape].
    fold (position M t). replace (IZR t / IZR (M - 1))%R with (position M t + 1 / 2)%R by (unfold position; ring). set (u := position M t).
    replace (2 * PI * (u + 1 / 2))%R with (2 * PI * u + PI)%R by field. rewrite neg_cos. replace (2 * (u + 1 / 2) - 1)%R with (2 * u)%R by field. field.
Qed.

(** A rectangular window *)
Lemma kaiser_rectangular bessel M k : is_bessel bessel -> 0 <= k < M -> zth (further_window_function O IZR PI cos sin sqrt bessel (Kaiser 0%R) M) k = Some 1%R.
Proof.
  intros B K. assert (M = 1 \/ 2 <= M) as [-> | M2] by lia; [replace k with 0 by lia; reflexivity |]. rewrite further_at by lia. cbn [further_shape].
  rewrite Rmult_0_l. f_equal. field. now apply bessel_nonzero.
Qed.
End Signals.
