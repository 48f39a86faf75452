(** The samples of the Bartlett-Hann, Blackman-Harris, Bohman, Parzen and Kaiser windows *)

From Coq Require Import String ZArith QArith List Bool Lia ZifyBool Reals Lra Field Psatz.
From Verif.Model Require Import Py Numpy Vector Functions Signal Generators Windows CosineWindows FurtherWindows.
From Verif.Spec Require Import TimeSpec RealSpec BlockSpec DftSpec GeneratorsSpec WindowSpec CosineWindowSpec FurtherWindowSpec.
From Verif.Proofs Require Import PyFacts NumpyFacts VectorFacts FadeFacts SliceFacts BlockRanges WindowMeasures WindowShapes CosineDecay CosineWindowResults BesselSeries.
Import ListNotations.
Open Scope Z_scope.

Section Samples.
Variables power modulo : R -> R -> R.
Variable bessel : R -> R.
Notation O := (real_ops power modulo).
Notation samples := (further_window_function O IZR PI cos sin sqrt bessel).

Lemma further_length c M : 0 <= M -> zlen (samples c M) = M.
Proof.
  intros H. destruct c; cbn [further_window_function]; try now apply scipy_length.
  unfold kaiser. destruct (Z.eqb_spec M 1) as [-> | N]; [reflexivity |]. rewrite zlen_map, zlen_seq. lia.
Qed.

Lemma kaiser_at beta M k : 2 <= M -> 0 <= k < M -> zth (samples (Kaiser beta) M) k = Some (bessel (beta * sqrt (1 - (2 * position M k) ^ 2)) / bessel beta)%R.
Proof.
  intros H K. assert (P : IZR (M - 1) <> 0%R) by (apply not_0_IZR; lia). cbn [further_window_function]. unfold kaiser. destruct (Z.eqb_spec M 1); [lia |].
  rewrite zth_map, zth_seq. replace (_ && _) with true by lia. cbn [option_map]. change (0 + k) with k. unfold ratio. cbn [real_ops o_div o_mul o_sub o_one].
  do 5 f_equal. unfold position. field. exact P.
Qed.

Lemma cubic_half : (2 * (1 - 1 / 2) ^ 3 = 1 - 6 * (1 / 2) ^ 2 + 6 * (1 / 2) ^ 3)%R.
Proof. field. Qed.

Lemma further_at c M k : 2 <= M -> 0 <= k < M -> zth (samples c M) k = Some (further_shape bessel c M (position M k)).
Proof.
  intros H K. assert (P : (0 < IZR (M - 1))%R) by (apply IZR_lt; lia). assert (P0 : IZR (M - 1) <> 0%R) by lra.
  assert (Q : (0 < IZR M)%R) by (apply IZR_lt; lia).
  destruct c as [| | | | beta]; [| | | | now apply kaiser_at]; cbn [further_window_function further_shape].
  - unfold barthann. rewrite scipy_at by auto. f_equal. cbv zeta. unfold ratio. cbn [real_ops o_sub o_mul o_add o_div o_abs].
    change (IZR k / IZR (M - 1) - 1 / 2)%R with (position M k). set (u := position M k).
    assert (C : cos (2 * PI * Rabs u) = cos (2 * PI * u)).
    { unfold Rabs. destruct (Rcase_abs u); [| reflexivity]. rewrite <- cos_neg. f_equal. ring. }
    rewrite C, Rabs_mult, (Rabs_right 2) by lra. field.
  - unfold blackmanharris. rewrite general_cosine_at by auto. reflexivity.
  - unfold bohman. rewrite scipy_at by auto. f_equal.
    assert (A : (-1 + IZR k * (2 / IZR (M - 1)))%R = (2 * position M k)%R) by (unfold position; field; auto).
    destruct ((k =? 0) || (k =? M - 1)) eqn:E.
    + assert (U : Rabs (2 * position M k) = 1%R).
      { rewrite <- A. assert (k = 0 \/ k = M - 1) as [-> | ->] by lia.
        - replace (-1 + 0 * (2 / IZR (M - 1)))%R with (-1)%R by (field; auto). unfold Rabs. destruct (Rcase_abs (-1)); lra.
        - replace (-1 + IZR (M - 1) * (2 / IZR (M - 1)))%R with 1%R by (field; auto). apply Rabs_R1. }
      rewrite U, Rmult_1_r, sin_PI. cbn [real_ops o_zero]. field. apply PI_neq0.
    + cbv zeta. cbn [real_ops o_sub o_mul o_add o_div o_abs o_one]. rewrite A. field. apply PI_neq0.
  - unfold parzen. rewrite scipy_at by auto. f_equal. cbv zeta. unfold ratio. cbn [real_ops o_sub o_mul o_add o_div o_abs o_one].
    assert (X : (Rabs (IZR k - IZR (M - 1) / 2) / (IZR M / 2))%R = (Rabs (2 * position M k) * (IZR (M - 1) / IZR M))%R).
    { replace (IZR k - IZR (M - 1) / 2)%R with (IZR (M - 1) / 2 * (2 * position M k))%R by (unfold position; field; auto).
      rewrite Rabs_mult, (Rabs_right (IZR (M - 1) / 2)) by lra. field. lra. }
    assert (X' : (Rabs (2 * position M k) * (IZR (M - 1) / IZR M))%R = (IZR (Z.abs (2 * k - (M - 1))) / IZR M)%R).
    { rewrite abs_IZR, (minus_IZR (2 * k) (M - 1)), mult_IZR.
      replace (2 * IZR k - IZR (M - 1))%R with (IZR (M - 1) * (2 * position M k))%R by (unfold position; field; auto).
      rewrite (Rabs_mult (IZR (M - 1))), (Rabs_right (IZR (M - 1))) by lra. field. lra. }
    rewrite X. set (x := (Rabs (2 * position M k) * (IZR (M - 1) / IZR M))%R) in *. set (d := Z.abs (2 * k - (M - 1))) in *.
    unfold cubic. destruct (Z.leb_spec (2 * d) (M - 1)) as [L | L].
    + destruct (Rle_dec x (1 / 2)) as [_ | N]; [ring |]. exfalso. apply N. rewrite X'. apply (Rmult_le_reg_r (2 * IZR M)); [lra |].
      replace (IZR d / IZR M * (2 * IZR M))%R with (2 * IZR d)%R by (field; lra). replace (1 / 2 * (2 * IZR M))%R with (IZR M) by field.
      rewrite <- mult_IZR. apply IZR_le. lia.
    + destruct (Rle_dec x (1 / 2)) as [N | _]; [| ring].
      assert (x = 1 / 2)%R as ->.
      { apply Rle_antisym; [exact N |]. rewrite X'. apply (Rmult_le_reg_r (2 * IZR M)); [lra |].
        replace (IZR d / IZR M * (2 * IZR M))%R with (2 * IZR d)%R by (field; lra). replace (1 / 2 * (2 * IZR M))%R with (IZR M) by field.
        rewrite <- mult_IZR. apply IZR_le. lia. }
      rewrite <- cubic_half. ring.
Qed.

Hypothesis B : is_bessel bessel.

Lemma bessel_nonzero x : bessel x <> 0%R.
Proof. pose proof (bessel_ge bessel B x). lra. Qed.

Lemma further_even c M u : further_shape bessel c M (- u) = further_shape bessel c M u.
Proof.
  assert (E : forall a, sum_of_cosines a (- u) = sum_of_cosines a u).
  { intros a. apply Rsum_list_ext. intros k _. f_equal. rewrite <- cos_neg. f_equal. ring. }
  destruct c; cbn [further_shape]; rewrite ?E; auto; replace (2 * - u)%R with (- (2 * u))%R by ring; rewrite ?Rabs_Ropp; auto.
  - replace (2 * PI * - u)%R with (- (2 * PI * u))%R by ring. now rewrite cos_neg.
  - do 4 f_equal. ring.
Qed.

Lemma further_one c : zth (samples c 1) 0 = Some 1%R.
Proof. destruct c; reflexivity. Qed.

Lemma further_mirrored c M : 0 <= M -> mirrored (samples c M).
Proof.
  intros H i. rewrite further_length by auto. destruct (Z_lt_le_dec i 0); [rewrite !zth_out by (rewrite further_length by auto; lia); auto|].
  destruct (Z_lt_le_dec i M); [|rewrite !zth_out by (rewrite further_length by auto; lia); auto]. assert (M = 1 \/ 2 <= M) as [->|M2] by lia; [f_equal; lia|].
  rewrite !further_at by (auto; lia). f_equal. rewrite <- further_even. f_equal. unfold position. replace (M - 1 - i) with ((M - 1) - i) by lia. rewrite (minus_IZR (M - 1) i). field. apply not_0_IZR. lia.
Qed.

(** A window that is not symmetric consists of the first samples of a symmetric one with one sample more. *)
Lemma further_window_ok (junk : Z -> R) c rate length symmetric : 1 < length ->
  exists w, real_further_window power modulo bessel junk c rate (NInt 0) length symmetric = Ok w /\ wf_signal w /\ count w = 1 /\ begins w = 0 /\ Signal.length w = length /\
    sampling_rate w = rate /\ labels w = [further_window_label c] /\
    forall t, 0 <= t < length -> at_time w 0 t =
      Some (further_shape bessel c (if symmetric then length else length + 1) (IZR t / IZR (if symmetric then length - 1 else length) - 1 / 2)).
Proof.
  clear B. intros H. destruct (window_ok O (samples c) (further_length c) junk rate (further_window_label c) (NInt 0) length symmetric 0) as (w & Ew & Ww & Cw & Bw & En & Rw & Lw & _ & Q & _); try lia.
  { rewrite index_int by lia. reflexivity. }
  exists w. split; [exact Ew|]. do 3 (split; [auto|]). split; [unfold begins, ends in *; lia|]. do 2 (split; [auto|]).
  intros t Ht. rewrite (Q eq_refl t Ht). destruct symmetric; rewrite further_at by (auto; lia); unfold position; [reflexivity|]. now replace (length + 1 - 1) with length by lia.
Qed.
End Samples.
