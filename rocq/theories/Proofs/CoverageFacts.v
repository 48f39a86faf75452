(** The parts of an integration interval, that belong to the samples of a signal. *)

From Coq Require Import String ZArith List Bool Lia ZifyBool Reals Lra.
From Verif.Model Require Import Py Numpy Signal.
From Verif.Spec Require Import TimeSpec RealSpec ConvolutionSpec FourierSpec LevelSpec.
From Verif.Proofs Require Import PyFacts SumFacts ComplexFacts DftFacts.
Import ListNotations.
Open Scope Z_scope.
Ltac Zify.zify_post_hook ::= idtac.

Lemma coverage_opp w d : coverage w (- d) = coverage w d.
Proof.
  unfold coverage. rewrite opp_IZR. unfold Rmax, Rmin. repeat destruct (Rle_dec _ _); lra.
Qed.

Lemma coverage_pos w d : 0 <= d -> (1 < w)%R -> coverage w d = Rmax 0 (Rmin 1 ((w + 1) / 2 - IZR d)).
Proof.
  intros H W. apply (IZR_le 0) in H. unfold coverage, Rmax, Rmin. repeat destruct (Rle_dec _ _); lra.
Qed.

Lemma coverage_short w d : (0 < w <= 1)%R -> coverage w d = if d =? 0 then w else 0%R.
Proof.
  intros W. destruct (d =? 0) eqn:E.
  - replace d with 0 by lia. unfold coverage, Rmax, Rmin. repeat destruct (Rle_dec _ _); lra.
  - assert (D : d <= -1 \/ 1 <= d) by lia. destruct D as [D|D]; apply IZR_le in D; unfold coverage, Rmax, Rmin; repeat destruct (Rle_dec _ _); lra.
Qed.

Lemma coverage_nonneg w d : (0 <= coverage w d)%R.
Proof. unfold coverage. apply Rmax_l. Qed.

Lemma coverage_inside w d : (1 < w)%R -> (IZR (Z.abs d) <= (w - 1) / 2)%R -> coverage w d = 1%R.
Proof.
  intros W H. assert (E : coverage w d = coverage w (Z.abs d)). { destruct (Z.abs_spec d) as [[_ ->]|[_ ->]]; auto. now rewrite coverage_opp. }
  rewrite E. rewrite coverage_pos by (auto; lia). unfold Rmax, Rmin. repeat destruct (Rle_dec _ _); lra.
Qed.

Definition RO_ring : commutative_ring RO := real_ring _ _.

(** The parts on one side of the middle *)
Lemma sum_coverage_side w n : (1 < w)%R -> 0 <= n -> sumz RO 1 n (coverage w) = Rmin (IZR n) ((w - 1) / 2).
Proof.
  intros W Hn. pattern n. apply count_ind; [| |exact Hn].
  - rewrite sumz_nil by lia. cbn. unfold Rmin. destruct (Rle_dec _ _); lra.
  - intros m Hm IH. rewrite (sumz_snoc RO RO_ring) by lia. replace (m + 1 - 1) with m by lia. rewrite IH. cbn [o_add RO real_ops].
    rewrite coverage_pos by (auto; lia). replace (1 + (m + 1) - 1) with (m + 1) by lia. rewrite plus_IZR. apply (IZR_le 0) in Hm.
    unfold Rmax, Rmin. repeat destruct (Rle_dec _ _); lra.
Qed.

(** The part of the integration interval around the sample number [i], that is covered by [n] samples *)
Lemma sum_coverage w n i : (1 < w)%R -> 0 <= i < n ->
  sumz RO 0 n (fun k => coverage w (k - i)) = (1 + Rmin (IZR i) ((w - 1) / 2) + Rmin (IZR (n - 1 - i)) ((w - 1) / 2))%R.
Proof.
  intros W H. replace n with (i + (1 + (n - 1 - i))) at 1 by lia. rewrite !(sumz_app RO RO_ring) by lia. rewrite (sumz_one RO RO_ring).
  cbn [o_add RO real_ops]. rewrite <- !sum_coverage_side by (auto; lia).
  assert (E1 : sumz RO 0 i (fun k => coverage w (k - i)) = sumz RO 1 i (coverage w)).
  { transitivity (sumz RO 0 i (fun k => coverage w (i - k))).
    { apply sumz_ext. intros k _. rewrite <- coverage_opp. f_equal. lia. }
    rewrite (sumz_flip RO RO_ring 0 i i (coverage w)) by lia. f_equal. lia. }
  assert (E2 : sumz RO (0 + i + 1) (n - 1 - i) (fun k => coverage w (k - i)) = sumz RO 1 (n - 1 - i) (coverage w)).
  { rewrite (sumz_shift RO _ _ (- i) (coverage w)). f_equal. lia. }
  rewrite E1, E2. replace (0 + i - i) with 0 by lia. rewrite coverage_inside; [cbn; ring|auto|]. cbn. lra.
Qed.

(** The effective window lengths of the code, where [m] samples are on that side of the sample number [i], that has less samples *)
Lemma sum_coverage_effective w n i h : (1 < w)%R -> 0 <= i < n -> (IZR h - 1 < (w - 1) / 2 <= IZR h)%R ->
  sumz RO 0 n (fun k => coverage w (k - i)) =
  if Z.min i (n - 1 - i) <? h then Rmin (IZR n) (1 + (w - 1) / 2 + IZR (Z.min i (n - 1 - i)))%R else w.
Proof.
  intros W H Hh. rewrite sum_coverage by auto. assert (S : (IZR n = 1 + IZR i + IZR (n - 1 - i))%R). { rewrite <- !plus_IZR. f_equal. lia. }
  destruct (_ <? h) eqn:E.
  - assert (Hm : Z.min i (n - 1 - i) <= h - 1) by lia. apply IZR_le in Hm. rewrite minus_IZR in Hm.
    destruct (Z.min_spec i (n - 1 - i)) as [[L M]|[L M]]; rewrite M in *; [assert (L' : i <= n - 1 - i) by lia|rename L into L'];
    apply IZR_le in L'; unfold Rmin; repeat destruct (Rle_dec _ _); lra.
  - assert (H1 : h <= i) by lia. assert (H2 : h <= n - 1 - i) by lia. apply IZR_le in H1, H2. unfold Rmin. repeat destruct (Rle_dec _ _); lra.
Qed.

Lemma sum_coverage_positive w n i : (0 < w)%R -> 0 <= i < n -> (0 < sumz RO 0 n (fun k => coverage w (k - i)))%R.
Proof.
  intros W H. destruct (Rle_or_lt w 1) as [S|S].
  - rewrite (sumz_single RO RO_ring 0 n i); [|lia|].
    + rewrite coverage_short by lra. replace (i - i =? 0) with true by lia. auto.
    + intros k _ Hk. rewrite coverage_short by lra. replace (k - i =? 0) with false by lia. auto.
  - rewrite sum_coverage by auto. assert (H1 : 0 <= i) by lia. assert (H2 : 0 <= n - 1 - i) by lia. apply (IZR_le 0) in H1, H2.
    unfold Rmin. repeat destruct (Rle_dec _ _); lra.
Qed.
