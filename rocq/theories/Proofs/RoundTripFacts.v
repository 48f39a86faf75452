(** The Fourier transform back and forth, the levels in both domains and the inversion of signals. *)

From Coq Require Import String ZArith List Bool Lia ZifyBool Reals Lra Ring_theory Field_theory Ring Field.
From Verif.Model Require Import Py Numpy Vector Functions Signal Spectrum Fft Fourier Convolution.
From Verif.Spec Require Import TimeSpec FrequencySpec RealSpec ConvolutionSpec ComplexSpec DftSpec FourierSpec.
From Verif.Proofs Require Import PyFacts NumpyFacts VectorFacts SumFacts ComplexFacts ConvolveFacts PlacedFacts DftFacts MethodFacts CircularFacts SpectrumModes SignalAlgebra FourierFacts.
Import ListNotations.
Open Scope Z_scope.
Ltac Zify.zify_post_hook ::= idtac.

Section Terms.
Variable n : Z.
Hypothesis Hn : 0 < n.

Lemma idft_mod F p : idft n F (p mod n) = idft n F p.
Proof.
  apply sumz_ext. intros k _. f_equal. rewrite (Z.div_mod p n) at 2 by lia.
  replace ((n * (p / n) + p mod n) * k) with (p mod n * k + p / n * k * n) by lia. rewrite root_add, root_mul_n by auto. ring.
Qed.

Lemma idft_dft x p : zlen x = n -> idft n (dft x) p = C_of_R (IZR n * at_R x (p mod n)).
Proof.
  intros L. rewrite <- idft_mod. pose proof (Z.mod_pos_bound p n Hn) as B. set (m := p mod n) in *. clearbody m.
  pose proof (irfft_rfft n Hn x L) as E. apply (f_equal (fun l => zth l m)) in E. unfold rfft in E. rewrite L in E.
  rewrite (irfft_ok n Hn) in E by (auto using dft_symmetric). rewrite <- (idft_real n Hn) by (now apply dft_symmetric). f_equal.
  unfold at_R. rewrite <- E. field. now apply n_not_0.
Qed.

(** A cyclic rotation is a factor in the frequency domain. *)
Lemma rotated_symmetric x d : zlen x = n -> symmetric n (fun k => Cmul (dft x k) (root n (- (k * d)))).
Proof.
  intros L. apply symmetric_mul; [now apply dft_symmetric|]. split; intros k.
  - replace (- ((k + n) * d)) with (- (k * d) + - d * n) by lia. rewrite root_add, root_mul_n by auto. ring.
  - rewrite <- root_neg by auto. f_equal. lia.
Qed.

Lemma idft_rotated x d m : zlen x = n -> idft n (fun k => Cmul (dft x k) (root n (- (k * d)))) m = C_of_R (IZR n * at_R x ((m - d) mod n)).
Proof.
  intros L. rewrite <- (idft_dft x (m - d)) by auto. apply sumz_ext. intros k _.
  replace ((m - d) * k) with (- (k * d) + m * k) by lia. rewrite root_add by auto. ring.
Qed.

(** ** Parseval's theorem *)

Lemma norm2_mul_conj z : Cmul z (Cconj z) = C_of_R (norm2 z).
Proof. apply C_ext; cbn; unfold norm2; ring. Qed.

Lemma parseval x : zlen x = n ->
  sumz RO 0 n (fun k => norm2 (dft x k)) = (IZR n * sumz RO 0 n (fun m => at_R x m * at_R x m))%R.
Proof.
  intros L. match goal with |- ?l = ?r => enough (E : C_of_R l = C_of_R r) by (now injection E) end. rewrite <- sumC_real.
  transitivity (idft n (fun k => Cmul (Cconj (dft x k)) (dft x k)) 0).
  - apply sumz_ext. intros k _. rewrite <- norm2_mul_conj. rewrite Z.mul_0_l, root_0 by auto. ring.
  - transitivity (sumz CO 0 n (fun k => Cmul (dft x k) (sumz CO 0 n (fun m => Cmul (C_of_R (at_R x m)) (root n (m * k)))))).
    { apply sumz_ext. intros k _. rewrite Z.mul_0_l, root_0 by auto. rewrite (dft_sum n Hn x k) at 1 by auto. rewrite sumC_conj.
      transitivity (Cmul (dft x k) (sumz CO 0 n (fun m => Cconj (Cmul (C_of_R (at_R x m)) (root n (- (m * k))))))); [ring|]. f_equal.
      apply sumz_ext. intros m _. rewrite Cconj_mul, Cconj_real, <- root_neg by auto. do 2 f_equal. lia. }
    transitivity (sumz CO 0 n (fun m => Cmul (C_of_R (at_R x m)) (idft n (dft x) m))).
    { transitivity (sumz CO 0 n (fun k => sumz CO 0 n (fun m => Cmul (dft x k) (Cmul (C_of_R (at_R x m)) (root n (m * k)))))).
      - apply sumz_ext. intros k _. change Cmul with (o_mul CO). now rewrite (sumz_mul_l CO CO_ring).
      - rewrite (sumz_swap CO CO_ring). apply sumz_ext. intros m _. unfold idft. change Cmul with (o_mul CO). rewrite <- (sumz_mul_l CO CO_ring).
        apply sumz_ext. intros k _. cbn. ring. }
    change Rmult with (o_mul RO) at 1. rewrite <- (sumz_mul_l RO (real_ring _ _)), <- sumC_real. apply sumz_ext. intros m Hm.
    rewrite idft_dft by auto. rewrite Z.mod_small by lia. apply C_ext; cbn; ring.
Qed.

(** The sum over a symmetric spectrum, of which the lower half is known *)
Lemma half_sum (f : Z -> R) : n mod 2 = 0 -> (forall k, 0 < k < n -> f (n - k) = f k) ->
  sumz RO 0 n f = (sumz RO 1 (n / 2 - 1)%Z f * 2 + f 0%Z + f (n / 2)%Z)%R.
Proof.
  intros Ev S. pose proof (Z.div_mod n 2 ltac:(lia)) as D. set (h := n / 2) in *. replace n with (1 + ((h - 1) + (1 + (h - 1)))) at 1 by lia.
  rewrite !(sumz_app RO (real_ring _ _)) by lia. rewrite !(sumz_one RO (real_ring _ _)).
  replace (sumz RO (0 + 1 + (h - 1) + 1) (h - 1) f) with (sumz RO 1 (h - 1) f).
  - change (0 + 1) with 1. replace (1 + (h - 1)) with h by lia. cbn. ring.
  - transitivity (sumz RO 1 (h - 1) (fun k => f (n - k))).
    + apply sumz_ext. intros k Hk. symmetry. apply S. lia.
    + rewrite (sumz_flip RO (real_ring _ _) 1 (h - 1) n f) by lia. f_equal. lia.
Qed.

(** ** Inverses *)

Lemma Cconj_inv z : Cconj (Cinv z) = Cinv (Cconj z).
Proof.
  assert (E : norm2 (Cconj z) = norm2 z) by (unfold norm2; cbn; ring).
  apply C_ext; unfold Cinv, Cconj; cbn; fold (Cconj z); rewrite ?E; unfold re, im; cbn; unfold Rdiv; ring.
Qed.

Lemma symmetric_inv F : symmetric n F -> symmetric n (fun k => Cinv (F k)).
Proof. intros [P S]. split; intros k; [now rewrite P|now rewrite S, Cconj_inv]. Qed.

Lemma zth_at_R x k : 0 <= k < zlen x -> zth x k = Some (at_R x k).
Proof. intros H. unfold at_R. destruct (zth_in x k H) as (v & ->). reflexivity. Qed.

(** The circular convolution of a sequence with the inverse transform of its spectrum's reciprocal *)
Lemma inverse_convolution x i : zlen x = n -> (forall k, 0 <= k <= n / 2 -> dft x k <> C0) -> 0 <= i < n ->
  sumz RO 0 n (fun k => at_R x k * at_R (irfft (map (fun k => Cinv (dft x k)) (zseq 0 (n / 2 + 1))) n) ((i - k) mod n))%R = (if i =? 0 then 1 else 0)%R.
Proof.
  intros L NZ Hi. pose proof (dft_symmetric n Hn x L) as S. set (y := irfft _ n).
  assert (Ly : zlen y = n) by (unfold y; rewrite zlen_irfft; lia).
  assert (NZ' : forall k, 0 <= k < n -> dft x k <> C0).
  { intros k Hk. destruct (Z_le_gt_dec k (n / 2)); [apply NZ; lia|]. pose proof (Z.div_mod n 2 ltac:(lia)) as D. pose proof (Z.mod_pos_bound n 2 ltac:(lia)).
    replace k with (n - (n - k)) by lia. rewrite (symmetric_flip n) by auto. intros E. apply (NZ (n - k)); [lia|]. apply (f_equal Cconj) in E.
    rewrite Cconj_involutive in E. rewrite E. apply Cconj_real. }
  assert (V : zth (irfft (map (fun _ => C1) (zseq 0 (n / 2 + 1))) n) i = Some (sumz RO 0 n (fun k => at_R x k * at_R y ((i - k) mod n))%R)).
  { apply (circular_convolution n Hn x y L Ly); auto.
    - rewrite zlen_map, zlen_seq. pose proof (Z.div_pos n 2). lia.
    - intros k u v Hu Hv. pose proof (zth_range _ _ _ Hu) as Rk. rewrite zlen_rfft, L in Rk. rewrite (zth_rfft n) in Hu, Hv by (auto; lia).
      injection Hu as <-. injection Hv as <-. rewrite zth_map, zth_seq. replace (_ && _) with true by lia. cbn [option_map]. f_equal.
      pose proof (Z.div_mod n 2 ltac:(lia)) as D. pose proof (Z.mod_pos_bound n 2 ltac:(lia)).
      assert (Hk : 0 <= k < n \/ (n = 1 /\ k = 0)) by lia. unfold y.
      rewrite (dft_irfft n Hn) by (auto using symmetric_inv; lia). symmetry. transitivity (Cmul (Cinv (dft x k)) (dft x k)); [ring|]. apply Cmul_inv. apply NZ'. lia. }
  assert (V' : zth (irfft (map (fun _ => C1) (zseq 0 (n / 2 + 1))) n) i = Some (if i =? 0 then 1 else 0)%R).
  { rewrite (irfft_ok n Hn (fun _ => C1)); [|split; intros; [reflexivity|symmetry; apply Cconj_real]|auto]. f_equal. apply re_div_n; auto. unfold idft.
    transitivity (sumz CO 0 n (fun k => root n (i * k))); [apply sumz_ext; intros; ring|]. rewrite (root_sum n Hn).
    rewrite Z.mod_small by lia. destruct (i =? 0); apply C_ext; cbn; ring. }
  rewrite V in V'. now injection V' as ->.
Qed.

End Terms.
