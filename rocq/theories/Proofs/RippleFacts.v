(** The bounds of the Chebyshev polynomials. *)

From Coq Require Import ZArith List Bool Lia Reals Lra Psatz.
From Verif.Spec Require Import RolloffSpec.
From Verif.Proofs Require Import BesselFacts ChebyshevFacts Chebyshev1Facts.
Open Scope R_scope.
Notation cheb := chebyshev_polynomial.

Lemma cheb_cos n t : cheb n (cos t) = cos (INR n * t).
Proof.
  induction n using two_steps; [rewrite cheb_0, Rmult_0_l; now rewrite cos_0|rewrite cheb_1; f_equal; cbn; ring|].
  rewrite cheb_S, IHn, IHn0, !S_INR. replace ((INR n + 1 + 1) * t) with ((INR n + 1) * t + t) by ring. replace (INR n * t) with ((INR n + 1) * t - t) by ring.
  rewrite cos_plus, cos_minus. ring.
Qed.

Lemma cheb_inside n x : Rabs x <= 1 -> cheb n x ^ 2 <= 1.
Proof.
  intros H. assert (B : -1 <= x <= 1) by (unfold Rabs in H; destruct (Rcase_abs x); lra).
  rewrite <- (cos_acos x B), cheb_cos. pose proof (COS_bound (INR n * acos x)). nra.
Qed.

Lemma cheb_growth n x : 1 <= x -> x ^ n <= cheb n x /\ x * cheb n x <= cheb (S n) x.
Proof.
  intros H. induction n as [|n [IH1 IH2]].
  - rewrite cheb_0, cheb_1. cbn. lra.
  - assert (P : 0 < x ^ n) by (apply pow_lt; lra). split.
    + apply Rle_trans with (2 := IH2). cbn [pow]. apply Rmult_le_compat_l; lra.
    + rewrite cheb_S. assert (cheb n x <= x * cheb n x) by (rewrite <- (Rmult_1_l (cheb n x)) at 1; apply Rmult_le_compat_r; lra).
      assert (1 <= x ^ n) by (now apply pow_R1_Rle). assert (cheb (S n) x <= x * cheb (S n) x) by (rewrite <- (Rmult_1_l (cheb (S n) x)) at 1; apply Rmult_le_compat_r; lra). lra.
Qed.

Lemma cheb_even_abs n x : cheb n x ^ 2 = cheb n (Rabs x) ^ 2.
Proof.
  unfold Rabs. destruct (Rcase_abs x); [|reflexivity]. pose proof (cheb_neg n x). nra.
Qed.

Lemma cheb_outside n x : (1 <= n)%nat -> 1 < Rabs x -> 1 < cheb n x ^ 2.
Proof.
  intros Hn H. rewrite cheb_even_abs. destruct (cheb_growth n (Rabs x) ltac:(lra)) as [G _]. assert (1 < Rabs x ^ n) by (apply Rlt_pow_R1; [exact H|lia]). nra.
Qed.

Lemma cheb_at_1 n x : Rabs x = 1 -> cheb n x ^ 2 = 1.
Proof. intros H. rewrite cheb_even_abs, H, <- cos_0, cheb_cos, Rmult_0_r, cos_0. ring. Qed.

(** The square grows outside of the interval. *)
Lemma cheb_monotone n x y : 1 <= x <= y -> 1 <= cheb n x <= cheb n y /\ cheb (S n) x - cheb n x <= cheb (S n) y - cheb n y.
Proof.
  intros H. induction n as [|n [IH1 IH2]].
  - rewrite !cheb_0, !cheb_1. lra.
  - destruct (cheb_growth n x ltac:(lra)) as [_ G]. split; [split; [nra|lra]|]. rewrite !cheb_S.
    (* T_{n+2} - T_{n+1} = (2 x - 2) T_{n+1} + (T_{n+1} - T_n) *)
    assert (A : 2 * x * cheb (S n) x - cheb n x - cheb (S n) x = (2 * x - 2) * cheb (S n) x + (cheb (S n) x - cheb n x)) by ring.
    assert (B : 2 * y * cheb (S n) y - cheb n y - cheb (S n) y = (2 * y - 2) * cheb (S n) y + (cheb (S n) y - cheb n y)) by ring.
    rewrite A, B. assert (0 < cheb (S n) x) by nra. nra.
Qed.

Lemma cheb_monotone_square n x y : 1 <= Rabs x <= Rabs y -> cheb n x ^ 2 <= cheb n y ^ 2.
Proof. intros H. rewrite (cheb_even_abs n x), (cheb_even_abs n y). destruct (cheb_monotone n (Rabs x) (Rabs y) H) as [M _]. nra. Qed.

Lemma ratio_monotone a s t : 0 < a -> 0 <= s <= t -> s / (s + a) <= t / (t + a).
Proof.
  intros Ha H. apply (Rmult_le_reg_r ((s + a) * (t + a))); [nra|]. replace (s / (s + a) * ((s + a) * (t + a))) with (s * (t + a)) by (field; lra).
  replace (t / (t + a) * ((s + a) * (t + a))) with (t * (s + a)) by (field; lra). nra.
Qed.

Lemma inverse_monotone a e s t : 0 < a -> 0 <= e -> 0 <= s <= t -> a / (1 + e * t) <= a / (1 + e * s).
Proof.
  intros Ha He H. unfold Rdiv. apply Rmult_le_compat_l; [lra|]. apply Rinv_le_contravar; nra.
Qed.

Lemma pow_monotone n s t : 0 <= s <= t -> s ^ n <= t ^ n.
Proof. intros H. now apply pow_incr. Qed.

Lemma pow_abs x n : x ^ (2 * n) = Rabs x ^ (2 * n).
Proof. rewrite !pow_mult. f_equal. symmetry. apply pow2_abs. Qed.
