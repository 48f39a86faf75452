(** The modified Bessel function of the order zero exists, is at least 1 and grows with the absolute value of its argument. *)

From Coq Require Import ZArith Reals Lra Lia.
From Verif.Spec Require Import FurtherWindowSpec.
Open Scope R_scope.

Definition coefficient (k : nat) : R := / INR (fact k) * / INR (fact k).

Lemma coefficient_pos k : 0 < coefficient k.
Proof. pose proof (Rinv_0_lt_compat _ (INR_fact_lt_0 k)). unfold coefficient. now apply Rmult_lt_0_compat. Qed.

Lemma coefficient_ratio : Un_cv (fun n => Rabs (coefficient (S n) / coefficient n)) 0.
Proof.
  intros eps E. destruct (CV_mult _ _ _ _ Alembert_exp Alembert_exp eps E) as [N H]. exists N. intros n L. specialize (H n L).
  rewrite Rmult_0_r in H. replace (Rabs (coefficient (S n) / coefficient n)) with (Rabs (/ INR (fact (S n)) * / / INR (fact n)) * Rabs (/ INR (fact (S n)) * / / INR (fact n))); [exact H |].
  rewrite <- Rabs_mult. f_equal. unfold coefficient. pose proof (INR_fact_neq_0 n). pose proof (INR_fact_neq_0 (S n)). field. auto.
Qed.

Lemma term_ok x k : ((x / 2) ^ k / INR (fact k)) ^ 2 = coefficient k * ((x / 2) ^ 2) ^ k.
Proof. rewrite <- pow_mult, Nat.mul_comm, pow_mult. unfold coefficient, Rdiv. ring. Qed.

Lemma bessel_exists : exists f, is_bessel f.
Proof.
  exists (fun x => proj1_sig (Alembert_C3 coefficient ((x / 2) ^ 2) (fun n => Rgt_not_eq _ _ (coefficient_pos n)) coefficient_ratio)).
  intros x. destruct (Alembert_C3 _ _ _ _) as [l H]. cbn [proj1_sig]. intros eps E. destruct (H eps E) as [N HN]. exists N. intros n L.
  specialize (HN n L). rewrite (sum_eq _ (fun k => coefficient k * ((x / 2) ^ 2) ^ k)); [exact HN |]. intros i _. apply term_ok.
Qed.

Section Bessel.
Variable f : R -> R.
Hypothesis B : is_bessel f.

Lemma bessel_monotone x y : Rabs x <= Rabs y -> f x <= f y.
Proof.
  intros H. refine (@Rle_cv_lim (sum_f_R0 _) (sum_f_R0 _) (f x) (f y) _ (B x) (B y)). intros n. apply sum_Rle. intros k _. rewrite !term_ok.
  apply Rmult_le_compat_l; [apply Rlt_le, coefficient_pos |]. apply pow_incr. split; [apply pow2_ge_0 |].
  assert (S : x ^ 2 <= y ^ 2) by (rewrite <- (pow2_abs x), <- (pow2_abs y); apply pow_incr; split; [apply Rabs_pos | exact H]).
  unfold Rdiv. rewrite !Rpow_mult_distr. apply Rmult_le_compat_r; [apply pow2_ge_0 | exact S].
Qed.

Lemma bessel_zero : f 0 = 1.
Proof.
  apply (UL_sequence (sum_f_R0 (fun k => ((0 / 2) ^ k / INR (fact k)) ^ 2))); [exact (B 0) |].
  intros eps E. exists 0%nat. intros n _. assert (S : sum_f_R0 (fun k => ((0 / 2) ^ k / INR (fact k)) ^ 2) n = 1).
  { induction n as [| n I]; cbn [sum_f_R0]; [cbn; field |]. rewrite I. replace (0 / 2) with 0 by field. rewrite (pow_ne_zero (S n)) by discriminate.
    unfold Rdiv. ring. }
  rewrite S, R_dist_eq. exact E.
Qed.

Lemma bessel_ge x : 1 <= f x.
Proof. rewrite <- bessel_zero. apply bessel_monotone. rewrite Rabs_R0. apply Rabs_pos. Qed.

Lemma bessel_even x : f (- x) = f x.
Proof. apply Rle_antisym; apply bessel_monotone; rewrite Rabs_Ropp; apply Rle_refl. Qed.
End Bessel.
