(** The decay of the side lobes of sums of cosines. *)

From Coq Require Import ZArith List Bool Lia Reals Lra Field.
From Verif.Model Require Import Py Windows CosineWindows.
From Verif.Spec Require Import RealSpec BlockSpec DftSpec CosineWindowSpec.
From Verif.Proofs Require Import PyFacts BlockRanges.
Import ListNotations.
Open Scope R_scope.

(** ** Sums *)
Lemma sum_derivable l (f g : Z -> R -> R) x : (forall k, In k l -> derivable_pt_lim (f k) x (g k x)) ->
  derivable_pt_lim (fun y => Rsum_list l (fun k => f k y)) x (Rsum_list l (fun k => g k x)).
Proof.
  induction l as [|k l I]; intros H; cbn.
  - apply derivable_pt_lim_const.
  - apply (derivable_pt_lim_plus (f k) (fun y => Rsum_list l (fun k => f k y))); [apply H; now left|]. apply I. intros j J. apply H. now right.
Qed.

Lemma sum_bound l f b : (forall k, In k l -> Rabs (f k) <= b k) -> Rabs (Rsum_list l f) <= Rsum_list l b.
Proof.
  induction l as [|k l I]; intros H; cbn; [rewrite Rabs_R0; lra|]. eapply Rle_trans; [apply Rabs_triang|]. apply Rplus_le_compat; [apply H; now left|].
  apply I. intros j J. apply H. now right.
Qed.

(** ** The Fourier transform of a cosine *)
Definition sign (k : Z) : R := if Z.even k then 1 else -1.

Lemma sin_PI_k k : sin (PI * IZR k) = 0.
Proof. apply sin_eq_0_1. exists k. ring. Qed.
Lemma cos_PI_nat (n : nat) : cos (PI * INR n) = sign (Z.of_nat n).
Proof.
  induction n as [|n I]; [cbn; rewrite Rmult_0_r; apply cos_0|]. rewrite S_INR, Rmult_plus_distr_l, Rmult_1_r, neg_cos, I.
  unfold sign. rewrite Nat2Z.inj_succ, Z.even_succ, <- Z.negb_even. destruct (Z.even (Z.of_nat n)); cbn; lra.
Qed.
Lemma cos_PI_k k : (0 <= k)%Z -> cos (PI * IZR k) = sign k.
Proof. intros H. rewrite <- (Z2Nat.id k H) at 1 2. rewrite <- INR_IZR_INZ. apply cos_PI_nat. Qed.

Lemma sin_derivable c x : c <> 0 -> derivable_pt_lim (fun u => sin (c * u) / c) x (cos (c * x)).
Proof.
  intros H. replace (cos (c * x)) with (/ c * (cos (c * x) * c)) by (field; auto).
  apply (derivable_pt_lim_ext (fun u => / c * sin (c * u))). { intros u. unfold Rdiv. ring. }
  apply (derivable_pt_lim_scal (fun u => sin (c * u))). apply (derivable_pt_lim_comp (fun u => c * u) sin); [|apply derivable_pt_lim_sin].
  assert (D : derivable_pt_lim (mult_real_fct c id) x (c * 1)) by (apply derivable_pt_lim_scal, derivable_pt_lim_id).
  rewrite Rmult_1_r in D. exact D.
Qed.

Definition envelope (a : list R) (nu : R) : R :=
  Rsum_list (zseq 0 (zlen a)) (fun k => sign k * at_R a k * (nu / (nu ^ 2 - IZR k ^ 2))) / PI.

Lemma indices (a : list R) nu k : IZR (zlen a) <= nu -> In k (zseq 0 (zlen a)) -> (0 <= k)%Z /\ 0 <= IZR k < nu.
Proof. intros H K. apply in_zseq in K. assert (0 <= IZR k) by (apply IZR_le; lia). assert (IZR k < IZR (zlen a)) by (apply IZR_lt; lia). split; [lia|lra]. Qed.

Lemma transform_ok a nu : IZR (zlen a) <= nu -> transform_at (sum_of_cosines a) nu (sin (PI * nu) * envelope a nu).
Proof.
  intros H. pose proof PI_RGT_0 as P.
  exists (fun u => Rsum_list (zseq 0 (zlen a)) (fun k => at_R a k / 2 *
     (sin (2 * PI * (nu + IZR k) * u) / (2 * PI * (nu + IZR k)) + sin (2 * PI * (nu - IZR k) * u) / (2 * PI * (nu - IZR k))))).
  split.
  - intros x. cbn beta.
    replace (sum_of_cosines a x * cos (2 * PI * nu * x)) with
      (Rsum_list (zseq 0 (zlen a)) (fun k => at_R a k / 2 * (cos (2 * PI * (nu + IZR k) * x) + cos (2 * PI * (nu - IZR k) * x)))).
    + apply (sum_derivable _ (fun k u => at_R a k / 2 * (sin (2 * PI * (nu + IZR k) * u) / (2 * PI * (nu + IZR k)) + sin (2 * PI * (nu - IZR k) * u) / (2 * PI * (nu - IZR k))))
        (fun k x => at_R a k / 2 * (cos (2 * PI * (nu + IZR k) * x) + cos (2 * PI * (nu - IZR k) * x)))).
      intros k K. destruct (indices a nu k H K) as [_ B].
      apply (derivable_pt_lim_scal (fun x => sin (2 * PI * (nu + IZR k) * x) / (2 * PI * (nu + IZR k)) + sin (2 * PI * (nu - IZR k) * x) / (2 * PI * (nu - IZR k)))).
      apply (derivable_pt_lim_plus (fun x => sin (2 * PI * (nu + IZR k) * x) / (2 * PI * (nu + IZR k))) (fun x => sin (2 * PI * (nu - IZR k) * x) / (2 * PI * (nu - IZR k))));
        apply sin_derivable; apply Rmult_integral_contrapositive_currified; lra.
    + unfold sum_of_cosines. rewrite (Rmult_comm (Rsum_list _ _)), <- Rsum_list_mul. apply Rsum_list_ext. intros k K. replace (2 * PI * (nu + IZR k) * x) with (2 * PI * nu * x + 2 * PI * IZR k * x) by ring.
      replace (2 * PI * (nu - IZR k) * x) with (2 * PI * nu * x - 2 * PI * IZR k * x) by ring. rewrite cos_plus, cos_minus. field.
  - unfold envelope, Rminus at 2. rewrite Ropp_involutive || idtac.
    match goal with |- _ = Rsum_list ?l ?f + - Rsum_list ?l ?g => replace (Rsum_list l f + - Rsum_list l g) with (Rsum_list l (fun k => f k + -1 * g k)) by (rewrite Rsum_list_add, Rsum_list_mul; ring) end.
    unfold Rdiv at 1. rewrite (Rmult_comm _ (/ PI)), <- Rmult_assoc, <- Rsum_list_mul. apply Rsum_list_ext. intros k K. destruct (indices a nu k H K) as [K0 B].
    assert (S1 : forall e : R, sin (2 * PI * e * - (1 / 2)) = - sin (PI * e)) by (intros e; rewrite <- sin_neg; f_equal; field).
    assert (S2 : forall e : R, sin (2 * PI * e * (1 / 2)) = sin (PI * e)) by (intros e; f_equal; field).
    rewrite !S1, !S2.
    replace (sin (PI * (nu + IZR k))) with (sin (PI * nu) * sign k) by (rewrite Rmult_plus_distr_l, sin_plus, sin_PI_k, cos_PI_k by auto; ring).
    replace (sin (PI * (nu - IZR k))) with (sin (PI * nu) * sign k) by (rewrite Rmult_minus_distr_l, sin_minus, sin_PI_k, cos_PI_k by auto; ring).
    field. repeat split; try lra. nra.
Qed.

(** ** The envelope for high frequencies *)
(** The sum of [(-1) ^ k * a_k * k ^ (2 * j)] *)
Definition moment (a : list R) (j : nat) : R := Rsum_list (zseq 0 (zlen a)) (fun k => sign k * at_R a k * IZR k ^ (2 * j)).
Definition rest (a : list R) (j : nat) (nu : R) : R := Rsum_list (zseq 0 (zlen a)) (fun k => sign k * at_R a k * IZR k ^ (2 * j) * (nu / (nu ^ 2 - IZR k ^ 2))).

Lemma rest_step a j nu : IZR (zlen a) <= nu -> 0 < nu -> rest a j nu = moment a j / nu + rest a (S j) nu / nu ^ 2.
Proof.
  intros H P. unfold rest, moment.
  match goal with |- _ = Rsum_list ?l ?f / nu + Rsum_list ?l ?g / nu ^ 2 => replace (Rsum_list l f / nu + Rsum_list l g / nu ^ 2)
    with (Rsum_list l (fun k => / nu * f k + / nu ^ 2 * g k)) by (rewrite Rsum_list_add, !Rsum_list_mul; unfold Rdiv; ring) end.
  apply Rsum_list_ext. intros k K. destruct (indices a nu k H K) as [_ B]. replace (2 * S j)%nat with (2 + 2 * j)%nat by lia. rewrite pow_add. field.
  split; [nra|lra].
Qed.

Lemma rest_zero a j nu : IZR (zlen a) <= nu -> 0 < nu -> (forall i, (i < j)%nat -> moment a i = 0) -> nu ^ (2 * j) * rest a 0 nu = rest a j nu.
Proof.
  intros H P. induction j as [|j I]; intros M; [change (2 * 0)%nat with 0%nat; rewrite pow_O; ring|]. replace (2 * S j)%nat with (2 + 2 * j)%nat by lia.
  rewrite pow_add, Rmult_assoc, I by (intros; apply M; lia). rewrite (rest_step a j nu H P), (M j) by lia. field. lra.
Qed.

Lemma rest_bound a j nu : 2 * IZR (zlen a) <= nu -> 0 < nu ->
  Rabs (nu * rest a j nu) <= 2 * Rsum_list (zseq 0 (zlen a)) (fun k => Rabs (sign k * at_R a k * IZR k ^ (2 * j))).
Proof.
  intros H P. assert (L : 0 <= IZR (zlen a)) by (apply IZR_le, zlen_nonneg). unfold rest. rewrite <- !Rsum_list_mul. apply sum_bound. intros k K.
  destruct (indices a (nu / 2) k ltac:(lra) K) as [_ B].
  replace (nu * (sign k * at_R a k * IZR k ^ (2 * j) * (nu / (nu ^ 2 - IZR k ^ 2)))) with (nu ^ 2 / (nu ^ 2 - IZR k ^ 2) * (sign k * at_R a k * IZR k ^ (2 * j))) by (field; nra).
  rewrite Rabs_mult. apply Rmult_le_compat_r; [apply Rabs_pos|]. assert (Q : 0 < nu ^ 2 - IZR k ^ 2) by nra.
  rewrite Rabs_right. - apply (Rmult_le_reg_r (nu ^ 2 - IZR k ^ 2)); auto. unfold Rdiv. rewrite Rmult_assoc, Rinv_l by lra. nra.
  - apply Rle_ge. apply Rmult_le_pos; [nra|]. apply Rlt_le, Rinv_0_lt_compat, Q.
Qed.

Lemma rest_limit a j : tends_to (fun nu => nu * rest a j nu) (moment a j).
Proof.
  intros eps E. set (B := 2 * Rsum_list (zseq 0 (zlen a)) (fun k => Rabs (sign k * at_R a k * IZR k ^ (2 * S j)))).
  assert (L : 0 <= IZR (zlen a)) by (apply IZR_le, zlen_nonneg).
  assert (B0 : 0 <= B) by (eapply Rle_trans; [apply Rabs_pos|apply (rest_bound a (S j) (2 * IZR (zlen a) + 1)); lra]).
  exists (2 * IZR (zlen a) + 1 + B / eps). intros nu N.
  assert (Q : 0 <= B / eps) by (apply Rmult_le_pos; [auto|apply Rlt_le, Rinv_0_lt_compat, E]).
  rewrite (rest_step a j nu) by lra. replace (nu * (moment a j / nu + rest a (S j) nu / nu ^ 2) - moment a j) with (nu * rest a (S j) nu * / nu ^ 2) by (field; lra).
  rewrite Rabs_mult, (Rabs_right (/ nu ^ 2)) by (apply Rle_ge, Rlt_le, Rinv_0_lt_compat; nra).
  pose proof (rest_bound a (S j) nu ltac:(lra) ltac:(lra)) as R. fold B in R.
  assert (I : 0 < / nu ^ 2) by (apply Rinv_0_lt_compat; nra).
  apply Rle_lt_trans with (B * / nu ^ 2); [apply Rmult_le_compat_r; lra|]. apply (Rmult_lt_reg_r (nu ^ 2)); [nra|]. rewrite Rmult_assoc, Rinv_l, Rmult_1_r by nra.
  assert (B < eps * nu). { apply (Rmult_lt_reg_r (/ eps)); [now apply Rinv_0_lt_compat|]. replace (eps * nu * / eps) with nu by (field; lra). unfold Rdiv in *. lra. }
  nra.
Qed.

(** If the first [j] moments are zero and the next one is not, then the side lobes decay with [1 / nu ^ (2 * j + 1)]. *)
Lemma decays_ok a j : (forall i, (i < j)%nat -> moment a i = 0) -> moment a j <> 0 -> decays (sum_of_cosines a) (2 * j + 1).
Proof.
  intros Z M. pose proof PI_RGT_0 as P. exists (envelope a), (IZR (zlen a)), (moment a j / PI). split; [|split].
  - apply Rmult_integral_contrapositive_currified; auto. apply Rinv_neq_0_compat. lra.
  - intros nu N. apply transform_ok. lra.
  - intros eps E. destruct (rest_limit a j (eps * PI)) as (N & H); [nra|]. exists (Rmax N (IZR (zlen a))). intros nu B.
    pose proof (Rmax_l N (IZR (zlen a))). pose proof (Rmax_r N (IZR (zlen a))). assert (L : 0 <= IZR (zlen a)) by (apply IZR_le, zlen_nonneg).
    specialize (H nu ltac:(lra)). rewrite pow_add, pow_1.
    assert (Q : envelope a nu = rest a 0 nu / PI). { unfold envelope, rest. f_equal. apply Rsum_list_ext. intros k _. change (2 * 0)%nat with 0%nat. rewrite pow_O. ring. }
    rewrite Q. replace (nu ^ (2 * j) * nu * (rest a 0 nu / PI) - moment a j / PI) with ((nu * (nu ^ (2 * j) * rest a 0 nu) - moment a j) * / PI) by (field; lra).
    rewrite rest_zero by (auto; lra). rewrite Rabs_mult, (Rabs_right (/ PI)) by (apply Rle_ge, Rlt_le, Rinv_0_lt_compat, P).
    apply (Rmult_lt_reg_r PI); auto. rewrite Rmult_assoc, Rinv_l, Rmult_1_r by lra. exact H.
Qed.

(** ** The exponent of the decay is unique *)
Lemma integral_unique g a b v w : is_integral g a b v -> is_integral g a b w -> v = w.
Proof.
  intros (G & DG & ->) (H & DH & ->). assert (D : forall x, derivable_pt_lim (G - H)%F x 0).
  { intros x. replace 0 with (g x - g x) by ring. now apply derivable_pt_lim_minus. }
  assert (pr : derivable (G - H)%F) by (intros x; exists 0; apply D).
  assert (C : constant (G - H)%F). { apply (null_derivative_1 _ pr). intros x. apply derive_pt_eq_0, D. }
  specialize (C a b). unfold minus_fct in C. lra.
Qed.

Lemma large_nat x : exists n, x < INR n.
Proof.
  exists (Z.to_nat (Z.max 0 (up x))). rewrite INR_IZR_INZ, Z2Nat.id by lia. destruct (archimed x) as [U _].
  apply Rlt_le_trans with (IZR (up x)); [lra|apply IZR_le; lia].
Qed.

Lemma sin_half (n : nat) : sin (PI * (INR n + 1 / 2)) <> 0.
Proof.
  rewrite Rmult_plus_distr_l, sin_plus. replace (PI * (1 / 2)) with (PI / 2) by field. rewrite sin_PI2, cos_PI2, cos_PI_nat. unfold sign. destruct (Z.even _); lra.
Qed.

Lemma decays_unique f p q : decays f p -> decays f q -> p = q.
Proof.
  assert (W : forall p q, decays f p -> decays f q -> (p < q)%nat -> False).
  { clear. intros p q (E & N & L & L0 & T & U) (E' & N' & L' & L0' & T' & U') B.
    (* nu ^ p * E -> L <> 0, nu ^ q * E' is bounded *)
    destruct (U (Rabs L / 2)) as (M & HM). { pose proof (Rabs_pos_lt _ L0). lra. }
    destruct (U' 1) as (M' & HM'); [lra|].
    set (K := (Rabs L' + 1) * 2 / Rabs L).
    pose proof (Rabs_pos_lt _ L0) as LP. pose proof (Rabs_pos L') as LP'.
    destruct (large_nat (Rmax 0 (Rmax (Rmax N N') (Rmax M M')) + K + 1)) as (n & Hn). set (nu := INR n + 1 / 2).
    assert (K0 : 0 < K). { unfold K. apply Rmult_lt_0_compat; [lra|]. now apply Rinv_0_lt_compat. }
    pose proof (Rmax_l 0 (Rmax (Rmax N N') (Rmax M M'))). pose proof (Rmax_r 0 (Rmax (Rmax N N') (Rmax M M'))). pose proof (Rmax_l (Rmax N N') (Rmax M M')). pose proof (Rmax_r (Rmax N N') (Rmax M M')). pose proof (Rmax_l N N'). pose proof (Rmax_r N N').
    pose proof (Rmax_l M M'). pose proof (Rmax_r M M'). pose proof (pos_INR n) as PN.
    assert (E1 : E nu = E' nu).
    { pose proof (integral_unique _ _ _ _ _ (T nu ltac:(unfold nu; lra)) (T' nu ltac:(unfold nu; lra))) as Q. apply Rmult_eq_reg_l in Q; auto. apply sin_half. }
    specialize (HM nu ltac:(unfold nu; lra)). specialize (HM' nu ltac:(unfold nu; lra)). rewrite <- E1 in HM'.
    replace q with (p + (q - p))%nat in HM' by lia. rewrite pow_add in HM'. set (e := E nu) in *.
    assert (Y : nu <= nu ^ (q - p)).
    { replace nu with (nu ^ 1) at 1 by ring. apply Rle_pow; [unfold nu; lra|lia]. }
    assert (X : Rabs L / 2 <= Rabs (nu ^ p * e)). { pose proof (Rabs_triang (L - nu ^ p * e) (nu ^ p * e)) as Q. replace (L - nu ^ p * e + nu ^ p * e) with L in Q by ring. rewrite Rabs_minus_sym in Q. lra. }
    assert (V : Rabs (nu ^ p * e) * nu ^ (q - p) < Rabs L' + 1).
    { replace (nu ^ p * nu ^ (q - p) * e) with (nu ^ p * e * nu ^ (q - p)) in HM' by ring.
      pose proof (Rabs_triang (nu ^ p * e * nu ^ (q - p) - L') L') as Q. replace (nu ^ p * e * nu ^ (q - p) - L' + L') with (nu ^ p * e * nu ^ (q - p)) in Q by ring.
      rewrite Rabs_mult in Q at 1. rewrite (Rabs_right (nu ^ (q - p))) in Q; [lra|]. unfold nu in *. lra. }
    assert (KL : K * (Rabs L / 2) = Rabs L' + 1) by (unfold K; field; lra).
    assert (KN : K < nu) by (unfold nu; lra).
    assert (Rabs L / 2 * nu <= Rabs (nu ^ p * e) * nu ^ (q - p)). { apply Rmult_le_compat; lra. }
    nra. }
  intros A B. destruct (Nat.lt_trichotomy p q) as [C|[C|C]]; auto; exfalso; eauto.
Qed.
