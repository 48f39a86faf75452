(** The frequency weighting filters. *)

From Coq Require Import String ZArith List Bool Lia Reals Lra Psatz.
From Verif.Model Require Import Py Functions Signal Terms Filter Fourier Rolloff Weighting.
From Verif.Spec Require Import TermsSpec FilterSpec RealSpec ComplexSpec DftSpec RolloffSpec WeightingSpec.
From Verif.Proofs Require Import PyFacts TermFacts TermOperators TermFuel FilterFacts FilterOperators ComplexFacts DftFacts RootsFacts RolloffFacts ButterworthFacts Chebyshev2Facts.
Import ListNotations.
Open Scope Z_scope.

Section Weighting.
Variable power modulo : R -> R -> R.
Variable cpower cmodulo : C -> C -> C.
Variable log2_c exp2_c : C -> C.
Variable junk : C.
Notation T := (complex_arithmetic cpower cmodulo log2_c exp2_c).
Notation EA := (complex_exact cpower cmodulo log2_c exp2_c).
Notation M := (real_mathematics power modulo).
Notation term := (term C R).
Notation value := (TermsSpec.value T).

(** A factor and its transfer function, whose squared magnitude is proportional to [w] *)
Record factor (t : term) (v : R -> C) (w : R -> R) : Prop := Factor {
  f_regular : regular Untransformed t;
  f_value : forall f, value f (s_of T f) t = Some (v f);
  f_norm : exists c, (0 < c)%R /\ forall f, norm2 (v f) = (c * w f)%R
}.

Definition prod_of (l : list (R -> C)) (f : R) : C := fold_left (fun r v => Cmul r (v f)) l C1.
Definition weight_of (l : list (R -> R)) (f : R) : R := fold_left (fun r w => (r * w f)%R) l 1%R.

Inductive factors : list term -> list (R -> C) -> list (R -> R) -> Prop :=
| no_factors : factors [] [] []
| more_factors t v w l vs ws : factor t v w -> factors l vs ws -> factors (t :: l) (v :: vs) (w :: ws).

Lemma call_value t f : regular Untransformed t -> fst (call T junk f t false false) = value f (s_of T f) t.
Proof. intros H. apply (evaluate_value T EA junk Untransformed); [now apply regular_plain|exact I]. Qed.

Lemma gain_ok l vs ws f : factors l vs ws -> forall z,
  fold_left (fun r t => binary Cmul r (fst (call T junk f t false false))) l (Some z) = Some (fold_left (fun r v => Cmul r (v f)) vs z).
Proof.
  induction 1 as [|t v w l vs ws H _ IH]; intros z; [reflexivity|]. cbn [fold_left]. destruct H as [R V _]. rewrite call_value, V by exact R. cbn [binary]. apply IH.
Qed.

Lemma fold_from l f : forall z, fold_left (fun r v => Cmul r (v f)) l z = Cmul z (prod_of l f).
Proof.
  unfold prod_of. induction l as [|v l IH]; intros z; cbn [fold_left]; [apply C_ext; cbn; ring|]. rewrite IH, (IH (Cmul C1 (v f))). generalize (fold_left (fun r v => Cmul r (v f)) l C1).
  intros y. apply C_ext; cbn; ring.
Qed.
Lemma weight_from l f : forall z, fold_left (fun r w => (r * w f)%R) l z = (z * weight_of l f)%R.
Proof.
  unfold weight_of. induction l as [|v l IH]; intros z; cbn [fold_left]; [ring|]. rewrite IH, (IH (1 * v f)%R). ring.
Qed.

Lemma prod_norm l vs ws : factors l vs ws -> exists c, (0 < c)%R /\ forall f, norm2 (prod_of vs f) = (c * weight_of ws f)%R.
Proof.
  induction 1 as [|t v w l vs ws [_ _ (c & Pc & N)] _ (d & Pd & IH)].
  - exists 1%R. split; [lra|]. intros f. change (prod_of [] f) with C1. change (weight_of [] f) with 1%R. rewrite norm2_real. ring.
  - exists (c * d)%R. split; [nra|]. intros f. unfold prod_of, weight_of. cbn [fold_left]. rewrite fold_from, weight_from, !norm2_mul, norm2_real, N, IH. ring.
Qed.

Lemma product_value l vs ws f z : factors l vs ws -> vprod T f (s_of T f) l = Some z -> z = prod_of vs f.
Proof.
  intros H. revert z. induction H as [|t v w l vs ws [_ V _] _ IH]; intros z E; [injection E as <-; reflexivity|].
  rewrite vprod_cons, V in E. destruct (vprod T f (s_of T f) l) as [y|]; [|discriminate]. injection E as <-. rewrite (IH y eq_refl).
  transitivity (Cmul (Cmul C1 (v f)) (prod_of vs f)); [|symmetry; exact (fold_from vs f (Cmul C1 (v f)))]. generalize (prod_of vs f), (v f). intros a b. apply C_ext; cbn; ring.
Qed.
Lemma product_some l vs ws f : factors l vs ws -> vprod T f (s_of T f) l = Some (prod_of vs f).
Proof.
  intros H. assert (E : exists z, vprod T f (s_of T f) l = Some z).
  { induction H as [|t v w l vs ws [_ V _] _ [z IH]]; [eexists; reflexivity|]. rewrite vprod_cons, V, IH. eexists. reflexivity. }
  destruct E as [z E]. rewrite E. f_equal. now apply (product_value l vs ws).
Qed.

Lemma factors_regular l vs ws : factors l vs ws -> Forall (regular Untransformed) l.
Proof. induction 1 as [|t v w l vs ws [R _ _] _ IH]; constructor; auto. Qed.

Lemma weighting_ok generator label l vs ws : generator 1000%R = Ok l -> factors l vs ws -> (0 < weight_of ws 1000)%R -> (forall f, 0 <= weight_of ws f)%R ->
  exists F, weighting_filter M T junk generator label = Ok (Some F) /\ f_count F = 1 /\ f_labels F = [label] /\
    response T junk F 0 1000%R = Some C1 /\
    forall f, exists z, response T junk F 0 f = Some z /\ modulus z = sqrt (weight_of ws f / weight_of ws 1000)%R.
Proof.
  intros E Fs P P0. destruct (prod_norm l vs ws Fs) as (c & Pc & N).
  assert (G : prod_of vs 1000 <> C0). { intros Q. specialize (N 1000%R). rewrite Q, norm2_real in N. nra. }
  unfold weighting_filter, transfer_function. change (m_float M 1000) with 1000%R. rewrite E. cbn [bind].
  change (m_complex M (m_float M 1) (o_zero (m_ops M))) with C1. change (o_mul (k_ops T)) with Cmul. rewrite (gain_ok l vs ws 1000 Fs C1). change (fold_left _ vs C1) with (prod_of vs 1000).
  unfold divide. replace (is_null T (prod_of vs 1000)) with false by (symmetry; now apply (is_null_neq T EA)). change (o_div (k_ops T)) with Cdiv.
  eexists. split; [reflexivity|]. split; [reflexivity|]. split; [reflexivity|].
  assert (V : forall f, response T junk (mk_filter [Product (Constant (Cdiv C1 (prod_of vs 1000)) :: l) false] [label]) 0 f = Some (Cmul (Cdiv C1 (prod_of vs 1000)) (prod_of vs f))).
  { intros f. rewrite (response_value T EA junk Untransformed); [|constructor; [|constructor]|exact I].
    - change (zth _ 0) with (Some (Product (Constant (Cdiv C1 (prod_of vs 1000)) :: l) false)). cbn [TermsSpec.value transform].
      pose proof (product_some l vs ws f Fs) as Q. unfold vprod in Q. cbn [fold_right]. rewrite Q. reflexivity.
    - apply regular_plain, regular_good, good_product_okay; [apply allowed_okay; reflexivity|]. constructor; [apply good_constant|]. apply Forall_regular. now apply (factors_regular l vs ws). }
  split.
  - rewrite V. f_equal. unfold Cdiv. transitivity (Cmul (Cinv (prod_of vs 1000)) (prod_of vs 1000)); [apply C_ext; cbn; ring|now apply Cmul_inv].
  - intros f. eexists. split; [apply V|]. unfold modulus. f_equal. rewrite norm2_mul, norm2_div, norm2_real, !N by exact G. field. split; lra.
Qed.

(** ** The factors *)

Lemma pole_value z f : value f (s_of T f) (Polynomial [C1; z] false) = Some (re z, 2 * PI * f + im z)%R.
Proof. cbn [TermsSpec.value transform polynomial TermsSpec.power]. f_equal. destruct z. apply C_ext; cbn; ring. Qed.
Lemma zero_value f : value f (s_of T f) (Polynomial [C1; C0] false) = Some (0, 2 * PI * f)%R.
Proof. rewrite pole_value. f_equal. apply C_ext; cbn; ring. Qed.

Lemma poly_regular (c : list C) : c <> [] -> regular Untransformed (Polynomial c false : term).
Proof. intros H. apply regular_good, good_polynomial_okay; auto. apply allowed_okay. reflexivity. Qed.
Lemma quotient_regular (a b : term) : regular Untransformed a -> regular Untransformed b -> regular Untransformed (Quotient a b false).
Proof. intros Ha Hb. apply regular_good, good_quotient_okay; [apply allowed_okay; reflexivity| |]; now apply regular_good. Qed.

Lemma not_zero x y : (0 < x)%R -> (x, y) <> C0.
Proof. intros H E. injection E. lra. Qed.

(** A highpass factor with the pole at [p] Hz *)
Lemma highpass_ok p : (0 < p)%R -> exists t v, highpass_factor M T (2 * PI * p)%R = Ok t /\ factor t v (fun f => f ^ 2 / (f ^ 2 + p ^ 2))%R.
Proof.
  intros Hp. pose proof PI_RGT_0 as Pi. exists (Quotient (Polynomial [C1; C0] false) (Polynomial [C1; C_of_R (2 * PI * p)] false) false).
  exists (fun f => Cdiv (0, 2 * PI * f)%R (2 * PI * p, 2 * PI * f + 0)%R). split; [reflexivity|]. assert (H : (0 < 2 * PI * p)%R) by nra. split.
  - apply quotient_regular; apply poly_regular; discriminate.
  - intros f. cbn [TermsSpec.value transform]. pose proof (zero_value f) as Z. pose proof (pole_value (C_of_R (2 * PI * p)) f) as V. cbn [TermsSpec.value transform] in Z, V. rewrite Z, V.
    apply quotient_value_ok. now apply not_zero.
  - exists 1%R. split; [lra|]. intros f. rewrite norm2_div by now apply not_zero. unfold norm2. cbn [re im fst snd]. field. split; nra.
Qed.

(** A lowpass factor with the pole at the negative of [x + y j] Hz *)
Lemma lowpass_ok x y : (0 < x)%R -> exists t v, lowpass_factor M T (2 * PI * x, 2 * PI * y)%R = Ok t /\ factor t v (fun f => 1 / (x ^ 2 + (f + y) ^ 2))%R.
Proof.
  intros Hp. pose proof PI_RGT_0 as Pi. exists (Quotient (Constant C1) (Polynomial [C1; (2 * PI * x, 2 * PI * y)%R] false) false).
  exists (fun f => Cdiv C1 (2 * PI * x, 2 * PI * f + 2 * PI * y)%R). split; [reflexivity|]. assert (H : (0 < 2 * PI * x)%R) by nra. split.
  - apply quotient_regular; [apply regular_good, good_constant|apply poly_regular; discriminate].
  - intros f. change (quotient T (Some C1) (value f (s_of T f) (Polynomial [C1; (2 * PI * x, 2 * PI * y)%R] false)) = Some (Cdiv C1 (2 * PI * x, 2 * PI * f + 2 * PI * y)%R)). rewrite pole_value.
    apply quotient_value_ok. now apply not_zero.
  - exists (1 / (2 * PI) ^ 2)%R. split; [apply Rdiv_lt_0_compat; nra|]. intros f. rewrite norm2_div by now apply not_zero. rewrite norm2_real. unfold norm2. cbn [re im fst snd].
    replace (2 * PI * x * (2 * PI * x) + (2 * PI * f + 2 * PI * y) * (2 * PI * f + 2 * PI * y))%R with ((2 * PI) ^ 2 * (x ^ 2 + (f + y) ^ 2))%R by ring.
    assert (Q : (0 < x ^ 2 + (f + y) ^ 2)%R) by (pose proof (pow2_ge_0 (f + y)); nra). field. split; lra.
Qed.


(** The second order factor of the D-weighting *)
Lemma second_order_ok a b c d : (0 < a)%R -> (0 < b)%R -> (0 < c)%R -> (0 < d)%R ->
  exists t v, div T (poly [C1; C_of_R (2 * PI * sqrt b); C_of_R (square M (2 * PI * sqrt a))]%R) (poly [C1; C_of_R (2 * PI * sqrt d); C_of_R (square M (2 * PI * sqrt c))]%R) = Ok t /\
    factor t v (fun f => ((a - f ^ 2) ^ 2 + b * f ^ 2) / ((c - f ^ 2) ^ 2 + d * f ^ 2))%R.
Proof.
  intros Ha Hb Hc Hd. pose proof PI_RGT_0 as Pi. change (square M) with (fun x => (x * x)%R). cbv beta.
  assert (V : forall p q f, (0 < p)%R -> value f (s_of T f) (Polynomial [C1; C_of_R (2 * PI * sqrt q); C_of_R (2 * PI * sqrt p * (2 * PI * sqrt p))]%R false) =
    Some ((2 * PI) ^ 2 * (p - f ^ 2), (2 * PI) ^ 2 * (sqrt q * f))%R).
  { intros p q f Hp. cbn [TermsSpec.value transform polynomial TermsSpec.power]. f_equal. apply C_ext; cbn; [|ring].
    transitivity ((2 * PI) ^ 2 * (sqrt p * sqrt p - f ^ 2))%R; [ring|]. rewrite sqrt_sqrt by lra. ring. }
  eexists. exists (fun f => Cdiv ((2 * PI) ^ 2 * (a - f ^ 2), (2 * PI) ^ 2 * (sqrt b * f)) ((2 * PI) ^ 2 * (c - f ^ 2), (2 * PI) ^ 2 * (sqrt d * f)))%R.
  split; [reflexivity|]. assert (P2 : (0 < (2 * PI) ^ 2)%R) by nra. pose proof (sqrt_lt_R0 d Hd) as Sd.
  assert (N : forall f, ((2 * PI) ^ 2 * (c - f ^ 2), (2 * PI) ^ 2 * (sqrt d * f))%R <> C0).
  { intros f E. injection E as E1 E2. apply Rmult_integral in E2 as [E2|E2]; [lra|]. apply Rmult_integral in E2 as [E2|E2]; [lra|]. subst f.
    apply Rmult_integral in E1 as [E1|E1]; nra. }
  split.
  - apply quotient_regular; apply poly_regular; discriminate.
  - intros f. unfold poly.
    match goal with |- value _ _ (Quotient ?p ?q false) = _ => change (quotient T (value f (s_of T f) p) (value f (s_of T f) q) =
      Some (Cdiv ((2 * PI) ^ 2 * (a - f ^ 2), (2 * PI) ^ 2 * (sqrt b * f)) ((2 * PI) ^ 2 * (c - f ^ 2), (2 * PI) ^ 2 * (sqrt d * f)))%R) end.
    rewrite !V by auto. apply quotient_value_ok, N.
  - exists 1%R. split; [lra|]. intros f. rewrite norm2_div by apply N. unfold norm2. cbn [re im fst snd].
    assert (S : forall p q, (0 < q -> (2 * PI) ^ 2 * (p - f ^ 2) * ((2 * PI) ^ 2 * (p - f ^ 2)) + (2 * PI) ^ 2 * (sqrt q * f) * ((2 * PI) ^ 2 * (sqrt q * f)) = ((2 * PI) ^ 2) ^ 2 * ((p - f ^ 2) ^ 2 + q * f ^ 2))%R).
    { intros p q Hq. transitivity (((2 * PI) ^ 2) ^ 2 * ((p - f ^ 2) ^ 2 + sqrt q * sqrt q * f ^ 2))%R; [ring|]. rewrite sqrt_sqrt by lra. reflexivity. }
    rewrite !S by auto. assert (D : (0 < (c - f ^ 2) ^ 2 + d * f ^ 2)%R).
    { destruct (Req_dec f 0) as [->|Hf]; [nra|]. assert (0 < f ^ 2)%R by nra. pose proof (pow2_ge_0 (c - f ^ 2)). nra. }
    field. split; lra.
Qed.

End Weighting.
