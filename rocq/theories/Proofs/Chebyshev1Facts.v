(** Chebyshev filters of type 1. *)

From Coq Require Import String ZArith List Bool Lia ZifyBool Reals Lra Ring_theory Field_theory Ring Field.
From Verif.Model Require Import Py Functions Signal Terms Filter Rolloff.
From Verif.Spec Require Import TermsSpec FilterSpec RealSpec ComplexSpec DftSpec RolloffSpec.
From Verif.Proofs Require Import PyFacts ComplexFacts DftFacts RootsFacts RolloffFacts ButterworthFacts BesselFacts ChebyshevFacts.
Import ListNotations.
Open Scope Z_scope.
Ltac Zify.zify_post_hook ::= idtac.

Local Open Scope R_scope.

(** ** Hyperbolic functions *)

Lemma cosh_sinh g : cosh g * cosh g = 1 + sinh g * sinh g.
Proof. unfold cosh, sinh. rewrite exp_Ropp. pose proof (exp_pos g). field. lra. Qed.
Lemma cosh_double g : cosh (2 * g) = 2 * (cosh g * cosh g) - 1.
Proof. unfold cosh. replace (- (2 * g)) with (- g + - g) by ring. replace (2 * g) with (g + g) by ring. rewrite !exp_plus, exp_Ropp. pose proof (exp_pos g). field. lra. Qed.
Lemma sinh_pos g : 0 < g -> 0 < sinh g.
Proof. intros H. unfold sinh. assert (exp (- g) < exp g) by (apply exp_increasing; lra). lra. Qed.

Lemma axis_pos g t : sinh g <> 0 -> 0 < cosh g * cosh g - cos t * cos t.
Proof. intros H. rewrite cosh_sinh. pose proof (sin2_cos2 t) as S. unfold Rsqr in S. nra. Qed.

Lemma quadratic_kernel g t y :
  (cosh g * cosh g - cos t * cos t - y * y) * (cosh g * cosh g - cos t * cos t - y * y) + 4 * (sinh g * sinh g) * (cos t * cos t) * (y * y) =
  kernel (2 * (y * y) - 1) (cosh (2 * g)) (cos (2 * t)) / 4.
Proof.
  rewrite cosh_double, cos_2a_cos. unfold kernel. pose proof (cosh_sinh g) as H. set (u := cosh g * cosh g) in *. replace (sinh g * sinh g) with (u - 1) by lra. field.
Qed.

Lemma kernel_0 g t : kernel (2 * (0 * 0) - 1) (cosh (2 * g)) (cos (2 * t)) = 4 * ((cosh g * cosh g - cos t * cos t) * (cosh g * cosh g - cos t * cos t)).
Proof. pose proof (quadratic_kernel g t 0). lra. Qed.

(** The magnitude of a second order factor *)
Lemma factor_norm g t y : sinh g <> 0 ->
  norm2 (1 - 1 / (cosh g * cosh g - cos t * cos t) * y * y, 2 * (1 / (cosh g * cosh g - cos t * cos t)) * sinh g * cos t * y) =
  kernel (2 * (y * y) - 1) (cosh (2 * g)) (cos (2 * t)) / kernel (2 * (0 * 0) - 1) (cosh (2 * g)) (cos (2 * t)).
Proof.
  intros H. pose proof (axis_pos g t H) as P. rewrite kernel_0. pose proof (quadratic_kernel g t y) as Q. set (A := cosh g * cosh g - cos t * cos t) in *.
  replace (kernel (2 * (y * y) - 1) (cosh (2 * g)) (cos (2 * t))) with (4 * ((A - y * y) * (A - y * y) + 4 * (sinh g * sinh g) * (cos t * cos t) * (y * y))) by lra.
  unfold norm2. cbn [re im fst snd]. field. lra.
Qed.

Lemma Rprod_div {Y} (l : list Y) f g : (forall y, In y l -> g y <> 0) -> Rprod l (fun y => f y / g y) = Rprod l f / Rprod l g /\ Rprod l g <> 0.
Proof.
  unfold Rprod. induction l as [|y l IH]; intros H; [cbn; split; [field|lra]|]. destruct IH as [IH N]; [intros; apply H; now right|].
  assert (g y <> 0) by (apply H; now left). cbn [fold_right]. split; [rewrite IH; field; auto|]. now apply Rmult_integral_contrapositive.
Qed.

Lemma cheb_at_0 n : cheb n 0 * cheb n 0 = if Nat.even n then 1 else 0.
Proof.
  induction n using two_steps; [rewrite cheb_0; cbn; ring|rewrite cheb_1; cbn; ring|]. rewrite cheb_S. cbn [Nat.even]. rewrite <- IHn. ring.
Qed.

Lemma cheb_neg n x : cheb n (- x) * cheb n (- x) = cheb n x * cheb n x.
Proof.
  assert (H : cheb n (- x) = (if Nat.even n then 1 else - 1) * cheb n x).
  { induction n using two_steps; [rewrite !cheb_0; cbn; ring|rewrite !cheb_1; cbn; ring|]. rewrite !cheb_S, IHn, IHn0. change (Nat.even (S (S n))) with (Nat.even n).
    rewrite Nat.even_succ, <- Nat.negb_even. destruct (Nat.even n); cbn [negb]; ring. }
  rewrite H. destruct (Nat.even n); ring.
Qed.

Lemma sinh_not_0 (n : nat) g : sinh (INR n * g) <> 0 -> sinh g <> 0.
Proof.
  intros H E. apply H. assert (G : g = 0).
  { unfold sinh in E. assert (Q : exp g = exp (- g)) by lra. apply exp_inv in Q. lra. }
  subst. rewrite Rmult_0_r. apply sinh_0.
Qed.

Local Open Scope Z_scope.

Section Chebyshev1.
Variable power modulo : R -> R -> R.
Variable cpower cmodulo : C -> C -> C.
Variable log2_c exp2_c : C -> C.
Variable junk : C.
Notation T := (complex_arithmetic cpower cmodulo log2_c exp2_c).
Notation M := (real_mathematics power modulo).

Definition axis (g t : R) : R := (1 / (cosh g * cosh g - cos t * cos t))%R.
Definition section (k g t : R) : list C := quadratic k (axis g t) (2 * axis g t * sinh g * cos t).

Definition chebyshev_coefficients (k g : R) (order : Z) : list (list C) :=
  if order mod 2 =? 0 then map (fun i => section k g (IZR (2 * i - 1) * (PI / IZR (2 * order)))) (zseq 1 (order / 2))
  else linear k (1 / sinh g) :: map (fun i => section k g (IZR (i - 1) * (PI / IZR order))) (zseq 2 ((order + 1) / 2 - 1)).

Definition slope (ripple : R) (order : Z) : R := (arcsinh (1 / sqrt (Rpower 10 (ripple / 10) - 1)) / IZR order)%R.

Lemma steep_section k g t : k <> 0%R -> sinh g <> 0%R -> steep (section k g t).
Proof.
  intros Hk Hg. apply steep_quadratic; auto. unfold axis. pose proof (axis_pos g t Hg). unfold Rdiv. rewrite Rmult_1_l. apply Rinv_neq_0_compat. lra.
Qed.
Lemma steep_first k g : k <> 0%R -> sinh g <> 0%R -> steep (linear k (1 / sinh g)).
Proof. intros Hk Hg. apply steep_linear; auto. unfold Rdiv. rewrite Rmult_1_l. now apply Rinv_neq_0_compat. Qed.

Lemma chebyshev1_factors_ok k ripple order : k <> 0%R -> sinh (slope ripple order) <> 0%R ->
  chebyshev1_factors M T k ripple order = map (fun c => Polynomial c false) (chebyshev_coefficients k (slope ripple order) order).
Proof.
  intros Hk Hg. unfold chebyshev1_factors, chebyshev_coefficients. fold (slope ripple order).
  assert (S : forall t, polynomial_ M T [axis (slope ripple order) t * (k * k); 2 * axis (slope ripple order) t * sinh (slope ripple order) * cos t * k; 1]%R false = Polynomial (section k (slope ripple order) t) false).
  { intros t. unfold polynomial_. rewrite <- (factory_steep cpower cmodulo log2_c exp2_c _ false (steep_section k (slope ripple order) t Hk Hg)). reflexivity. }
  destruct (order mod 2 =? 0).
  - rewrite map_map. apply map_ext. intros i. apply (S (IZR (2 * i - 1) * (PI / IZR (2 * order)))%R).
  - cbn [map]. f_equal.
    + unfold polynomial_. rewrite <- (factory_steep cpower cmodulo log2_c exp2_c _ false (steep_first k (slope ripple order) Hk Hg)). reflexivity.
    + rewrite map_map. apply map_ext. intros i. apply (S (IZR (i - 1) * (PI / IZR order))%R).
Qed.

Lemma chebyshev_steep k g order : k <> 0%R -> sinh g <> 0%R -> Forall steep (chebyshev_coefficients k g order).
Proof.
  intros Hk Hg. assert (L : forall (l : list Z) h, Forall steep (map (fun i => section k g (h i)) l)).
  { intros l h. apply Forall_forall. intros c H. apply in_map_iff in H as (i & <- & _). now apply steep_section. }
  unfold chebyshev_coefficients. destruct (order mod 2 =? 0); [apply L|]. constructor; [now apply steep_first|apply L].
Qed.

Lemma chebyshev_not_nil k g order : 1 <= order -> chebyshev_coefficients k g order <> [].
Proof.
  intros H E. unfold chebyshev_coefficients in E. destruct (order mod 2 =? 0) eqn:P; [|discriminate]. apply map_eq_nil in E.
  apply (f_equal zlen) in E. rewrite zlen_seq in E. change (zlen []) with 0 in E. pose proof (Z.div_mod order 2 ltac:(lia)). lia.
Qed.

Lemma section_norm k g t y s : sinh g <> 0%R -> Cmul (C_of_R k) s = (0, y)%R ->
  norm2 (polynomial T (section k g t) s) = (kernel (2 * (y * y) - 1) (cosh (2 * g)) (cos (2 * t)) / kernel (2 * (0 * 0) - 1) (cosh (2 * g)) (cos (2 * t)))%R.
Proof. intros Hg S. unfold section, quadratic. rewrite (quadratic_value cpower cmodulo log2_c exp2_c _ _ y k s S). now apply factor_norm. Qed.

Lemma kernel_not_0 g t : sinh g <> 0%R -> kernel (2 * (0 * 0) - 1) (cosh (2 * g)) (cos t) <> 0%R.
Proof. intros H. replace (cos t) with (cos (2 * (t / 2))) by (f_equal; field). rewrite kernel_0. pose proof (axis_pos g (t / 2) H). nra. Qed.

Lemma chebyshev_norm k g order s y : 1 <= order -> sinh g <> 0%R -> Cmul (C_of_R k) s = (0, y)%R -> let n := Z.to_nat order in
  norm2 (Cprod (chebyshev_coefficients k g order) (fun c => polynomial T c s)) =
  ((cheb n y * cheb n y + sinh (INR n * g) * sinh (INR n * g)) / (cheb n 0 * cheb n 0 + sinh (INR n * g) * sinh (INR n * g)))%R.
Proof.
  intros H Hg S n. rewrite norm2_Cprod. pose proof (Z.div_mod order 2 ltac:(lia)) as D. unfold chebyshev_coefficients. destruct (order mod 2 =? 0) eqn:P.
  - rewrite Rprod_map. set (m := Z.to_nat (order / 2)). assert (Hm : order = 2 * Z.of_nat m) by (unfold m; lia). assert (Hm0 : (0 < m)%nat) by lia.
    replace (order / 2) with (Z.of_nat m) by (unfold m; lia). rewrite (Rprod_shift 0 (Z.of_nat m) 1). replace n with (2 * m)%nat by (unfold n; lia).
    pose proof (even_kernel m y g Hm0) as K. pose proof (even_kernel m 0 g Hm0) as K0.
    rewrite (Rprod_ext _ _ (fun k => kernel (2 * (y * y) - 1) (cosh (2 * g)) (cos (IZR (2 * k + 1) * PI / IZR (2 * Z.of_nat m))) /
                                     kernel (2 * (0 * 0) - 1) (cosh (2 * g)) (cos (IZR (2 * k + 1) * PI / IZR (2 * Z.of_nat m))))%R).
    + destruct (Rprod_div (zseq 0 (Z.of_nat m)) (fun k => kernel (2 * (y * y) - 1) (cosh (2 * g)) (cos (IZR (2 * k + 1) * PI / IZR (2 * Z.of_nat m))))
        (fun k => kernel (2 * (0 * 0) - 1) (cosh (2 * g)) (cos (IZR (2 * k + 1) * PI / IZR (2 * Z.of_nat m))))) as [E N].
      * intros i _. now apply kernel_not_0.
      * rewrite E. assert (N4 : (4 ^ m <> 0)%R) by (apply pow_nonzero; lra). set (p := Rprod _ _) in *. set (q := Rprod _ _) in N, K0 |- *.
        set (u := (cheb (2 * m) y * cheb (2 * m) y + _)%R) in *. set (v := (cheb (2 * m) 0 * cheb (2 * m) 0 + _)%R) in *.
        assert (Nv : v <> 0%R). { intros Q. rewrite Q in K0. replace (4 * 0)%R with 0%R in K0 by ring. apply Rmult_integral in K0 as [?|?]; contradiction. }
        replace p with (4 * u / 4 ^ m)%R by (rewrite <- K; field; auto). replace q with (4 * v / 4 ^ m)%R by (rewrite <- K0; field; auto). field. auto.
    + intros i _. rewrite (section_norm k g _ y s Hg S).
      replace (2 * (IZR (2 * (i + 1) - 1) * (PI / IZR (2 * order))))%R with (IZR (2 * i + 1) * PI / IZR (2 * Z.of_nat m))%R; [reflexivity|].
      replace (2 * (i + 1) - 1) with (2 * i + 1) by lia. rewrite Hm, !mult_IZR. field. apply (n_not_0 (Z.of_nat m)). lia.
  - pose proof (Z.mod_pos_bound order 2 ltac:(lia)). rewrite Rprod_cons, Rprod_map. set (m := Z.to_nat (order / 2)). assert (Hm : order = 2 * Z.of_nat m + 1) by (unfold m; lia).
    replace ((order + 1) / 2 - 1) with (Z.of_nat m) by (apply Z.add_cancel_r with (p := 1); rewrite Z.sub_add; apply (Z.div_unique _ _ _ 0); lia).
    rewrite (Rprod_shift 1 (Z.of_nat m) 1). replace n with (2 * m + 1)%nat by (unfold n; lia).
    pose proof (odd_kernel m y g) as K. pose proof (odd_kernel m 0 g) as K0.
    rewrite (Rprod_ext _ _ (fun k => kernel (2 * (y * y) - 1) (cosh (2 * g)) (cos (2 * (IZR k * PI / IZR (2 * Z.of_nat m + 1)))) /
                                     kernel (2 * (0 * 0) - 1) (cosh (2 * g)) (cos (2 * (IZR k * PI / IZR (2 * Z.of_nat m + 1)))))%R).
    + destruct (Rprod_div (zseq 1 (Z.of_nat m)) (fun k => kernel (2 * (y * y) - 1) (cosh (2 * g)) (cos (2 * (IZR k * PI / IZR (2 * Z.of_nat m + 1)))))
        (fun k => kernel (2 * (0 * 0) - 1) (cosh (2 * g)) (cos (2 * (IZR k * PI / IZR (2 * Z.of_nat m + 1)))))) as [E N].
      * intros i _. now apply kernel_not_0.
      * rewrite E. assert (N4 : (2 * 4 ^ m <> 0)%R) by (apply Rmult_integral_contrapositive; split; [lra|apply pow_nonzero; lra]). set (p := Rprod _ _) in *. set (q := Rprod _ _) in N, K0 |- *.
        set (u := (cheb (2 * m + 1) y * cheb (2 * m + 1) y + _)%R) in *. set (v := (cheb (2 * m + 1) 0 * cheb (2 * m + 1) 0 + _)%R) in *.
        unfold linear. rewrite (linear_value cpower cmodulo log2_c exp2_c _ y k s S).
        assert (Y : forall x, (2 * (x * x) - 1 + cosh (2 * g) = 2 * (x * x + sinh g * sinh g))%R) by (intros x; rewrite cosh_double, cosh_sinh; ring).
        rewrite Y in K, K0. assert (Ng : (sinh g * sinh g <> 0)%R) by (intros Q; apply Rmult_integral in Q as [?|?]; contradiction).
        assert (Nv : v <> 0%R).
        { intros Q. rewrite Q in K0. replace (4 * 0)%R with 0%R in K0 by ring. apply Rmult_integral in K0 as [?|K0]; [contradiction|]. apply Rmult_integral in K0 as [?|?]; [lra|contradiction]. }
        replace (norm2 (1, 1 / sinh g * y)%R) with ((y * y + sinh g * sinh g) / (sinh g * sinh g))%R by (unfold norm2; cbn [re im fst snd]; field; auto).
        transitivity ((2 * 4 ^ m * (2 * (y * y + sinh g * sinh g) * p)) / (2 * 4 ^ m * (2 * (0 * 0 + sinh g * sinh g) * q)))%R; [field; repeat split; auto; try lra|rewrite K, K0; field; auto].
    + intros i _. rewrite (section_norm k g _ y s Hg S).
      replace (2 * (IZR (i + 1 - 1) * (PI / IZR order)))%R with (2 * (IZR i * PI / IZR (2 * Z.of_nat m + 1)))%R; [reflexivity|].
      replace (i + 1 - 1) with i by lia. rewrite Hm. field. apply (n_not_0 (2 * Z.of_nat m + 1)). lia.
Qed.

Lemma slope_ok ripple order : ripple <> 0%R -> 1 <= order -> let e2 := (Rpower 10 (Rabs ripple / 10) - 1)%R in
  (0 < e2)%R /\ (sinh (INR (Z.to_nat order) * slope (Rabs ripple) order) * sinh (INR (Z.to_nat order) * slope (Rabs ripple) order) = 1 / e2)%R.
Proof.
  intros Hr Ho e2. assert (P : (0 < e2)%R).
  { unfold e2. pose proof (Rabs_pos_lt ripple Hr) as A. assert (B : (Rpower 10 0 < Rpower 10 (Rabs ripple / 10))%R) by (apply Rpower_lt; lra). rewrite Rpower_O in B by lra. lra. }
  split; [exact P|]. unfold slope. fold e2. rewrite INR_IZR_INZ, Z2Nat.id by lia.
  replace (IZR order * (arcsinh (1 / sqrt e2) / IZR order))%R with (arcsinh (1 / sqrt e2)) by (field; apply not_0_IZR; lia).
  rewrite sinh_arcsinh. pose proof (sqrt_lt_R0 e2 P) as Q. rewrite <- (sqrt_sqrt e2) at 3 by lra. field. lra.
Qed.

Lemma chebyshev1_response fc ripple order hp : 1 <= order -> fc <> 0%R -> ripple <> 0%R ->
  let e2 := (Rpower 10 (Rabs ripple / 10) - 1)%R in
  exists F, chebyshev1_filter M T fc ripple order hp = Ok F /\ f_count F = 1 /\ f_labels F = ["Chebyshev 1"%string] /\
    (forall f, evaluable hp f -> exists z, response T junk F 0 f = Some z /\
      norm2 z = ((if Z.even order then 1 + e2 else 1) / (1 + e2 * chebyshev_polynomial (Z.to_nat order) (relative_frequency hp fc f) ^ 2))%R) /\
    (hp = true -> response T junk F 0 0%R = Some C0).
Proof.
  intros Ho Hc Hr e2. destruct (scaling_ok power modulo hp fc Hc) as (k & Ek & Hk). destruct (slope_ok ripple order Hr Ho) as [Pe He]. fold e2 in Pe, He.
  set (n := Z.to_nat order) in *. set (g := slope (Rabs ripple) order) in *.
  assert (Hg : sinh g <> 0%R).
  { apply (sinh_not_0 n). intros Q. rewrite Q in He. assert (0 < 1 / e2)%R by (apply Rdiv_lt_0_compat; lra). lra. }
  unfold chebyshev1_filter, chebyshev1. cbn [m_ops real_mathematics real_ops o_eqb o_zero o_abs]. destruct (Req_EM_T ripple 0) as [Q|_]; [contradiction|].
  change (frequency_scaling _ fc hp) with (frequency_scaling M fc hp). rewrite Ek. cbn [bind]. replace (order =? 0) with false by lia.
  change (chebyshev1_factors _ T k (Rabs ripple) order) with (chebyshev1_factors M T k (Rabs ripple) order). rewrite chebyshev1_factors_ok by auto.
  destruct (inverse_product cpower cmodulo log2_c exp2_c junk _ hp "Chebyshev 1" (chebyshev_not_nil k g order Ho) (chebyshev_steep k g order Hk Hg)) as (F & E & N & L & V & Z).
  exists F. split; [exact E|]. split; [exact N|]. split; [exact L|]. split; [|exact Z]. intros f Hf.
  pose proof (scaled_variable power modulo cpower cmodulo log2_c exp2_c hp fc f k Hc Hf Ek) as S.
  pose proof (chebyshev_norm k g order _ _ Ho Hg S) as Q. cbv zeta in Q. fold n in Q. rewrite He, cheb_at_0 in Q.
  set (x := relative_frequency hp fc f) in *.
  assert (P : (cheb n (if hp then - x else x) * cheb n (if hp then - x else x) = cheb n x * cheb n x)%R).
  { destruct hp; [|reflexivity]. apply cheb_neg. }
  rewrite P in Q. replace (Nat.even n) with (Z.even order) in Q.
  2: { unfold n. rewrite <- (Z2Nat.id order) at 1 by lia. generalize (Z.to_nat order). clear. intros n. induction n using two_steps; [reflexivity|reflexivity|].
       replace (Z.of_nat (Datatypes.S (Datatypes.S n))) with (Z.of_nat n + 2) by lia. rewrite Z.even_add. cbn [Nat.even]. rewrite <- IHn. now destruct (Z.even _). }
  set (P' := Cprod _ _) in Q. assert (U : (0 < 1 / e2)%R) by (apply Rdiv_lt_0_compat; lra).
  assert (W : (0 < 1 + e2 * cheb n x ^ 2)%R) by nra.
  assert (X : (norm2 P' = (1 + e2 * cheb n x ^ 2) / (if Z.even order then 1 + e2 else 1))%R).
  { rewrite Q. destruct (Z.even order); field; repeat split; lra. }
  assert (W' : (0 < if Z.even order then 1 + e2 else 1)%R) by (destruct (Z.even order); lra).
  assert (NZ : P' <> C0).
  { intros Z0. rewrite Z0, norm2_real in X. assert (0 < (1 + e2 * cheb n x ^ 2) / (if Z.even order then 1 + e2 else 1))%R by (now apply Rdiv_lt_0_compat). lra. }
  eexists. split; [apply V; auto; exact NZ|]. fold P'. rewrite norm2_inverse, X by exact NZ. field. split; lra.
Qed.

End Chebyshev1.
