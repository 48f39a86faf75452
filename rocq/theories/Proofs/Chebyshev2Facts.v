(** Chebyshev filters of type 2. *)

From Coq Require Import String ZArith List Bool Lia ZifyBool Reals Lra Ring_theory Field_theory Ring Field.
From Verif.Model Require Import Py Functions Signal Terms Filter Fourier Rolloff.
From Verif.Spec Require Import TermsSpec FilterSpec RealSpec ComplexSpec DftSpec RolloffSpec.
From Verif.Proofs Require Import PyFacts TermFacts TermOperators TermFuel FilterFacts FilterOperators ComplexFacts DftFacts RootsFacts RolloffFacts ButterworthFacts BesselFacts ChebyshevFacts Chebyshev1Facts.
Import ListNotations.
Open Scope Z_scope.
Ltac Zify.zify_post_hook ::= idtac.

Section Chebyshev2.
Variable power modulo : R -> R -> R.
Variable cpower cmodulo : C -> C -> C.
Variable log2_c exp2_c : C -> C.
Variable junk : C.
Notation T := (complex_arithmetic cpower cmodulo log2_c exp2_c).
Notation EA := (complex_exact cpower cmodulo log2_c exp2_c).
Notation M := (real_mathematics power modulo).
Notation term := (term C R).

(** ** The coefficients *)

Definition slope2 (ripple : R) (order : Z) : R :=
  (arcsinh (sqrt (Rpower 10 (ripple / 20) * Rpower 10 (ripple / 20) - 1)) / IZR order)%R.
Definition zeros (k t : R) : list C := quadratic k (sin t * sin t) 0.
Definition poles (k g t : R) : list C := quadratic k (cosh g * cosh g - cos t * cos t) (2 * sinh g * cos t).
Definition second_order (k g t : R) : term := Quotient (Polynomial (zeros k t) false) (Polynomial (poles k g t) false) false.
Definition first_order (k g : R) : term := Quotient (Constant C1) (Polynomial (linear k (sinh g)) false) false.

Lemma steep_zeros k t : k <> 0%R -> sin t <> 0%R -> steep (zeros k t).
Proof. intros Hk Ht. apply steep_quadratic; auto. Qed.
Lemma steep_poles k g t : k <> 0%R -> sinh g <> 0%R -> steep (poles k g t).
Proof. intros Hk Hg. apply steep_quadratic; auto. pose proof (axis_pos g t Hg). lra. Qed.

(** What is done for each pair of poles *)
Definition section_term (k g pb2o : R) (i : Z) : result term :=
      let sinhg := sinh g in
      let coshgj := (0, cosh g)%R in
      let w := Cneg (Cexp (0, IZR i * pb2o)%R) in
      let p := Cdiv (Cdiv (C_of_R 1) (Cadd (C_of_R (sinhg * re w)) (Cmul coshgj (C_of_R (im w))))) (C_of_R k) in
      let a0 := (modulus p * modulus p)%R in
      let a1 := (IZR (-2) * re p / a0)%R in
      let a2 := (IZR 1 / a0)%R in
      let z := Cdiv (Cdiv (0, IZR 1)%R (C_of_R (sin (IZR i * pb2o)))) (C_of_R k) in
      let b0 := (modulus z * modulus z)%R in
      let b1 := (IZR 2 * re z / b0)%R in
      let b2 := (IZR 1 / b0)%R in
      div T (polynomial_ M T [b2; b1; 1]%R false) (polynomial_ M T [a2; a1; 1]%R false).

Lemma norm2_div z w : w <> C0 -> norm2 (Cdiv z w) = (norm2 z / norm2 w)%R.
Proof. intros H. unfold Cdiv. rewrite norm2_mul, norm2_inverse by exact H. unfold Rdiv. ring. Qed.

Lemma section_ok k g pb2o i : k <> 0%R -> sinh g <> 0%R -> sin (IZR i * pb2o) <> 0%R ->
  section_term k g pb2o i = Ok (second_order k g (IZR i * pb2o)).
Proof.
  intros Hk Hg Hs. unfold section_term. set (t := (IZR i * pb2o)%R) in *. pose proof (axis_pos g t Hg) as P. pose proof (sin2_cos2 t) as SC. unfold Rsqr in SC.
  assert (Ew : Cneg (Cexp (0, t)%R) = (- cos t, - sin t)%R) by (apply C_ext; cbn; rewrite exp_0; ring). rewrite Ew. cbn [re im fst snd].
  set (q := Cadd (C_of_R (sinh g * - cos t)) (Cmul (0, cosh g)%R (C_of_R (- sin t)))).
  assert (Eq : q = (- (sinh g * cos t), - (cosh g * sin t))%R) by (unfold q; apply C_ext; cbn; ring).
  assert (Nq : norm2 q = (cosh g * cosh g - cos t * cos t)%R).
  { rewrite Eq. unfold norm2. cbn [re im fst snd]. pose proof (cosh_sinh g) as H. replace (- (sinh g * cos t) * - (sinh g * cos t) + - (cosh g * sin t) * - (cosh g * sin t))%R
      with ((sinh g * sinh g) * (cos t * cos t) + (cosh g * cosh g) * (sin t * sin t))%R by ring.
    replace (sinh g * sinh g)%R with (cosh g * cosh g - 1)%R by lra. replace (sin t * sin t)%R with (1 - cos t * cos t)%R by lra. ring. }
  assert (Hq : q <> C0) by (intros E; rewrite E, norm2_real in Nq; lra).
  assert (Hk' : C_of_R k <> C0) by (intros E; injection E as E; contradiction).
  assert (Hs' : C_of_R (sin t) <> C0) by (intros E; injection E as E; contradiction).
  set (p := Cdiv (Cdiv (C_of_R 1) q) (C_of_R k)).
  assert (Np : norm2 p = (1 / (norm2 q * (k * k)))%R) by (unfold p; rewrite !norm2_div, !norm2_real by auto; field; split; [auto|lra]).
  assert (Rp : re p = (re q / (norm2 q * k))%R).
  { unfold p. cbn [re Cdiv Cmul Cinv C_of_R fst snd im]. rewrite norm2_real. cbn [re im fst snd]. field. split; [auto|lra]. }
  set (z := Cdiv (Cdiv (0, 1)%R (C_of_R (sin t))) (C_of_R k)).
  assert (Nz : norm2 z = (1 / ((sin t * sin t) * (k * k)))%R).
  { unfold z. rewrite !norm2_div, !norm2_real by auto. unfold norm2. cbn [re im fst snd]. field. auto. }
  assert (Rz : re z = 0%R) by (unfold z; cbn [re Cdiv Cmul Cinv C_of_R fst snd im]; rewrite !norm2_real; cbn [re im fst snd]; field; auto).
  rewrite !modulus_sqr, Np, Nz, Rp, Rz, Nq.
  replace (IZR 1 / (1 / (sin t * sin t * (k * k))))%R with (sin t * sin t * (k * k))%R by (field; auto).
  replace (IZR 2 * 0 / (1 / (sin t * sin t * (k * k))))%R with (0 * k)%R by (field; auto).
  replace (IZR 1 / (1 / ((cosh g * cosh g - cos t * cos t) * (k * k))))%R with ((cosh g * cosh g - cos t * cos t) * (k * k))%R by (field; split; [auto|lra]).
  replace (IZR (-2) * (re q / ((cosh g * cosh g - cos t * cos t) * k)) / (1 / ((cosh g * cosh g - cos t * cos t) * (k * k))))%R with (2 * sinh g * cos t * k)%R
    by (rewrite Eq; cbn [re fst]; field; split; [auto|lra]).
  unfold polynomial_.
  change (map (fun x => m_complex M x (o_zero (m_ops M))) [sin t * sin t * (k * k); 0 * k; 1]%R) with (zeros k t).
  change (map (fun x => m_complex M x (o_zero (m_ops M))) [(cosh g * cosh g - cos t * cos t) * (k * k); 2 * sinh g * cos t * k; 1]%R) with (poles k g t).
  rewrite !factory_steep by (auto using steep_zeros, steep_poles). reflexivity.
Qed.

Definition chebyshev2_terms (k g : R) (order : Z) : list term :=
  if order mod 2 =? 0 then map (fun i => second_order k g (IZR (1 + i * 2) * (PI / IZR (2 * order)))) (zseq 0 (order / 2))
  else first_order k g :: map (fun i => second_order k g (IZR (2 + i * 2) * (PI / IZR (2 * order)))) (zseq 0 (order / 2)).

Lemma angle_sin i order : 0 < i < 2 * order -> sin (IZR i * (PI / IZR (2 * order))) <> 0%R.
Proof.
  intros [H1 H2]. assert (O : (0 < IZR (2 * order))%R) by (apply (IZR_lt 0); lia). assert (I : (0 < IZR i)%R) by now apply (IZR_lt 0).
  assert (I2 : (IZR i < IZR (2 * order))%R) by now apply IZR_lt. pose proof PI_RGT_0 as P.
  enough (0 < sin (IZR i * (PI / IZR (2 * order))))%R by lra. apply sin_gt_0.
  - apply Rmult_lt_0_compat; auto. now apply Rdiv_lt_0_compat.
  - replace (IZR i * (PI / IZR (2 * order)))%R with (PI * (IZR i / IZR (2 * order)))%R by (field; lra). rewrite <- (Rmult_1_r PI) at 2. apply Rmult_lt_compat_l; auto.
    apply (Rmult_lt_reg_r (IZR (2 * order))); auto. unfold Rdiv. rewrite Rmult_assoc, Rinv_l, Rmult_1_l, Rmult_1_r by lra. exact I2.
Qed.
Lemma angle_complement i order : 0 < order -> (IZR (order - i) * (PI / IZR (2 * order)) = PI / 2 - IZR i * (PI / IZR (2 * order)))%R.
Proof. intros H. rewrite minus_IZR, mult_IZR. field. apply not_0_IZR. lia. Qed.
Lemma angle_cos i order : 0 < i < order -> cos (IZR i * (PI / IZR (2 * order))) <> 0%R.
Proof.
  intros H. rewrite <- (sin_shift), <- angle_complement by lia. apply angle_sin. lia.
Qed.

Lemma chebyshev2_factors_ok k ripple order : 1 <= order -> k <> 0%R -> sinh (slope2 ripple order) <> 0%R ->
  chebyshev2_factors M T k ripple order = Ok (chebyshev2_terms k (slope2 ripple order) order).
Proof.
  intros Ho Hk Hg. set (g := slope2 ripple order) in *. set (pb2o := (PI / IZR (2 * order))%R).
  transitivity (first <- (if order mod 2 =? 0 then Ok [] else t <- div T (Constant C1) (polynomial_ M T [sinh g * k; 1]%R false) ;; Ok [t]) ;;
    indices <- range (if order mod 2 =? 0 then 1 else 2) order 2 ;; rest <- sequence (map (section_term k g pb2o) indices) ;; Ok (first ++ rest)); [reflexivity|].
  pose proof (Z.div_mod order 2 ltac:(lia)) as D. pose proof (Z.mod_pos_bound order 2 ltac:(lia)) as B.
  assert (S : forall start, 0 < start -> start + 2 * (order / 2) <= order + 1 ->
    sequence (map (section_term k g pb2o) (map (fun i => start + i * 2) (zseq 0 (order / 2)))) = Ok (map (fun i => second_order k g (IZR (start + i * 2) * pb2o)) (zseq 0 (order / 2)))).
  { intros start H1 H2. rewrite map_map. assert (E : forall l, (forall i, In i l -> 0 <= i < order / 2) ->
      sequence (map (fun i => section_term k g pb2o (start + i * 2)) l) = Ok (map (fun i => second_order k g (IZR (start + i * 2) * pb2o)) l)).
    { induction l as [|i l IH]; intros H; [reflexivity|]. cbn [map sequence]. assert (0 <= i < order / 2) by (apply H; now left).
      rewrite section_ok, IH; auto; [intros; apply H; now right|]. apply angle_sin. lia. }
    apply E. intros i Hi. now apply in_zseq in Hi. }
  unfold chebyshev2_terms, range. change (2 =? 0) with false. change (0 <? 2) with true. cbv iota. fold pb2o.
  destruct (order mod 2 =? 0) eqn:P; cbn [bind].
  - replace ((order - 1 + 2 - 1) / 2) with (order / 2) by (f_equal; lia). rewrite S by lia. reflexivity.
  - unfold polynomial_. change (map (fun x => m_complex M x (o_zero (m_ops M))) [sinh g * k; 1]%R) with (linear k (sinh g)). rewrite factory_steep by now apply steep_linear.
    replace (div T (Constant C1) (Polynomial (linear k (sinh g)) false)) with (Ok (first_order k g)).
    + cbn [bind]. replace ((order - 2 + 2 - 1) / 2) with (order / 2) by (apply (Z.div_unique _ _ _ 0); lia). rewrite S by lia. reflexivity.
    + unfold div. replace (is_null T C1) with false by (symmetry; apply (is_null_neq T EA); intros E; injection E; lra). reflexivity.
Qed.

(** ** Their values *)

Definition pole_value (g t y : R) : C := (1 - (cosh g * cosh g - cos t * cos t) * y * y, 2 * sinh g * cos t * y)%R.
Definition second_value (g t y : R) : C := Cdiv (1 - sin t * sin t * y * y, 0 * y)%R (pole_value g t y).
Definition first_value (g y : R) : C := Cdiv C1 (1, sinh g * y)%R.

Lemma pole_not_0 g t y : sinh g <> 0%R -> cos t <> 0%R -> pole_value g t y <> C0.
Proof.
  intros Hg Ht E. injection E as E1 E2. apply Rmult_integral in E2 as [E2|E2].
  - apply Rmult_integral in E2 as [E2|E2]; [|contradiction]. apply Rmult_integral in E2 as [E2|E2]; [lra|contradiction].
  - rewrite E2 in E1. lra.
Qed.

Lemma quotient_value_ok u v : v <> C0 -> quotient T (Some u) (Some v) = Some (Cdiv u v).
Proof. intros H. cbn [quotient]. replace (o_eqb (k_ops T) v _) with false; [reflexivity|]. symmetry. now apply (is_null_neq T EA). Qed.

Lemma second_ok k g t y f s : sinh g <> 0%R -> cos t <> 0%R -> Cmul (C_of_R k) s = (0, y)%R -> TermsSpec.value T f s (second_order k g t) = Some (second_value g t y).
Proof.
  intros Hg Ht S. unfold second_order. cbn [TermsSpec.value transform]. unfold zeros, poles, quadratic. rewrite !(quadratic_value cpower cmodulo log2_c exp2_c _ _ y k s S).
  rewrite quotient_value_ok by now apply pole_not_0. reflexivity.
Qed.
Lemma first_ok k g y f s : Cmul (C_of_R k) s = (0, y)%R -> TermsSpec.value T f s (first_order k g) = Some (first_value g y).
Proof.
  intros S. unfold first_order. cbn [TermsSpec.value transform]. unfold linear. rewrite (linear_value cpower cmodulo log2_c exp2_c _ y k s S).
  rewrite quotient_value_ok; [reflexivity|]. intros E. injection E. lra.
Qed.

Definition chebyshev2_value (g : R) (order : Z) (y : R) : C :=
  if order mod 2 =? 0 then Cprod (zseq 0 (order / 2)) (fun i => second_value g (IZR (1 + i * 2) * (PI / IZR (2 * order))) y)
  else Cmul (first_value g y) (Cprod (zseq 0 (order / 2)) (fun i => second_value g (IZR (2 + i * 2) * (PI / IZR (2 * order))) y)).

Lemma vprod_map f s {Y} (l : list Y) (h : Y -> term) v : (forall i, In i l -> TermsSpec.value T f s (h i) = Some (v i)) -> vprod T f s (map h l) = Some (Cprod l v).
Proof.
  induction l as [|i l IH]; intros H; [reflexivity|]. cbn [map]. rewrite vprod_cons, IH by (intros; apply H; now right). now rewrite H by now left.
Qed.

Lemma chebyshev2_terms_value k g order y f s : 1 <= order -> sinh g <> 0%R -> Cmul (C_of_R k) s = (0, y)%R -> vprod T f s (chebyshev2_terms k g order) = Some (chebyshev2_value g order y).
Proof.
  intros Ho Hg S. pose proof (Z.div_mod order 2 ltac:(lia)) as D. pose proof (Z.mod_pos_bound order 2 ltac:(lia)) as B.
  unfold chebyshev2_terms, chebyshev2_value. destruct (order mod 2 =? 0) eqn:P.
  - apply vprod_map. intros i Hi. apply in_zseq in Hi. apply second_ok; auto. apply angle_cos. lia.
  - rewrite vprod_cons, (first_ok _ _ y) by auto. erewrite vprod_map; [reflexivity|]. intros i Hi. apply in_zseq in Hi. apply second_ok; auto. apply angle_cos. lia.
Qed.

Lemma chebyshev2_terms_regular kd k g order : k <> 0%R -> Forall (regular kd) (chebyshev2_terms k g order).
Proof.
  intros Hk. assert (P : forall c, c <> [] -> regular kd (Polynomial c false : term)).
  { intros c H. apply regular_good, good_polynomial_okay; auto. apply allowed_okay. now destruct kd. }
  assert (Q : forall a b, regular kd a -> regular kd b -> regular kd (Quotient a b false : term)).
  { intros a b H1 H2. apply regular_good, good_quotient_okay; [apply allowed_okay; now destruct kd|now apply regular_good|now apply regular_good]. }
  assert (L : forall (l : list Z) h, Forall (regular kd) (map (fun i => second_order k g (h i)) l)).
  { intros l h. apply Forall_forall. intros t H. apply in_map_iff in H as (i & <- & _). apply Q; apply P; discriminate. }
  unfold chebyshev2_terms. destruct (order mod 2 =? 0); [apply L|]. constructor; [|apply L]. apply Q; [|apply P; discriminate]. apply regular_good, good_constant.
Qed.

(** ** The magnitude *)

Lemma second_norm g t v : v <> 0%R -> sinh g <> 0%R -> cos t <> 0%R ->
  norm2 (second_value g t (1 / v)) = (kernel (2 * (v * v) - 1) (cosh (2 * 0)) (cos (2 * t)) / kernel (2 * (v * v) - 1) (cosh (2 * g)) (cos (2 * t)))%R /\
  kernel (2 * (v * v) - 1) (cosh (2 * g)) (cos (2 * t)) <> 0%R.
Proof.
  intros Hv Hg Ht. unfold second_value. pose proof (pole_not_0 g t (1 / v) Hg Ht) as N. rewrite norm2_div by exact N.
  pose proof (quadratic_kernel g t v) as K. pose proof (quadratic_kernel 0 t v) as K0. rewrite cosh_0, sinh_0 in K0.
  assert (NP : norm2 (pole_value g t (1 / v)) <> 0%R) by (now apply norm2_pos in N; lra).
  pose proof (sin2_cos2 t) as SC. unfold Rsqr in SC.
  assert (E : (norm2 (pole_value g t (1 / v)) = kernel (2 * (v * v) - 1) (cosh (2 * g)) (cos (2 * t)) / 4 / (v * v * (v * v)))%R).
  { rewrite <- K. unfold pole_value, norm2. cbn [re im fst snd]. field. exact Hv. }
  assert (E0 : (norm2 (1 - sin t * sin t * (1 / v) * (1 / v), 0 * (1 / v))%R = kernel (2 * (v * v) - 1) (cosh (2 * 0)) (cos (2 * t)) / 4 / (v * v * (v * v)))%R).
  { rewrite <- K0. unfold norm2. cbn [re im fst snd]. replace (sin t * sin t)%R with (1 - cos t * cos t)%R by lra. field. exact Hv. }
  assert (NK : kernel (2 * (v * v) - 1) (cosh (2 * g)) (cos (2 * t)) <> 0%R).
  { intros Q. rewrite E, Q in NP. apply NP. unfold Rdiv. ring. }
  split; [|exact NK]. rewrite E, E0. field. auto.
Qed.

Lemma kernels_ratio (l : list Z) (g v : R) (h : Z -> R) : v <> 0%R -> sinh g <> 0%R -> (forall i, In i l -> cos (h i) <> 0%R) ->
  let q G := Rprod l (fun i => kernel (2 * (v * v) - 1) (cosh (2 * G)) (cos (2 * h i))) in
  norm2 (Cprod l (fun i => second_value g (h i) (1 / v))) = (q 0%R / q g)%R /\ q g <> 0%R.
Proof.
  intros Hv Hg Hc q. rewrite norm2_Cprod. unfold q.
  destruct (Rprod_div l (fun i => kernel (2 * (v * v) - 1) (cosh (2 * 0)) (cos (2 * h i))) (fun i => kernel (2 * (v * v) - 1) (cosh (2 * g)) (cos (2 * h i)))) as [E N].
  - intros i Hi. apply (second_norm g (h i) v Hv Hg (Hc i Hi)).
  - split; [|exact N]. rewrite <- E. apply Rprod_ext. intros i Hi. apply (second_norm g (h i) v Hv Hg (Hc i Hi)).
Qed.

Lemma chebyshev2_norm g order v : 1 <= order -> sinh g <> 0%R -> v <> 0%R -> let n := Z.to_nat order in
  norm2 (chebyshev2_value g order (1 / v)) = (cheb n v * cheb n v / (cheb n v * cheb n v + sinh (INR n * g) * sinh (INR n * g)))%R /\
  (cheb n v * cheb n v + sinh (INR n * g) * sinh (INR n * g) <> 0)%R.
Proof.
  intros Ho Hg Hv n. pose proof (Z.div_mod order 2 ltac:(lia)) as D. pose proof (Z.mod_pos_bound order 2 ltac:(lia)) as B. unfold chebyshev2_value.
  set (m := Z.to_nat (order / 2)). destruct (order mod 2 =? 0) eqn:P.
  - assert (Hm : order = 2 * Z.of_nat m) by (unfold m; lia). assert (Hm0 : (0 < m)%nat) by lia. replace (order / 2) with (Z.of_nat m) by (unfold m; lia).
    destruct (kernels_ratio (zseq 0 (Z.of_nat m)) g v (fun i => IZR (1 + i * 2) * (PI / IZR (2 * order)))%R Hv Hg) as [E N].
    { intros i Hi. apply in_zseq in Hi. apply angle_cos. lia. }
    rewrite E. replace n with (2 * m)%nat by (unfold n; lia). pose proof (even_kernel m v g Hm0) as K. pose proof (even_kernel m v 0 Hm0) as K0.
    assert (A : forall G, Rprod (zseq 0 (Z.of_nat m)) (fun i => kernel (2 * (v * v) - 1) (cosh (2 * G)) (cos (2 * (IZR (1 + i * 2) * (PI / IZR (2 * order)))))) =
      Rprod (zseq 0 (Z.of_nat m)) (fun k => kernel (2 * (v * v) - 1) (cosh (2 * G)) (cos (IZR (2 * k + 1) * PI / IZR (2 * Z.of_nat m))))).
    { intros G. apply Rprod_ext. intros i _. do 2 f_equal. replace (1 + i * 2) with (2 * i + 1) by lia. rewrite Hm, !mult_IZR. field. apply (n_not_0 (Z.of_nat m)). lia. }
    rewrite !A in *. rewrite (Rmult_0_r (INR (2 * m))), sinh_0 in K0. assert (N4 : (4 ^ m <> 0)%R) by (apply pow_nonzero; lra).
    set (p := Rprod _ _) in K0 |- *. set (q := Rprod _ _) in N, K |- *. set (u := (cheb (2 * m) v * cheb (2 * m) v)%R) in *. set (w := (u + sinh _ * sinh _)%R) in *.
    assert (Nw : w <> 0%R). { intros Q. rewrite Q in K. replace (4 * 0)%R with 0%R in K by ring. apply Rmult_integral in K as [?|?]; contradiction. }
    split; [|exact Nw]. replace p with (4 * u / 4 ^ m)%R by (replace (4 * u)%R with (4 * (u + 0 * 0))%R by ring; rewrite <- K0; field; auto).
    replace q with (4 * w / 4 ^ m)%R by (rewrite <- K; field; auto). field. auto.
  - assert (Hm : order = 2 * Z.of_nat m + 1) by (unfold m; lia). replace (order / 2) with (Z.of_nat m) by (unfold m; lia).
    destruct (kernels_ratio (zseq 0 (Z.of_nat m)) g v (fun i => IZR (2 + i * 2) * (PI / IZR (2 * order)))%R Hv Hg) as [E N].
    { intros i Hi. apply in_zseq in Hi. apply angle_cos. lia. }
    rewrite norm2_mul, E. replace n with (2 * m + 1)%nat by (unfold n; lia). pose proof (odd_kernel m v g) as K. pose proof (odd_kernel m v 0) as K0.
    assert (A : forall G, Rprod (zseq 0 (Z.of_nat m)) (fun i => kernel (2 * (v * v) - 1) (cosh (2 * G)) (cos (2 * (IZR (2 + i * 2) * (PI / IZR (2 * order)))))) =
      Rprod (zseq 1 (Z.of_nat m)) (fun k => kernel (2 * (v * v) - 1) (cosh (2 * G)) (cos (2 * (IZR k * PI / IZR (2 * Z.of_nat m + 1)))))).
    { intros G. rewrite (Rprod_shift 0 (Z.of_nat m) 1). apply Rprod_ext. intros i _. do 3 f_equal. rewrite Hm. replace (2 + i * 2) with (2 * (i + 1)) by lia.
      rewrite !(mult_IZR 2). field. apply (n_not_0 (2 * Z.of_nat m + 1)). lia. }
    rewrite !A in *. rewrite (Rmult_0_r (INR (2 * m + 1))), sinh_0 in K0. assert (N4 : (2 * 4 ^ m <> 0)%R) by (apply Rmult_integral_contrapositive; split; [lra|apply pow_nonzero; lra]).
    set (p := Rprod _ _) in K0 |- *. set (q := Rprod _ _) in N, K |- *. set (u := (cheb (2 * m + 1) v * cheb (2 * m + 1) v)%R) in *. set (w := (u + sinh _ * sinh _)%R) in *.
    assert (Y : forall G, (2 * (v * v) - 1 + cosh (2 * G) = 2 * (v * v + sinh G * sinh G))%R) by (intros G; rewrite cosh_double, cosh_sinh; ring). rewrite Y in K, K0. rewrite sinh_0 in K0.
    assert (NV : (v * v + sinh g * sinh g <> 0)%R) by nra.
    assert (Nw : w <> 0%R).
    { intros Q. rewrite Q in K. replace (4 * 0)%R with 0%R in K by ring. apply Rmult_integral in K as [?|K]; [contradiction|].
      apply Rmult_integral in K as [K|?]; [|contradiction]. apply NV. lra. }
    split; [|exact Nw]. unfold first_value. rewrite norm2_div, norm2_real by (intros Q; injection Q; lra).
    replace (norm2 (1, sinh g * (1 / v))%R) with ((v * v + sinh g * sinh g) / (v * v))%R by (unfold norm2; cbn [re im fst snd]; field; auto).
    transitivity ((2 * 4 ^ m * (2 * (v * v + 0 * 0) * p)) / (2 * 4 ^ m * (2 * (v * v + sinh g * sinh g) * q)))%R; [field; repeat split; auto; try lra|rewrite K, K0; field; auto].
Qed.

Lemma chebyshev2_at_0 g order : chebyshev2_value g order 0 = C1.
Proof.
  assert (U : forall t, second_value g t 0 = C1).
  { intros t. unfold second_value, pole_value. apply C_ext; cbn; unfold norm2; cbn; field; lra. }
  assert (V : first_value g 0 = C1) by (unfold first_value; apply C_ext; cbn; unfold norm2; cbn; field; lra).
  assert (L : forall (l : list Z) h, Cprod l (fun i => second_value g (h i) 0) = C1).
  { intros l h. induction l as [|i l IH]; [reflexivity|]. rewrite Cprod_cons, IH, U. ring. }
  unfold chebyshev2_value. destruct (order mod 2 =? 0); [apply L|]. rewrite L, V. ring.
Qed.

Lemma slope2_ok ripple order : ripple <> 0%R -> 1 <= order -> let a := (Rpower 10 (Rabs ripple / 10) - 1)%R in
  (0 < a)%R /\ (sinh (INR (Z.to_nat order) * slope2 (Rabs ripple) order) * sinh (INR (Z.to_nat order) * slope2 (Rabs ripple) order) = a)%R.
Proof.
  intros Hr Ho a. assert (P : (0 < a)%R) by (now apply (slope_ok ripple order)).
  split; [exact P|]. unfold slope2. rewrite INR_IZR_INZ, Z2Nat.id by lia. rewrite <- Rpower_plus. replace (Rabs ripple / 20 + Rabs ripple / 20)%R with (Rabs ripple / 10)%R by field. fold a.
  replace (IZR order * (arcsinh (sqrt a) / IZR order))%R with (arcsinh (sqrt a)) by (field; apply not_0_IZR; lia).
  rewrite sinh_arcsinh. apply sqrt_sqrt. lra.
Qed.

Lemma chebyshev2_terms_not_nil k g order : 1 <= order -> chebyshev2_terms k g order <> [].
Proof.
  intros H E. unfold chebyshev2_terms in E. destruct (order mod 2 =? 0) eqn:P; [|discriminate]. apply map_eq_nil in E.
  apply (f_equal zlen) in E. rewrite zlen_seq in E. change (zlen []) with 0 in E. pose proof (Z.div_mod order 2 ltac:(lia)). lia.
Qed.

(** ** The response of the filter *)

Lemma chebyshev2_response fc ripple order hp : 1 <= order -> fc <> 0%R -> ripple <> 0%R ->
  let a := (Rpower 10 (Rabs ripple / 10) - 1)%R in
  exists F, chebyshev2_filter M T fc ripple order hp = Ok F /\ f_count F = 1 /\ f_labels F = ["Chebyshev 2"%string] /\
    (forall f, f <> 0%R -> exists z, response T junk F 0 f = Some z /\
      let t := chebyshev_polynomial (Z.to_nat order) (relative_frequency (negb hp) fc f) in norm2 z = (t ^ 2 / (t ^ 2 + a))%R) /\
    (hp = false -> response T junk F 0 0%R = Some C1).
Proof.
  intros Ho Hc Hr a. destruct (scaling_ok power modulo hp fc Hc) as (k & Ek & Hk). destruct (slope2_ok ripple order Hr Ho) as [Pa Ha]. fold a in Pa, Ha.
  set (n := Z.to_nat order) in *. set (g := slope2 (Rabs ripple) order) in *.
  assert (Hg : sinh g <> 0%R) by (apply (sinh_not_0 n); intros Q; rewrite Q in Ha; lra).
  unfold chebyshev2_filter, chebyshev2. rewrite Ek. cbn [bind]. replace (order =? 0) with false by lia.
  change (o_abs (m_ops M) ripple) with (Rabs ripple). rewrite chebyshev2_factors_ok by auto. cbn [bind]. fold g.
  destruct (product_factory_good T EA junk (kind_of hp) (chebyshev2_terms k g order) hp (allowed_kind hp) (chebyshev2_terms_regular _ k g order Hk)) as (u & E & R & V).
  rewrite E. cbn [bind]. eexists. split; [reflexivity|]. split; [reflexivity|]. split; [reflexivity|].
  assert (X : forall f, evaluable hp f -> response T junk (rolloff_filter u "Chebyshev 2") 0 f = Some (chebyshev2_value g order (if hp then - relative_frequency hp fc f else relative_frequency hp fc f)%R)).
  { intros f Hf. pose proof (evaluable_defined cpower cmodulo log2_c exp2_c hp f Hf) as Df. pose proof (scaled_variable power modulo cpower cmodulo log2_c exp2_c hp fc f k Hc Hf Ek) as S.
    assert (W : evaluate T junk (Product (chebyshev2_terms k g order) hp) f = Some (chebyshev2_value g order (if hp then - relative_frequency hp fc f else relative_frequency hp fc f)%R)).
    { rewrite (evaluate_value T EA junk (kind_of hp)); [|apply regular_plain, regular_good, good_product_okay; [apply allowed_okay, allowed_kind|apply Forall_regular, chebyshev2_terms_regular; exact Hk]|exact Df].
      pose proof (chebyshev2_terms_value k g order _ f _ Ho Hg S) as W. pose proof (chebyshev2_terms_not_nil k g order Ho) as NN.
      cbn [TermsSpec.value transform]. destruct (chebyshev2_terms k g order); [contradiction|exact W]. }
    apply V in W; auto. unfold response. unfold evaluate in W. unfold rolloff_filter, filter_call. cbn [transfer_functions mk_filter call_channels].
    destruct (call T junk f u false false) as [r i]. exact W. }
  split.
  - intros f Hf. eexists. split; [apply X; intros _; exact Hf|]. cbv zeta. set (x := relative_frequency (negb hp) fc f) in *.
    assert (Hx : x <> 0%R). { unfold x, relative_frequency. destruct hp; cbn [negb]; unfold Rdiv; intros Q; apply Rmult_integral in Q as [Q|Q]; try contradiction; now apply Rinv_neq_0_compat in Q. }
    replace (if hp then - relative_frequency hp fc f else relative_frequency hp fc f)%R with (1 / (if hp then - x else x))%R.
    2: { unfold x, relative_frequency. destruct hp; cbn [negb]; field; auto. }
    destruct (chebyshev2_norm g order (if hp then - x else x) Ho Hg) as [Q N]; [destruct hp; lra|]. rewrite Q. fold n. rewrite Ha.
    assert (P : (cheb n (if hp then - x else x) * cheb n (if hp then - x else x) = cheb n x * cheb n x)%R) by (destruct hp; [apply cheb_neg|reflexivity]).
    rewrite P. f_equal; [|f_equal; f_equal]; ring.
  - intros ->. rewrite X by (intros Q; discriminate Q). unfold relative_frequency. replace (0 / fc)%R with 0%R by (field; auto). now rewrite chebyshev2_at_0.
Qed.

End Chebyshev2.
