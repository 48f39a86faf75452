(** Chebyshev polynomials and the products, of which the transfer functions of Chebyshev filters consist. *)

From Coq Require Import ZArith List Bool Lia ZifyBool Reals Lra Ring_theory Field_theory Ring Field.
From Verif.Model Require Import Py.
From Verif.Spec Require Import RealSpec ComplexSpec DftSpec RolloffSpec.
From Verif.Proofs Require Import PyFacts ComplexFacts DftFacts RootsFacts ButterworthFacts BesselFacts.
Import ListNotations.
Open Scope R_scope.

(** ** Factorisations of [1 + y^n] for complex numbers *)

Definition Ccos (t : R) : C := C_of_R (2 * cos t).

Lemma paired_Cprod f lo m : (0 <= m)%Z -> Cprod (zseq lo (m + m)) f = Cprod (zseq lo m) (fun k => Cmul (f k) (f (2 * lo + 2 * m - 1 - k)%Z)).
Proof. intros Hm. rewrite zseq_app, Cprod_app, mirrored, Cprod_map, Cprod_rev, <- Cprod_mul by lia. reflexivity. Qed.

Lemma shifted_pair y t : Cmul (Csub (Cneg y) (cis t)) (Csub (Cneg y) (cis (- t))) = Cadd (Cadd (Cmul y y) (Cmul (Ccos t) y)) C1.
Proof.
  unfold cis. rewrite cos_neg, sin_neg. pose proof (sin2_cos2 t) as H. unfold Rsqr in H. apply C_ext; cbn; [|ring]. replace 1 with (sin t * sin t + cos t * cos t). ring.
Qed.

Lemma Cpow_neg_even y m : Cpow (Cneg y) (2 * m) = Cpow y (2 * m).
Proof.
  replace (Cneg y) with (Cmul (C_of_R (-1)) y) by (apply C_ext; cbn; ring). rewrite Cpow_mul, Cpow_real, pow_1_even. ring.
Qed.

Lemma even_Cprod m y : (0 < m)%nat ->
  Cprod (zseq 0 (Z.of_nat m)) (fun k => Cadd (Cadd (Cmul y y) (Cmul (Ccos (IZR (2 * k + 1) * PI / IZR (2 * Z.of_nat m))) y)) C1) = Cadd C1 (Cpow y (2 * m)).
Proof.
  intros Hm. set (n := (2 * Z.of_nat m)%Z). assert (Hn : IZR n <> 0) by (apply (n_not_0 n); unfold n; lia).
  assert (N : cis (PI / IZR n) <> C0).
  { intros E. apply (f_equal norm2) in E. unfold norm2, cis, C_of_R in E. cbn [re im fst snd] in E. pose proof (sin2_cos2 (PI / IZR n)) as H. unfold Rsqr in H. lra. }
  pose proof (factorisation (2 * m) (Cneg y) (cis (PI / IZR n)) ltac:(lia) N) as F.
  rewrite Cpow_cis, Cpow_neg_even, mult_INR in F.
  replace (INR 2 * INR m * (PI / IZR n)) with PI in F.
  2: { rewrite INR_IZR_INZ, (INR_IZR_INZ m). unfold n. rewrite mult_IZR. change (Z.of_nat 2) with 2%Z. field. apply (n_not_0 (Z.of_nat m)). lia. }
  rewrite cis_PI in F. replace (Cadd C1 (Cpow y (2 * m))) with (Csub (Cpow y (2 * m)) (C_of_R (-1))) by (generalize (Cpow y (2 * m)); intros; apply C_ext; cbn; ring).
  rewrite <- F. clear F. replace (Z.of_nat (2 * m)) with n by (unfold n; lia). replace (zseq 0 n) with (zseq 0 (Z.of_nat m + Z.of_nat m)) by (f_equal; unfold n; lia).
  assert (A : forall k, Cmul (cis (PI / IZR n)) (root n k) = cis (IZR (2 * k + 1) * PI / IZR n)).
  { intros k. rewrite root_cis, <- cis_add by (unfold n; lia). f_equal. rewrite plus_IZR, mult_IZR. field. auto. }
  rewrite paired_Cprod by lia. apply Cprod_ext. intros k _. rewrite !A, <- shifted_pair. do 2 f_equal.
  rewrite <- (cis_turn (- _)). f_equal. unfold n.
  rewrite !plus_IZR, !mult_IZR, !minus_IZR, !plus_IZR, !mult_IZR. field. apply (n_not_0 (Z.of_nat m)). lia.
Qed.

Lemma odd_Cprod m y :
  Cmul (Cadd y C1) (Cprod (zseq 1 (Z.of_nat m)) (fun k => Cadd (Cadd (Cmul y y) (Cmul (Ccos (2 * (IZR k * PI / IZR (2 * Z.of_nat m + 1)))) y)) C1)) = Cadd C1 (Cpow y (2 * m + 1)).
Proof.
  set (n := (2 * Z.of_nat m + 1)%Z). assert (Hn : IZR n <> 0) by (apply (n_not_0 n); unfold n; lia).
  pose proof (factorisation (2 * m + 1) (Cneg y) C1 ltac:(lia) ltac:(intros E; injection E; lra)) as F.
  rewrite Cpow_1 in F. rewrite Cpow_add, Cpow_neg_even in F. cbn [Cpow] in F.
  replace (Z.of_nat (2 * m + 1)) with n in F by (unfold n; lia). replace (zseq 0 n) with (zseq 0 (1 + (Z.of_nat m + Z.of_nat m))) in F by (f_equal; unfold n; lia).
  rewrite zseq_app, Cprod_app in F by lia. change (zseq 0 1) with [0%Z] in F. rewrite Cprod_cons, Cprod_nil in F.
  rewrite (Cprod_ext (zseq (0 + 1) _) _ (fun k => Csub (Cneg y) (root n k))) in F by (intros; f_equal; ring).
  rewrite paired_Cprod in F by lia. rewrite root_0 in F by (unfold n; lia).
  rewrite (Cprod_ext _ _ (fun k => Cadd (Cadd (Cmul y y) (Cmul (Ccos (2 * (IZR k * PI / IZR n))) y)) C1)) in F.
  - rewrite Cpow_add. cbn [Cpow]. set (P := Cprod _ _) in *. change (0 + 1)%Z with 1%Z in F. fold P in F. set (w := Cpow y (2 * m)) in *.
    transitivity (Cneg (Cmul (Cmul (Csub (Cneg y) (Cmul C1 C1)) C1) P)); [ring|]. rewrite F. ring.
  - intros k _. rewrite <- shifted_pair. replace (2 * (0 + 1) + 2 * Z.of_nat m - 1 - k)%Z with (n + - k)%Z by (unfold n; lia).
    rewrite root_add, root_n, root_neg, root_cis by (unfold n; lia).
    replace (2 * PI * IZR k / IZR n) with (2 * (IZR k * PI / IZR n)) by (field; auto). do 2 f_equal.
    unfold cis. rewrite cos_neg, sin_neg. apply C_ext; cbn; ring.
Qed.

(** ** Chebyshev polynomials *)

Notation cheb := chebyshev_polynomial.
Lemma cheb_0 x : cheb 0 x = 1.
Proof. reflexivity. Qed.
Lemma cheb_1 x : cheb 1 x = x.
Proof. reflexivity. Qed.
Lemma cheb_S n x : cheb (S (S n)) x = 2 * x * cheb (S n) x - cheb n x.
Proof. unfold cheb. cbn [chebyshev_polynomials]. destruct (chebyshev_polynomials n x) as [p q]. reflexivity. Qed.

Lemma cheb_zeta z x n : z <> C0 -> Cadd z (Cinv z) = C_of_R (2 * x) -> Cmul (C_of_R 2) (C_of_R (cheb n x)) = Cadd (Cpow z n) (Cpow (Cinv z) n).
Proof.
  intros Hz H. induction n using two_steps.
  - rewrite cheb_0. cbn [Cpow]. apply C_ext; cbn; ring.
  - rewrite cheb_1. cbn [Cpow]. transitivity (Cadd z (Cinv z)); [rewrite H; apply C_ext; cbn; ring|ring].
  - rewrite cheb_S. transitivity (Csub (Cmul (C_of_R (2 * x)) (Cmul (C_of_R 2) (C_of_R (cheb (S n) x)))) (Cmul (C_of_R 2) (C_of_R (cheb n x)))).
    + generalize (cheb (S n) x), (cheb n x). intros. apply C_ext; cbn; ring.
    + rewrite IHn, IHn0, <- H. cbn [Cpow]. replace (Cmul (Cadd z (Cinv z)) (Cadd (Cmul z (Cpow z n)) (Cmul (Cinv z) (Cpow (Cinv z) n)))) with
        (Cadd (Cadd (Cmul z (Cmul z (Cpow z n))) (Cmul (Cinv z) (Cmul (Cinv z) (Cpow (Cinv z) n)))) (Cmul (Cmul z (Cinv z)) (Cadd (Cpow z n) (Cpow (Cinv z) n)))) by ring.
      replace (Cmul z (Cinv z)) with C1 by (field; auto). ring.
Qed.

Lemma zeta_exists x : exists z, z <> C0 /\ Cadd z (Cinv z) = C_of_R (2 * x).
Proof.
  destruct (Rle_dec (x * x) 1) as [H|H].
  - assert (E : sqrt (1 - x * x) * sqrt (1 - x * x) = 1 - x * x) by (apply sqrt_sqrt; lra). set (y := sqrt (1 - x * x)) in *.
    assert (N : (x * x + y * y = 1)) by lra. exists (x, y). split.
    + intros Q. apply (f_equal norm2) in Q. unfold norm2, C_of_R in Q. cbn [re im fst snd] in Q. lra.
    + unfold Cinv, norm2. cbn [re im fst snd]. rewrite N. apply C_ext; cbn; field.
  - assert (E : sqrt (x * x - 1) * sqrt (x * x - 1) = x * x - 1) by (apply sqrt_sqrt; lra). set (y := sqrt (x * x - 1)) in *.
    assert (N : (x + y) * (x - y) = 1) by lra. assert (P : x + y <> 0) by (intros Q; rewrite Q in N; lra). exists (C_of_R (x + y)). split.
    + intros Q. injection Q as Q. contradiction.
    + apply C_ext; cbn; unfold norm2; cbn; field_simplify; auto; try nra.
      replace (2 * x) with ((x + y) + (x - y) * ((x + y) * 1) * (/ (x + y))) by (field; auto). apply (Rmult_eq_reg_r (x + y)); auto. unfold Rdiv. rewrite Rmult_assoc, Rinv_l by auto. field_simplify; auto. nra.
Qed.

(** ** The product of the magnitudes of second order polynomials *)

Definition kernel (X G c : R) : R := X * X + 2 * X * G * c + c * c + G * G - 1.

Notation C2 := (Cadd C1 C1).
Lemma C2_not_0 : C2 <> C0.
Proof. intros E. apply (f_equal re) in E. cbn in E. lra. Qed.
Lemma C2_real x : C_of_R (2 * x) = Cmul C2 (C_of_R x).
Proof. apply C_ext; cbn; ring. Qed.

Lemma kernel_term Z W X G c : Z <> C0 -> W <> C0 -> C_of_R (2 * X) = Cadd Z (Cinv Z) -> C_of_R (2 * G) = Cadd W (Cinv W) ->
  C_of_R (4 * kernel X G c) = Cdiv (Cmul (Cadd (Cadd (Cmul (Cmul Z W) (Cmul Z W)) (Cmul (C_of_R (2 * c)) (Cmul Z W))) C1)
                                         (Cadd (Cadd (Cmul (Cdiv Z W) (Cdiv Z W)) (Cmul (C_of_R (2 * c)) (Cdiv Z W))) C1)) (Cmul Z Z).
Proof.
  intros HZ HW HX HG. pose proof C2_not_0 as N. rewrite !C2_real in *. assert (EX : C_of_R X = Cdiv (Cadd Z (Cinv Z)) C2) by (rewrite <- HX; field; auto).
  assert (EG : C_of_R G = Cdiv (Cadd W (Cinv W)) C2) by (rewrite <- HG; field; auto).
  transitivity (Cmul (Cmul C2 C2) (Csub (Cadd (Cadd (Cadd (Cmul (C_of_R X) (C_of_R X)) (Cmul (Cmul (Cmul C2 (C_of_R X)) (C_of_R G)) (C_of_R c))) (Cmul (C_of_R c) (C_of_R c))) (Cmul (C_of_R G) (C_of_R G))) C1)).
  - unfold kernel. apply C_ext; cbn; ring.
  - rewrite EX, EG. field. repeat split; auto.
Qed.

Lemma kernel_first Z W X G : Z <> C0 -> W <> C0 -> C_of_R (2 * X) = Cadd Z (Cinv Z) -> C_of_R (2 * G) = Cadd W (Cinv W) ->
  C_of_R (2 * (X + G)) = Cdiv (Cmul (Cadd (Cmul Z W) C1) (Cadd (Cdiv Z W) C1)) Z.
Proof.
  intros HZ HW HX HG. transitivity (Cadd (C_of_R (2 * X)) (C_of_R (2 * G))); [apply C_ext; cbn; ring|]. rewrite HX, HG. field. auto.
Qed.

Lemma Cprod_div {Y} (l : list Y) f g : (forall y, In y l -> g y <> C0) -> Cprod l (fun y => Cdiv (f y) (g y)) = Cdiv (Cprod l f) (Cprod l g).
Proof.
  induction l as [|y l IH]; intros H; [rewrite !Cprod_nil; field; intros E; injection E; lra|].
  rewrite !Cprod_cons, IH by (intros; apply H; now right). assert (g y <> C0) by (apply H; now left).
  assert (Cprod l g <> C0) by (apply Cprod_not_0; intros; apply H; now right). field. auto.
Qed.

Lemma Rprod_scale {Y} (l : list Y) a f : Rprod l (fun y => a * f y) = a ^ List.length l * Rprod l f.
Proof. unfold Rprod. induction l as [|y l IH]; cbn [fold_right List.length pow]; [ring|]. rewrite IH. ring. Qed.
Lemma Cinv_pow z n : z <> C0 -> Cpow (Cinv z) n = Cinv (Cpow z n).
Proof.
  intros H. induction n as [|n IH]; cbn [Cpow]; [|rewrite IH; field; split; auto using Cpow_not_0]. field. intros E; injection E; lra.
Qed.

(** What the parameters have to do with each other *)
Lemma parameters y g : exists z Z W, z <> C0 /\ Z <> C0 /\ W <> C0 /\ Cadd z (Cinv z) = C_of_R (2 * y) /\ Z = Cmul z z /\ W = C_of_R (exp (2 * g)) /\
  C_of_R (2 * (2 * (y * y) - 1)) = Cadd Z (Cinv Z) /\ C_of_R (2 * cosh (2 * g)) = Cadd W (Cinv W).
Proof.
  destruct (zeta_exists y) as (z & Hz & E). exists z, (Cmul z z), (C_of_R (exp (2 * g))). pose proof (exp_pos (2 * g)) as P.
  assert (HZ : Cmul z z <> C0) by (intros Q; apply C_integral in Q as [Q|Q]; contradiction).
  assert (HW : C_of_R (exp (2 * g)) <> C0) by (intros Q; injection Q; lra).
  repeat match goal with |- _ /\ _ => split end; auto.
  - transitivity (Csub (Cmul (C_of_R (2 * y)) (C_of_R (2 * y))) C2); [apply C_ext; cbn; ring|]. rewrite <- E. field. auto.
  - unfold cosh. rewrite exp_Ropp. apply C_ext; cbn; unfold norm2; cbn; field; lra.
Qed.

(** [(1 + P^n) (1 + Q^n) / Z^n] *)
Lemma kernel_total z Z W y g n : z <> C0 -> Z <> C0 -> W <> C0 -> Cadd z (Cinv z) = C_of_R (2 * y) -> Z = Cmul z z -> W = C_of_R (exp (2 * g)) ->
  Cdiv (Cmul (Cadd C1 (Cpow (Cmul Z W) n)) (Cadd C1 (Cpow (Cdiv Z W) n))) (Cpow Z n) = C_of_R (4 * (cheb n y * cheb n y + sinh (INR n * g) * sinh (INR n * g))).
Proof.
  intros Hz HZ HW E EZ EW. unfold Cdiv at 2. rewrite !Cpow_mul, (Cinv_pow W) by auto.
  assert (NZ : Cpow Z n <> C0) by (now apply Cpow_not_0). assert (NW : Cpow W n <> C0) by (now apply Cpow_not_0).
  transitivity (Cadd (Cadd (Cpow Z n) (Cinv (Cpow Z n))) (Cadd (Cpow W n) (Cinv (Cpow W n)))); [field; auto|].
  replace (Cadd (Cpow Z n) (Cinv (Cpow Z n))) with (C_of_R (4 * (cheb n y * cheb n y) - 2)).
  - rewrite EW, Cpow_real. replace (exp (2 * g) ^ n) with (exp (2 * (INR n * g))).
    2: { clear. induction n as [|n IH]; [cbn [pow INR]; rewrite Rmult_0_l, Rmult_0_r; apply exp_0|]. cbn [pow]. rewrite <- IH, <- exp_plus, S_INR. f_equal. ring. }
    set (t := INR n * g). assert (D : exp (2 * t) = exp t * exp t) by (rewrite <- exp_plus; f_equal; ring). pose proof (exp_pos t) as P.
    unfold sinh. rewrite exp_Ropp, D. apply C_ext; cbn; unfold norm2; cbn; field; nra.
  - pose proof (cheb_zeta z y n Hz E) as Q. rewrite EZ, Cpow_mul. rewrite Cinv_pow in Q by auto. assert (Nz : Cpow z n <> C0) by (now apply Cpow_not_0).
    transitivity (Csub (Cmul (Cmul (C_of_R 2) (C_of_R (cheb n y))) (Cmul (C_of_R 2) (C_of_R (cheb n y)))) C2); [apply C_ext; cbn; ring|]. rewrite Q. field. auto.
Qed.

Lemma length_zseq lo n : List.length (zseq lo (Z.of_nat n)) = n.
Proof. unfold zseq. now rewrite map_length, seq_length, Nat2Z.id. Qed.

Lemma even_kernel m y g : (0 < m)%nat ->
  4 ^ m * Rprod (zseq 0 (Z.of_nat m)) (fun k => kernel (2 * (y * y) - 1) (cosh (2 * g)) (cos (IZR (2 * k + 1) * PI / IZR (2 * Z.of_nat m)))) =
  4 * (cheb (2 * m) y * cheb (2 * m) y + sinh (INR (2 * m) * g) * sinh (INR (2 * m) * g)).
Proof.
  intros Hm. destruct (parameters y g) as (z & Z & W & Hz & HZ & HW & E & EZ & EW & EX & EG).
  match goal with |- ?l = ?r => enough (Q : C_of_R l = C_of_R r) by (now injection Q) end.
  rewrite <- (kernel_total z Z W y g (2 * m)) by auto.
  rewrite <- (length_zseq 0 m) at 1. rewrite <- Rprod_scale, <- Cprod_real.
  rewrite (Cprod_ext _ _ (fun k => Cdiv (Cmul (Cadd (Cadd (Cmul (Cmul Z W) (Cmul Z W)) (Cmul (Ccos (IZR (2 * k + 1) * PI / IZR (2 * Z.of_nat m))) (Cmul Z W))) C1)
                                         (Cadd (Cadd (Cmul (Cdiv Z W) (Cdiv Z W)) (Cmul (Ccos (IZR (2 * k + 1) * PI / IZR (2 * Z.of_nat m))) (Cdiv Z W))) C1)) (Cmul Z Z)))
    by (intros k _; apply kernel_term; auto).
  assert (N : Cmul Z Z <> C0) by (intros Q; apply C_integral in Q as [Q|Q]; contradiction).
  rewrite Cprod_div by auto. rewrite Cprod_mul, !even_Cprod, Cprod_const, length_zseq by auto. f_equal.
  rewrite Cpow_mul, <- Cpow_add. f_equal. lia.
Qed.

Lemma odd_kernel m y g :
  2 * 4 ^ m * ((2 * (y * y) - 1 + cosh (2 * g)) *
    Rprod (zseq 1 (Z.of_nat m)) (fun k => kernel (2 * (y * y) - 1) (cosh (2 * g)) (cos (2 * (IZR k * PI / IZR (2 * Z.of_nat m + 1)))))) =
  4 * (cheb (2 * m + 1) y * cheb (2 * m + 1) y + sinh (INR (2 * m + 1) * g) * sinh (INR (2 * m + 1) * g)).
Proof.
  destruct (parameters y g) as (z & Z & W & Hz & HZ & HW & E & EZ & EW & EX & EG).
  match goal with |- ?l = ?r => enough (Q : C_of_R l = C_of_R r) by (now injection Q) end.
  rewrite <- (kernel_total z Z W y g (2 * m + 1)) by auto.
  match goal with |- C_of_R (2 * 4 ^ m * (?x * ?p)) = _ => transitivity (Cmul (C_of_R (2 * x)) (C_of_R (4 ^ List.length (zseq 1 (Z.of_nat m)) * p))) end.
  { rewrite length_zseq. match goal with |- context [Rprod ?l ?f] => generalize (Rprod l f) end. intros p. apply C_ext; cbn -[pow]; ring. }
  rewrite (kernel_first Z W) by auto. rewrite <- Rprod_scale, <- Cprod_real.
  rewrite (Cprod_ext _ _ (fun k => Cdiv (Cmul (Cadd (Cadd (Cmul (Cmul Z W) (Cmul Z W)) (Cmul (Ccos (2 * (IZR k * PI / IZR (2 * Z.of_nat m + 1)))) (Cmul Z W))) C1)
                                         (Cadd (Cadd (Cmul (Cdiv Z W) (Cdiv Z W)) (Cmul (Ccos (2 * (IZR k * PI / IZR (2 * Z.of_nat m + 1)))) (Cdiv Z W))) C1)) (Cmul Z Z)))
    by (intros k _; apply kernel_term; auto).
  assert (N : Cmul Z Z <> C0) by (intros Q; apply C_integral in Q as [Q|Q]; contradiction).
  rewrite Cprod_div by auto. rewrite Cprod_mul, Cprod_const, length_zseq.
  pose proof (odd_Cprod m (Cmul Z W)) as O1. pose proof (odd_Cprod m (Cdiv Z W)) as O2. rewrite <- O1, <- O2. rewrite Cpow_mul, <- Cpow_add.
  replace (Cpow Z (2 * m + 1)) with (Cmul Z (Cpow Z (m + m))) by (replace (2 * m + 1)%nat with (S (m + m)) by lia; reflexivity).
  assert (NP : Cpow Z (m + m) <> C0) by (now apply Cpow_not_0). clear O1 O2. generalize (Cprod (zseq 1 (Z.of_nat m))). intros P. field. auto.
Qed.
