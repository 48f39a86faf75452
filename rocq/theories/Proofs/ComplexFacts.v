(** The arithmetic of complex numbers is exact. *)

From Coq Require Import ZArith List Bool Lia Reals Lra Field_theory.
From Verif.Model Require Import Py Signal Terms Interpolation.
From Verif.Spec Require Import TermsSpec InterpolationSpec ComplexSpec.
From Verif.Proofs Require Import PyFacts InterpolationFacts.
Import ListNotations.
Open Scope R_scope.

Lemma C_ext (z w : C) : re z = re w -> im z = im w -> z = w.
Proof. destruct z, w; cbn. now intros -> ->. Qed.

Lemma norm2_zero z : norm2 z = 0 <-> z = (0, 0).
Proof.
  unfold norm2. split; intros H; [|subst; cbn; lra]. apply C_ext; cbn; nra.
Qed.

Lemma norm2_nonneg z : 0 <= norm2 z.
Proof. unfold norm2. nra. Qed.

Lemma norm2_pos z : z <> (0, 0) -> 0 < norm2 z.
Proof. intros H. destruct (norm2_nonneg z); auto. symmetry in H0. now apply norm2_zero in H0. Qed.

Lemma C_eqb_eq z w : C_eqb z w = true <-> z = w.
Proof.
  unfold C_eqb. rewrite andb_true_iff, !R_eqb_eq. split; [intros [? ?]; now apply C_ext|intros ->; auto].
Qed.

Lemma Cmul_inv z : z <> (0, 0) -> Cmul (Cinv z) z = (1, 0).
Proof.
  intros H. apply norm2_pos in H. assert (norm2 z <> 0) by lra.
  apply C_ext; cbn; [|field; auto]. transitivity (norm2 z / norm2 z); [unfold norm2 at 3; field; auto|field; auto].
Qed.

Lemma complex_field power modulo : let O := complex_ops power modulo in
  field_theory (o_zero O) (o_one O) (o_add O) (o_mul O) (o_sub O) (o_neg O) (o_div O) (o_div O (o_one O)) eq.
Proof.
  constructor.
  - constructor; intros; apply C_ext; cbn; ring.
  - cbn. intros H. injection H. lra.
  - intros p q. apply C_ext; cbn; ring.
  - intros p H. cbn. unfold Cdiv. replace (Cmul (1, 0) (Cinv p)) with (Cinv p); [now apply Cmul_inv|]. apply C_ext; cbn; ring.
Qed.

Lemma norm2_real x : norm2 (C_of_R x) = x * x.
Proof. unfold norm2, C_of_R. cbn. ring. Qed.

Lemma modulus_real x : 0 <= x -> modulus (C_of_R x) = x.
Proof. intros H. unfold modulus. rewrite norm2_real. now apply sqrt_square. Qed.

Lemma modulus_nonneg z : 0 <= modulus z.
Proof. apply sqrt_pos. Qed.

Lemma modulus_sqr z : modulus z * modulus z = norm2 z.
Proof. apply sqrt_sqrt, norm2_nonneg. Qed.

Lemma Cexp_neg z : Cmul (Cexp (Cneg z)) (Cexp z) = (1, 0).
Proof.
  assert (E : exp (- re z) * exp (re z) = 1) by (rewrite <- exp_plus, Rplus_opp_l; apply exp_0).
  pose proof (sin2_cos2 (im z)) as S. unfold Rsqr in S.
  apply C_ext; cbn; rewrite cos_neg, sin_neg.
  - transitivity ((exp (- re z) * exp (re z)) * (sin (im z) * sin (im z) + cos (im z) * cos (im z))); [ring|]. rewrite E, S. ring.
  - ring.
Qed.

(** ** Pointwise interpolations *)

Section Pointwise.
Context {K : Type} (O : ops K) (of_real : R -> K) (log2_k exp2_k : K -> K).
Notation N := (real_axes O of_real log2_k exp2_k).
Open Scope Z_scope.

Lemma at_support_index x xs : In x xs -> exists k, 0 <= k < zlen xs /\ forall ys, zlen ys = zlen xs -> at_support N x xs ys = zth ys k.
Proof.
  induction xs as [|a xs IH]; [intros []|]. intros H. destruct (R_eqb a x) eqn:E.
  - exists 0. split; [rewrite zlen_cons; pose proof (zlen_nonneg xs); lia|]. intros [|y ys] L; [rewrite zlen_cons in L; pose proof (zlen_nonneg xs); change (zlen []) with 0 in L; lia|].
    cbn [at_support]. change (a_eqb N a x) with (R_eqb a x). now rewrite E.
  - destruct H as [->|H]; [rewrite (proj2 (R_eqb_eq x x) eq_refl) in E; discriminate|]. destruct (IH H) as (k & B & V). exists (k + 1).
    split; [rewrite zlen_cons; lia|]. intros [|y ys] L; [rewrite zlen_cons in L; pose proof (zlen_nonneg xs); change (zlen []) with 0 in L; lia|].
    cbn [at_support]. change (a_eqb N a x) with (R_eqb a x). rewrite E. rewrite V by (rewrite !zlen_cons in L; lia).
    rewrite zth_cons. destruct (k + 1 =? 0) eqn:Z; [lia|]. f_equal. lia.
Qed.

Lemma searchsorted_range x xs : 0 <= searchsorted N xs x <= zlen xs.
Proof. induction xs as [|a xs IH]; cbn [searchsorted]; [unfold zlen; cbn; lia|]. rewrite zlen_cons. destruct (a_ltb N a x); lia. Qed.

Lemma stairs_lin_index x xs : xs <> [] -> exists k, 0 <= k < zlen xs /\ forall ys, zlen ys = zlen xs -> stairs_lin_ N x xs ys = zth ys k.
Proof.
  intros NE. assert (P : 0 < zlen xs) by (destruct xs; [easy|rewrite zlen_cons; pose proof (zlen_nonneg xs); lia]).
  pose proof (searchsorted_range x xs) as R. set (i := if zlen xs <=? searchsorted N xs x then searchsorted N xs x - 1 else searchsorted N xs x).
  assert (I : 0 <= i < zlen xs) by (unfold i; destruct (zlen xs <=? searchsorted N xs x) eqn:E; lia).
  destruct (zth_in xs (Z.max (i - 1) 0)) as [xl Hl]; [lia|]. destruct (zth_in xs i I) as [xr Hr].
  exists (if a_ltb N (a_fabs N (a_sub N x xl)) (a_fabs N (a_sub N x xr)) then i - 1 else i). split.
  - destruct (a_ltb N _ _) eqn:E; [|lia]. destruct (Z.eq_dec i 0) as [Z|Z]; [|lia]. rewrite Z in *. change (Z.max (0 - 1) 0) with 0 in Hl.
    assert (xl = xr) by congruence. subst. cbn in E. apply R_ltb_lt in E. lra.
  - intros ys L. unfold stairs_lin_. rewrite L. fold i. rewrite Hl, Hr. reflexivity.
Qed.

Lemma minimum_in : forall xs x, In (minimum N x xs) (x :: xs).
Proof.
  induction xs as [|y xs IH]; intros x; cbn [minimum]; [now left|]. destruct (IH (if a_ltb N y x then y else x)) as [H|H].
  - destruct (a_ltb N y x); rewrite <- H; [right; left|left]; auto.
  - right. now right.
Qed.
Lemma maximum_in : forall xs x, In (maximum N x xs) (x :: xs).
Proof.
  induction xs as [|y xs IH]; intros x; cbn [maximum]; [now left|]. destruct (IH (if a_ltb N x y then y else x)) as [H|H].
  - destruct (a_ltb N x y); rewrite <- H; [right; left|left]; auto.
  - right. now right.
Qed.

Lemma pointwise_index i f xs : pointwise i -> xs <> [] ->
  (forall ys, zlen ys = zlen xs -> interpolate_ N i f xs ys = Some (o_zero O)) \/
  (exists k, 0 <= k < zlen xs /\ forall ys, zlen ys = zlen xs -> interpolate_ N i f xs ys = zth ys k).
Proof.
  intros P NE. unfold interpolate_, interpolation_. destruct (existsb (fun x0 => a_eqb N x0 f) xs) eqn:E.
  - right. apply at_support_index. apply existsb_exists in E as (x & I & E). cbn in E. apply R_eqb_eq in E. now subst.
  - destruct P as [->|[->| ->]]; cbn [interpolation_function]; [now left|right; now apply stairs_lin_index|right].
    destruct xs as [|x0 xt]; [easy|]. unfold stairs_log_. destruct (a_ltb N f (minimum N x0 xt)); [apply at_support_index, minimum_in|].
    destruct (a_ltb N (maximum N x0 xt) f); [apply at_support_index, maximum_in|].
    destruct (stairs_lin_index (log2_x N f) (map (log2_x N) (x0 :: xt))) as (k & B & V); [easy|]. rewrite zlen_map in B, V. eauto.
Qed.

End Pointwise.

Lemma complex_exact power modulo log2_c exp2_c : exact_arithmetic (complex_arithmetic power modulo log2_c exp2_c).
Proof.
  constructor.
  - apply complex_field.
  - exact C_eqb_eq.
  - exact R_eqb_eq.
  - apply C_ext; cbn; rewrite ?exp_0, ?cos_0, ?sin_0; ring.
  - exact Cexp_neg.
  - cbn. unfold modulus. replace (norm2 (0, 0)) with 0 by (unfold norm2; cbn; ring). now rewrite sqrt_0.
  - intros z. cbn. now rewrite modulus_real by apply modulus_nonneg.
  - intros i f xs. apply pointwise_index.
Qed.
