(** Butterworth filters. *)

From Coq Require Import String ZArith List Bool Lia ZifyBool Reals Lra Ring_theory Field_theory Ring Field.
From Verif.Model Require Import Py Functions Signal Terms Filter Rolloff.
From Verif.Spec Require Import TermsSpec FilterSpec RealSpec ComplexSpec DftSpec RolloffSpec.
From Verif.Proofs Require Import PyFacts SignalHelpers TermFacts TermOperators TermFuel FilterFacts FilterOperators ComplexFacts DftFacts RootsFacts RolloffFacts.
Import ListNotations.
Open Scope Z_scope.
Ltac Zify.zify_post_hook ::= idtac.

(** ** Factorisations of [1 + y^n] *)

Definition Rprod {Y} (l : list Y) (f : Y -> R) : R := fold_right (fun y a => f y * a)%R 1%R l.

Lemma Rprod_ext {Y} (l : list Y) f g : (forall y, In y l -> f y = g y) -> Rprod l f = Rprod l g.
Proof.
  unfold Rprod. induction l as [|y l IH]; intros H; [reflexivity|]. cbn. rewrite H by now left. rewrite IH; auto. intros; apply H; now right.
Qed.
Lemma Rprod_shift lo n d f : Rprod (zseq (lo + d) n) f = Rprod (zseq lo n) (fun k => f (k + d)).
Proof.
  unfold Rprod, zseq. induction (seq 0 (Z.to_nat n)) as [|k l IH]; [reflexivity|]. cbn [map fold_right]. rewrite IH. do 2 f_equal. lia.
Qed.
Lemma Cprod_real {Y} (l : list Y) f : Cprod l (fun y => C_of_R (f y)) = C_of_R (Rprod l f).
Proof.
  induction l as [|y l IH]; [reflexivity|]. rewrite Cprod_cons, IH. unfold Rprod. cbn [fold_right]. apply C_ext; cbn; ring.
Qed.

Lemma mirrored lo m : zseq (lo + m) m = map (fun k => 2 * lo + 2 * m - 1 - k) (rev (zseq lo m)).
Proof.
  apply zth_ext_in; [rewrite zlen_map, zlen_rev, !zlen_seq; lia|].
  intros k Hk. rewrite zlen_seq in Hk. rewrite zth_seq, zth_map, zth_rev, zlen_seq, zth_seq.
  replace ((0 <=? k) && (k <? m)) with true by lia. replace ((0 <=? Z.max 0 m - 1 - k) && (Z.max 0 m - 1 - k <? m)) with true by lia.
  cbn [option_map]. f_equal. lia.
Qed.

Lemma paired_product f lo m : 0 <= m -> (forall k, lo <= k < lo + m -> f (2 * lo + 2 * m - 1 - k) = Cconj (f k)) ->
  Cprod (zseq lo (m + m)) f = C_of_R (Rprod (zseq lo m) (fun k => norm2 (f k))).
Proof.
  intros Hm H. rewrite zseq_app, Cprod_app, mirrored, Cprod_map, Cprod_rev, <- Cprod_mul, <- Cprod_real by lia.
  apply Cprod_ext. intros k Hk. apply in_zseq in Hk. rewrite H by lia. apply norm2_conj.
Qed.

Lemma cis_PI : cis PI = C_of_R (-1).
Proof. unfold cis. rewrite cos_PI, sin_PI. reflexivity. Qed.
Lemma root_cis n k : 0 < n -> root n k = cis (2 * PI * IZR k / IZR n).
Proof. reflexivity. Qed.

Lemma norm2_shifted y t : norm2 (Csub (C_of_R (- y)) (cis t)) = (y * y + 2 * cos t * y + 1)%R.
Proof. unfold norm2, cis. cbn. pose proof (sin2_cos2 t) as H. unfold Rsqr in H. nra. Qed.

Lemma conj_shifted x t : Cconj (Csub (C_of_R x) (cis t)) = Csub (C_of_R x) (cis (- t)).
Proof. unfold cis. rewrite cos_neg, sin_neg. apply C_ext; cbn; ring. Qed.
Lemma cis_turn t : cis (t + 2 * PI) = cis t.
Proof. rewrite cis_add, cis_2PI. ring. Qed.

Lemma pow_minus_even y m : ((- y) ^ (2 * m) = y ^ (2 * m))%R.
Proof. rewrite !pow_mult. f_equal. ring. Qed.

Lemma even_product m y : (0 < m)%nat ->
  Rprod (zseq 0 (Z.of_nat m)) (fun k => y * y + 2 * cos (IZR (2 * k + 1) * PI / IZR (2 * Z.of_nat m)) * y + 1)%R = (1 + y ^ (2 * m))%R.
Proof.
  intros Hm. set (n := 2 * Z.of_nat m). assert (Hn : IZR n <> 0%R) by (apply (n_not_0 n); unfold n; lia).
  enough (E : C_of_R (Rprod (zseq 0 (Z.of_nat m)) (fun k => y * y + 2 * cos (IZR (2 * k + 1) * PI / IZR n) * y + 1)%R) = C_of_R (1 + y ^ (2 * m))) by (now injection E).
  assert (N : cis (PI / IZR n) <> C0).
  { intros E. apply (f_equal norm2) in E. unfold norm2, cis, C_of_R in E. cbn [re im fst snd] in E. pose proof (sin2_cos2 (PI / IZR n)) as H. unfold Rsqr in H. lra. }
  pose proof (factorisation (2 * m) (C_of_R (- y)) (cis (PI / IZR n)) ltac:(lia) N) as F.
  rewrite Cpow_real, Cpow_cis, pow_minus_even, mult_INR in F.
  replace (INR 2 * INR m * (PI / IZR n))%R with PI in F.
  2: { rewrite INR_IZR_INZ, (INR_IZR_INZ m). unfold n. rewrite mult_IZR. cbn [Z.of_nat]. change (Z.of_nat 2) with 2. field. apply (n_not_0 (Z.of_nat m)). lia. }
  rewrite cis_PI in F. replace (Csub (C_of_R (y ^ (2 * m))) (C_of_R (-1))) with (C_of_R (1 + y ^ (2 * m))) in F by (apply C_ext; cbn; ring).
  rewrite <- F. clear F. replace (Z.of_nat (2 * m)) with n by (unfold n; lia). replace (zseq 0 n) with (zseq 0 (Z.of_nat m + Z.of_nat m)) by (f_equal; unfold n; lia).
  assert (A : forall k, Cmul (cis (PI / IZR n)) (root n k) = cis (IZR (2 * k + 1) * PI / IZR n)).
  { intros k. rewrite root_cis, <- cis_add by (unfold n; lia). f_equal. rewrite plus_IZR, mult_IZR. field. auto. }
  rewrite paired_product; [|lia|].
  - f_equal. apply Rprod_ext. intros k _. now rewrite A, norm2_shifted.
  - intros k Hk. rewrite !A, conj_shifted. f_equal. rewrite <- (cis_turn (- _)). f_equal. unfold n.
    rewrite !plus_IZR, !mult_IZR, !minus_IZR, !plus_IZR, !mult_IZR. field. apply (n_not_0 (Z.of_nat m)). lia.
Qed.

Lemma odd_product m y :
  ((y + 1) * Rprod (zseq 1 (Z.of_nat m)) (fun k => y * y + 2 * cos (2 * (IZR k * PI / IZR (2 * Z.of_nat m + 1))) * y + 1) = 1 + y ^ (2 * m + 1))%R.
Proof.
  set (n := 2 * Z.of_nat m + 1). assert (Hn : IZR n <> 0%R) by (apply (n_not_0 n); unfold n; lia).
  match goal with |- ?l = ?r => enough (E : C_of_R l = C_of_R r) by (now injection E) end.
  pose proof (factorisation (2 * m + 1) (C_of_R (- y)) C1 ltac:(lia) ltac:(intros E; injection E; lra)) as F.
  rewrite Cpow_real, Cpow_1 in F. replace ((- y) ^ (2 * m + 1))%R with (- (y ^ (2 * m + 1)))%R in F by (rewrite !pow_add, pow_minus_even; ring).
  replace (Z.of_nat (2 * m + 1)) with n in F by (unfold n; lia). replace (zseq 0 n) with (zseq 0 (1 + (Z.of_nat m + Z.of_nat m))) in F by (f_equal; unfold n; lia).
  rewrite zseq_app, Cprod_app in F by lia. change (zseq 0 1) with [0] in F. rewrite Cprod_cons, Cprod_nil in F.
  rewrite (Cprod_ext (zseq (0 + 1) _) _ (fun k => Csub (C_of_R (- y)) (root n k))) in F by (intros; f_equal; ring).
  rewrite paired_product in F; [|lia|].
  - rewrite root_0 in F by (unfold n; lia). rewrite (Rprod_ext _ _ (fun k => y * y + 2 * cos (2 * (IZR k * PI / IZR n)) * y + 1)%R) in F.
    + set (P := Rprod _ _) in *. replace (C_of_R (1 + y ^ (2 * m + 1))) with (Cneg (Csub (C_of_R (- y ^ (2 * m + 1))) C1)) by (apply C_ext; cbn; ring).
      rewrite <- F. apply C_ext; cbn; ring.
    + intros k _. rewrite root_cis, norm2_shifted by (unfold n; lia). replace (2 * PI * IZR k / IZR n)%R with (2 * (IZR k * PI / IZR n))%R by (field; auto). reflexivity.
  - intros k Hk. replace (2 * (0 + 1) + 2 * Z.of_nat m - 1 - k) with (n + - k) by (unfold n; lia). rewrite root_add, root_n, root_neg by (unfold n; lia).
    apply C_ext; cbn; ring.
Qed.

(** ** The filter *)

Section Butterworth.
Variable power modulo : R -> R -> R.
Variable cpower cmodulo : C -> C -> C.
Variable log2_c exp2_c : C -> C.
Variable junk : C.
Notation T := (complex_arithmetic cpower cmodulo log2_c exp2_c).
Notation M := (real_mathematics power modulo).

Definition quadratic (k a b : R) : list C := [C_of_R (a * (k * k)); C_of_R (b * k); C_of_R 1].
Definition linear (k b : R) : list C := [C_of_R (b * k); C_of_R 1].

Lemma steep_quadratic k a b : k <> 0%R -> a <> 0%R -> steep (quadratic k a b).
Proof. intros Hk Ha E. injection E as E. apply Rmult_integral in E as [E|E]; [contradiction|]. apply Rmult_integral in E as [E|E]; contradiction. Qed.
Lemma steep_linear k b : k <> 0%R -> b <> 0%R -> steep (linear k b).
Proof. intros Hk Hb E. injection E as E. apply Rmult_integral in E as [E|E]; contradiction. Qed.

Definition butterworth_coefficients (k : R) (order : Z) : list (list C) :=
  if order mod 2 =? 0 then map (fun i => quadratic k 1 (2 * cos (IZR (2 * i - 1) * PI / IZR (2 * order)))) (zseq 1 (order / 2))
  else linear k 1 :: map (fun i => quadratic k 1 (2 * cos (IZR (i - 1) * PI / IZR order))) (zseq 2 ((order + 1) / 2 - 1)).

Lemma quadratic_factory k b : k <> 0%R -> polynomial_ M T [k * k; b * k; 1]%R false = Polynomial (quadratic k 1 b) false.
Proof.
  intros Hk. unfold polynomial_. rewrite <- (factory_steep cpower cmodulo log2_c exp2_c (quadratic k 1 b) false) by (apply steep_quadratic; auto; lra).
  f_equal. unfold quadratic. rewrite Rmult_1_l. reflexivity.
Qed.
Lemma linear_factory k : k <> 0%R -> polynomial_ M T [k; 1]%R false = Polynomial (linear k 1) false.
Proof.
  intros Hk. unfold polynomial_. rewrite <- (factory_steep cpower cmodulo log2_c exp2_c (linear k 1) false) by (apply steep_linear; auto; lra).
  f_equal. unfold linear. rewrite Rmult_1_l. reflexivity.
Qed.

Lemma butterworth_factors_ok k order : k <> 0%R -> butterworth_factors M T k order = map (fun c => Polynomial c false) (butterworth_coefficients k order).
Proof.
  intros Hk. unfold butterworth_factors, butterworth_coefficients. destruct (order mod 2 =? 0).
  - rewrite map_map. apply map_ext. intros i. now apply (quadratic_factory k (2 * cos (IZR (2 * i - 1) * PI / IZR (2 * order)))). 
  - cbn [map]. f_equal; [now apply linear_factory|]. rewrite map_map. apply map_ext. intros i. now apply (quadratic_factory k (2 * cos (IZR (i - 1) * PI / IZR order))).
Qed.

Lemma butterworth_steep k order : k <> 0%R -> Forall steep (butterworth_coefficients k order).
Proof.
  intros Hk. assert (L : forall (l : list Z) g, Forall steep (map (fun i => quadratic k 1 (g i)) l)).
  { intros l g. apply Forall_forall. intros c H. apply in_map_iff in H as (i & <- & _). apply steep_quadratic; auto. }
  unfold butterworth_coefficients. destruct (order mod 2 =? 0); [apply L|]. constructor; [apply steep_linear; auto; lra|apply L].
Qed.

Lemma butterworth_not_nil k order : 1 <= order -> butterworth_coefficients k order <> [].
Proof.
  intros H E. unfold butterworth_coefficients in E. destruct (order mod 2 =? 0) eqn:P; [|discriminate]. apply map_eq_nil in E.
  apply (f_equal zlen) in E. rewrite zlen_seq in E. change (zlen []) with 0 in E. pose proof (Z.div_mod order 2 ltac:(lia)). lia.
Qed.

Lemma norm2_Cprod {Y} (l : list Y) f : norm2 (Cprod l f) = Rprod l (fun y => norm2 (f y)).
Proof. apply norm2_prod. Qed.
Lemma Rprod_map {Y W} (h : W -> Y) (l : list W) f : Rprod (map h l) f = Rprod l (fun w => f (h w)).
Proof. unfold Rprod. induction l; [reflexivity|]. cbn. now rewrite IHl. Qed.
Lemma Rprod_cons {Y} y l (f : Y -> R) : Rprod (y :: l) f = (f y * Rprod l f)%R.
Proof. reflexivity. Qed.

Lemma quadratic_norm y t : norm2 (1 - 1 * y * y, 2 * cos t * y)%R = (y * y * (y * y) + 2 * cos (2 * t) * (y * y) + 1)%R.
Proof. unfold norm2. cbn [re im fst snd]. rewrite cos_2a_cos. ring. Qed.

Lemma butterworth_norm k order s y : 1 <= order -> Cmul (C_of_R k) s = (0, y)%R ->
  norm2 (Cprod (butterworth_coefficients k order) (fun c => polynomial T c s)) = (1 + y ^ (2 * Z.to_nat order))%R.
Proof.
  intros H S. rewrite norm2_Cprod. pose proof (Z.div_mod order 2 ltac:(lia)) as D. unfold butterworth_coefficients. destruct (order mod 2 =? 0) eqn:P.
  - rewrite Rprod_map. set (m := Z.to_nat (order / 2)). assert (Hm : order = 2 * Z.of_nat m) by (unfold m; lia).
    replace (order / 2) with (Z.of_nat m) by (unfold m; lia). rewrite (Rprod_shift 0 (Z.of_nat m) 1). replace (2 * Z.to_nat order)%nat with (2 * (2 * m))%nat by lia. rewrite pow_mult.
    replace (y ^ 2)%R with (y * y)%R by ring. rewrite <- even_product by lia. apply Rprod_ext. intros i _.
    unfold quadratic. rewrite (quadratic_value cpower cmodulo log2_c exp2_c 1 _ y k s S), quadratic_norm. do 3 f_equal. f_equal. f_equal.
    replace (2 * (i + 1) - 1) with (2 * i + 1) by lia. rewrite Hm, !mult_IZR. field. apply (n_not_0 (Z.of_nat m)). lia.
  - pose proof (Z.mod_pos_bound order 2 ltac:(lia)). rewrite Rprod_cons, Rprod_map. set (m := Z.to_nat (order / 2)). assert (Hm : order = 2 * Z.of_nat m + 1) by (unfold m; lia).
    replace ((order + 1) / 2 - 1) with (Z.of_nat m) by (apply Z.add_cancel_r with (p := 1); rewrite Z.sub_add; apply (Z.div_unique _ _ _ 0); lia).
    rewrite (Rprod_shift 1 (Z.of_nat m) 1). replace (2 * Z.to_nat order)%nat with (2 * (2 * m + 1))%nat by lia. rewrite pow_mult.
    replace (y ^ 2)%R with (y * y)%R by ring. rewrite <- odd_product. f_equal.
    + unfold linear. rewrite (linear_value cpower cmodulo log2_c exp2_c 1 y k s S). unfold norm2. cbn [re im fst snd]. ring.
    + apply Rprod_ext. intros i _. unfold quadratic. rewrite (quadratic_value cpower cmodulo log2_c exp2_c 1 _ y k s S), quadratic_norm. do 3 f_equal. f_equal. f_equal.
      replace (i + 1 - 1) with i by lia. now rewrite Hm.
Qed.

Lemma norm2_inverse z : z <> C0 -> norm2 (Cinv z) = (1 / norm2 z)%R.
Proof. intros H. apply norm2_pos in H. unfold norm2 at 1. cbn [Cinv re im fst snd]. unfold norm2 in *. unfold re, im in *. field. lra. Qed.

Lemma even_power_nonneg x n : (0 <= x ^ (2 * n))%R.
Proof. rewrite pow_mult. apply pow_le. cbn. nra. Qed.

Lemma butterworth_response fc order hp : 1 <= order -> fc <> 0%R ->
  exists F, butterworth_filter M T fc order hp = Ok F /\ f_count F = 1 /\ f_labels F = ["Butterworth"%string] /\
    (forall f, evaluable hp f -> exists z, response T junk F 0 f = Some z /\ norm2 z = (1 / (1 + relative_frequency hp fc f ^ (2 * Z.to_nat order)))%R) /\
    (hp = true -> response T junk F 0 0%R = Some C0).
Proof.
  intros Ho Hc. destruct (scaling_ok power modulo hp fc Hc) as (k & Ek & Hk). unfold butterworth_filter, butterworth. rewrite Ek. cbn [bind].
  rewrite butterworth_factors_ok by auto.
  destruct (inverse_product cpower cmodulo log2_c exp2_c junk _ hp "Butterworth" (butterworth_not_nil k order Ho) (butterworth_steep k order Hk)) as (F & E & N & L & V & Z).
  exists F. split; [exact E|]. split; [exact N|]. split; [exact L|]. split; [|exact Z]. intros f Hf.
  pose proof (scaled_variable power modulo cpower cmodulo log2_c exp2_c hp fc f k Hc Hf Ek) as S.
  pose proof (butterworth_norm k order _ _ Ho S) as Q.
  assert (P : ((if hp then - relative_frequency hp fc f else relative_frequency hp fc f) ^ (2 * Z.to_nat order) = relative_frequency hp fc f ^ (2 * Z.to_nat order))%R)
    by (destruct hp; [apply pow_minus_even|reflexivity]).
  rewrite P in Q. pose proof (even_power_nonneg (relative_frequency hp fc f) (Z.to_nat order)).
  assert (NZ : Cprod (butterworth_coefficients k order) (fun c => polynomial T c (variable cpower cmodulo log2_c exp2_c hp f)) <> C0).
  { intros Z0. rewrite Z0, norm2_real in Q. lra. }
  eexists. split; [now apply V|]. now rewrite norm2_inverse, Q.
Qed.

End Butterworth.
