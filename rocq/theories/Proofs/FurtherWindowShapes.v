(** The shapes of the Bartlett-Hann, Blackman-Harris, Bohman, Parzen and Kaiser windows *)

From Coq Require Import String ZArith QArith List Bool Lia ZifyBool Reals Lra Field Psatz.
From Verif.Model Require Import Py Numpy Vector Functions Signal Generators Windows CosineWindows FurtherWindows.
From Verif.Spec Require Import TimeSpec RealSpec BlockSpec DftSpec GeneratorsSpec WindowSpec CosineWindowSpec FurtherWindowSpec.
From Verif.Proofs Require Import PyFacts FadeFacts BlockRanges WindowMeasures WindowShapes CosineDecay CosineWindowResults BesselSeries FurtherWindowResults.
Import ListNotations.
Open Scope Z_scope.

Lemma cos_mono x y : (0 <= x -> x <= y -> y <= PI -> cos y <= cos x)%R.
Proof. intros A H Q. apply cos_decr_1; lra. Qed.

(** ** Four cosines *)
Definition four (c : R) : R := (35875 / 100000 + 48829 / 100000 * c + 14128 / 100000 * (2 * c * c - 1) + 1168 / 100000 * (4 * c * c * c - 3 * c))%R.

Lemma four_ok u : sum_of_cosines [35875 / 100000; 48829 / 100000; 14128 / 100000; 1168 / 100000]%R u = four (cos (2 * PI * u)).
Proof.
  unfold sum_of_cosines. rewrite (Rsum_weighted _ (fun k x => x * cos (2 * PI * IZR k * u))%R). cbn [weighted]. change (0 + 1) with 1. change (1 + 1) with 2. change (2 + 1) with 3.
  replace (2 * PI * 0 * u)%R with 0%R by ring. replace (2 * PI * 1 * u)%R with (2 * PI * u)%R by ring. set (x := (2 * PI * u)%R).
  replace (2 * PI * 2 * u)%R with (2 * x)%R by (unfold x; ring). replace (2 * PI * 3 * u)%R with (2 * x + x)%R by (unfold x; ring).
  rewrite cos_0, cos_plus, cos_2a_cos, sin_2a. unfold four.
  replace (2 * sin x * cos x * sin x)%R with (2 * cos x * (sin x * sin x))%R by ring.
  replace (sin x * sin x)%R with (1 - cos x * cos x)%R by (pose proof (sin2_cos2 x) as S; unfold Rsqr in S; lra). ring.
Qed.

Lemma four_mono c d : (-1 <= d -> d <= c -> c <= 1 -> four d <= four c)%R.
Proof.
  intros H K L. unfold four.
  assert (Q : (0 <= 45325 / 100000 + 28256 / 100000 * (c + d) + 4672 / 100000 * (c * c + c * d + d * d))%R).
  { assert (S : (3 / 4 * (c + d) * (c + d) <= c * c + c * d + d * d)%R) by nra. set (s := (c + d)%R) in *. assert (-2 <= s)%R by (unfold s; lra). nra. }
  assert (0 <= (c - d) * (45325 / 100000 + 28256 / 100000 * (c + d) + 4672 / 100000 * (c * c + c * d + d * d)))%R by (apply Rmult_le_pos; lra). lra.
Qed.

(** ** The Parzen window *)
Lemma cubic_mono x y : (0 <= x -> x <= y -> y <= 1 -> cubic y <= cubic x)%R.
Proof.
  intros X H Y. unfold cubic. destruct (Rle_dec x (1 / 2)) as [A | A], (Rle_dec y (1 / 2)) as [C | C]; try lra.
  - assert (0 <= (y - x) * (6 * (x + y) - 6 * (x * x + x * y + y * y)))%R by (apply Rmult_le_pos; nra). nra.
  - apply Rle_trans with (1 / 4)%R.
    + assert ((1 - y) ^ 3 <= (1 / 2) ^ 3)%R by (apply pow_incr; lra). lra.
    + assert (0 <= (1 / 2 - x) * (6 * (x + 1 / 2) - 6 * (x * x + x * (1 / 2) + 1 / 4)))%R by (apply Rmult_le_pos; nra). nra.
  - assert ((1 - y) ^ 3 <= (1 - x) ^ 3)%R by (apply pow_incr; lra). lra.
Qed.

(** ** The Bohman window *)
Open Scope R_scope.
Definition bohman_at (x : R) : R := ((1 - x) * cos (PI * x) + sin (PI * x) / PI)%R.

Lemma bohman_derivative x : derivable_pt_lim bohman_at x (- (PI * (1 - x) * sin (PI * x))).
Proof.
  pose proof PI_neq0 as P.
  assert (L : derivable_pt_lim (fun x => PI * x)%R x PI).
  { pose proof (derivable_pt_lim_scal id PI x 1 (derivable_pt_lim_id x)) as L. rewrite Rmult_1_r in L. exact L. }
  assert (C : derivable_pt_lim (fun x => cos (PI * x)) x (- sin (PI * x) * PI)) by (apply (derivable_pt_lim_comp (fun x => PI * x)%R cos); [exact L | apply derivable_pt_lim_cos]).
  assert (S : derivable_pt_lim (fun x => sin (PI * x)) x (cos (PI * x) * PI)) by (apply (derivable_pt_lim_comp (fun x => PI * x)%R sin); [exact L | apply derivable_pt_lim_sin]).
  assert (D : derivable_pt_lim (fun x => 1 - x)%R x (0 - 1)) by (apply (derivable_pt_lim_minus (fct_cte 1) id); [apply derivable_pt_lim_const | apply derivable_pt_lim_id]).
  replace (- (PI * (1 - x) * sin (PI * x)))%R with (((0 - 1) * cos (PI * x) + (1 - x) * (- sin (PI * x) * PI)) + / PI * (cos (PI * x) * PI))%R by (field; exact P).
  assert (E : derivable_pt_lim (fun x => (1 - x) * cos (PI * x) + / PI * sin (PI * x))%R x
    (((0 - 1) * cos (PI * x) + (1 - x) * (- sin (PI * x) * PI)) + / PI * (cos (PI * x) * PI))).
  { apply (derivable_pt_lim_plus (fun x => (1 - x) * cos (PI * x))%R (fun x => / PI * sin (PI * x))%R).
    - exact (derivable_pt_lim_mult _ _ x _ _ D C).
    - exact (derivable_pt_lim_scal _ (/ PI) x _ S). }
  intros eps He. destruct (E eps He) as [delta H]. exists delta. intros h H1 H2. specialize (H h H1 H2). unfold bohman_at.
  replace (sin (PI * (x + h)) / PI)%R with (/ PI * sin (PI * (x + h)))%R by (unfold Rdiv; ring). replace (sin (PI * x) / PI)%R with (/ PI * sin (PI * x))%R by (unfold Rdiv; ring). exact H.
Qed.

Lemma bohman_mono x y : (0 <= x -> x <= y -> y <= 1 -> bohman_at y <= bohman_at x)%R.
Proof.
  intros X H Y. destruct (Req_dec x y) as [-> | N]; [apply Rle_refl |].
  destruct (MVT_cor2 bohman_at (fun x => - (PI * (1 - x) * sin (PI * x)))%R x y) as (c & E & C1 & C2); [lra | intros; apply bohman_derivative |].
  pose proof PI_RGT_0 as P. assert (S : (0 <= sin (PI * c))%R) by (apply sin_ge_0; nra).
  assert (0 <= PI * (1 - c) * sin (PI * c) * (y - x))%R by (apply Rmult_le_pos; [apply Rmult_le_pos; [apply Rmult_le_pos |] |]; lra). lra.
Qed.

(** The autocorrelation of a half wave of a cosine *)
Lemma bohman_autocorrelation x : (0 <= x)%R ->
  exists v, is_integral (fun t => cos (PI * t) * cos (PI * (t + x)))%R (- (1 / 2)) (1 / 2 - x) v /\ bohman_at x = (2 * v)%R.
Proof.
  intros H. pose proof PI_neq0 as P. exists (bohman_at x / 2)%R. split; [| field].
  exists (fun t => cos (PI * x) / 2 * t + / (4 * PI) * sin (2 * PI * t + PI * x))%R. split.
  - intros t.
    assert (L : derivable_pt_lim (fun t => 2 * PI * t + PI * x)%R t (2 * PI + 0)).
    { apply (derivable_pt_lim_plus (fun t => 2 * PI * t)%R (fct_cte (PI * x)%R)); [| apply derivable_pt_lim_const].
      pose proof (derivable_pt_lim_scal id (2 * PI) t 1 (derivable_pt_lim_id t)) as L. rewrite Rmult_1_r in L. exact L. }
    assert (S : derivable_pt_lim (fun t => sin (2 * PI * t + PI * x))%R t (cos (2 * PI * t + PI * x) * (2 * PI + 0))).
    { apply (derivable_pt_lim_comp (fun t => 2 * PI * t + PI * x)%R sin); [exact L | apply derivable_pt_lim_sin]. }
    replace (cos (PI * t) * cos (PI * (t + x)))%R with (cos (PI * x) / 2 * 1 + / (4 * PI) * (cos (2 * PI * t + PI * x) * (2 * PI + 0)))%R.
    + apply (derivable_pt_lim_plus (fun t => cos (PI * x) / 2 * t)%R (fun t => / (4 * PI) * sin (2 * PI * t + PI * x))%R).
      * exact (derivable_pt_lim_scal id (cos (PI * x) / 2) t 1 (derivable_pt_lim_id t)).
      * exact (derivable_pt_lim_scal _ (/ (4 * PI)) t _ S).
    + replace (PI * (t + x))%R with (PI * t + PI * x)%R by ring. replace (2 * PI * t + PI * x)%R with (PI * t + (PI * t + PI * x))%R by ring.
      set (a := (PI * t)%R). set (b := (a + PI * x)%R). replace (PI * x)%R with (b - a)%R by (unfold b; ring). rewrite cos_minus, cos_plus. field. exact P.
  - unfold bohman_at. replace (2 * PI * (1 / 2 - x) + PI * x)%R with (PI - PI * x)%R by field. replace (2 * PI * - (1 / 2) + PI * x)%R with (- (PI - PI * x))%R by field.
    rewrite sin_neg, sin_PI_x. field. exact P.
Qed.

Lemma bohman_shape bessel M u : (0 <= u)%R ->
  exists v, is_integral (fun t => cos (PI * t) * cos (PI * (t + 2 * u)))%R (- (1 / 2)) (1 / 2 - 2 * u) v /\ further_shape bessel Bohman M u = (2 * v)%R.
Proof.
  intros H. destruct (bohman_autocorrelation (2 * u)%R ltac:(lra)) as (v & I & E). exists v. split; [exact I |].
  cbn [further_shape]. rewrite Rabs_right by lra. exact E.
Qed.

(** ** All shapes *)
Open Scope Z_scope.
Section Shapes.
Variable bessel : R -> R.
Hypothesis B : is_bessel bessel.
Notation shape := (further_shape bessel).

Lemma share M : 2 <= M -> (0 < IZR (M - 1) / IZR M < 1)%R.
Proof.
  intros H. assert (P : (0 < IZR (M - 1))%R) by (apply IZR_lt; lia). assert (Q : (IZR (M - 1) < IZR M)%R) by (apply IZR_lt; lia).
  split; [apply Rdiv_lt_0_compat; lra |]. apply (Rmult_lt_reg_r (IZR M)); [lra |]. replace (IZR (M - 1) / IZR M * IZR M)%R with (IZR (M - 1)) by (field; lra). lra.
Qed.

Lemma shape_decreases c M u v : 2 <= M -> (0 <= u -> u <= v -> v <= 1 / 2 -> shape c M v <= shape c M u)%R.
Proof.
  intros HM U H V. pose proof PI_RGT_0 as P. assert (A : forall t, (0 <= t)%R -> Rabs (2 * t) = (2 * t)%R) by (intros; apply Rabs_right; lra).
  assert (C : (cos (2 * PI * v) <= cos (2 * PI * u))%R) by (apply cos_mono; nra).
  destruct c as [| | | | beta]; cbn [further_shape]; rewrite ?A by lra.
  - lra.
  - rewrite !four_ok. apply four_mono; [apply COS_bound | exact C | apply COS_bound].
  - apply (bohman_mono (2 * u) (2 * v)); lra.
  - destruct (share M HM) as [S1 S2]. apply cubic_mono; nra.
  - unfold Rdiv. apply Rmult_le_compat_r; [apply Rlt_le, Rinv_0_lt_compat; pose proof (bessel_ge bessel B beta); lra |].
    apply bessel_monotone; [exact B |]. rewrite !Rabs_mult. apply Rmult_le_compat_l; [apply Rabs_pos |].
    rewrite !Rabs_right by (apply Rle_ge, sqrt_pos). apply sqrt_le_1_alt. nra.
Qed.

Lemma shape_middle c M : shape c M 0 = 1%R.
Proof.
  destruct c as [| | | | beta]; cbn [further_shape]; rewrite ?Rmult_0_r, ?Rabs_R0, ?Rmult_0_r, ?Rmult_0_l, ?cos_0, ?sin_0.
  - field.
  - rewrite four_ok, Rmult_0_r, cos_0. unfold four. field.
  - field. apply PI_neq0.
  - unfold cubic. destruct (Rle_dec 0 (1 / 2)); [ring | lra].
  - replace (1 - 0 ^ 2)%R with 1%R by ring. rewrite sqrt_1, Rmult_1_r. field. now apply bessel_nonzero.
Qed.

Lemma shape_end c M : 2 <= M -> shape c M (1 / 2) = further_end bessel c M.
Proof.
  intros HM. assert (E : (2 * (1 / 2))%R = 1%R) by field. assert (P : (0 < IZR M)%R) by (apply IZR_lt; lia).
  destruct c as [| | | | beta]; cbn [further_shape further_end]; rewrite ?E, ?Rabs_R1, ?Rmult_1_r, ?Rmult_1_l.
  - replace (2 * PI * (1 / 2))%R with PI by field. rewrite cos_PI. field.
  - rewrite four_ok. replace (2 * PI * (1 / 2))%R with PI by field. rewrite cos_PI. unfold four. field.
  - rewrite sin_PI. field. apply PI_neq0.
  - rewrite minus_IZR. unfold cubic. assert (L : (2 <= IZR M)%R) by (apply IZR_le; lia).
    destruct (Rle_dec ((IZR M - 1) / IZR M) (1 / 2)) as [C | C]; [| field; lra].
    assert (M2 : IZR M = 2%R).
    { apply Rle_antisym; [| exact L]. apply (Rmult_le_compat_r (2 * IZR M)) in C; [| lra].
      replace ((IZR M - 1) / IZR M * (2 * IZR M))%R with (2 * IZR M - 2)%R in C by (field; lra). replace (1 / 2 * (2 * IZR M))%R with (IZR M) in C by field. lra. }
    rewrite M2. field.
  - replace (1 - 1 ^ 2)%R with 0%R by ring. rewrite sqrt_0, Rmult_0_r, (bessel_zero bessel B). reflexivity.
Qed.

Lemma end_nonneg c M : 2 <= M -> (0 <= further_end bessel c M)%R.
Proof.
  intros HM. destruct c as [| | | | beta]; cbn [further_end]; try lra.
  - apply Rlt_le, Rdiv_lt_0_compat; [lra |]. apply pow_lt, IZR_lt. lia.
  - apply Rlt_le, Rdiv_lt_0_compat; [lra |]. pose proof (bessel_ge bessel B beta). lra.
Qed.

Lemma shape_abs c M u : shape c M u = shape c M (Rabs u).
Proof. unfold Rabs. destruct (Rcase_abs u); [| reflexivity]. symmetry. now apply further_even. Qed.

Lemma shape_range c M u : 2 <= M -> (Rabs u <= 1 / 2)%R -> (further_end bessel c M <= shape c M u <= 1)%R.
Proof.
  intros HM U. rewrite shape_abs. pose proof (Rabs_pos u) as P. split.
  - rewrite <- shape_end by auto. apply shape_decreases; auto; lra.
  - rewrite <- (shape_middle c M). apply shape_decreases; auto; lra.
Qed.
End Shapes.

(** ** The documentation *)
Lemma blackman_harris_decay bessel M : decays (further_shape bessel BlackmanHarris M) 1.
Proof.
  change (decays (sum_of_cosines [35875 / 100000; 48829 / 100000; 14128 / 100000; 1168 / 100000]%R) (2 * 0 + 1)).
  apply decays_ok; [intros i I; lia |]. rewrite moment_weighted. numbers. lra.
Qed.
