(** The distributions of noise signals, and how the same seed relates different noise signals. *)

From Coq Require Import String ZArith List Bool Lia Reals Lra ZifyBool.
From Verif.Model Require Import Py Numpy Vector Functions Signal Generators Noise.
From Verif.Spec Require Import TimeSpec RealSpec NoiseSpec.
From Verif.Proofs Require Import PyFacts VectorFacts NoiseFacts.
Import ListNotations.
Open Scope Z_scope.

(** ** Quantiles *)
Section Quantiles.
Open Scope R_scope.

Lemma quantile_intro F u x : (forall y, x <= y -> u <= F y) -> (forall y, y < x -> F y < u) -> quantile F u x.
Proof. intros A B y. split; [apply A|]. intros U. destruct (Rle_lt_dec x y) as [|L]; [auto|]. specialize (B y L). lra. Qed.

Lemma exp_mono x y : x <= y -> exp x <= exp y.
Proof. intros [H| ->]; [left; now apply exp_increasing|right; reflexivity]. Qed.

Lemma div_mono x y d : 0 < d -> x <= y -> x / d <= y / d.
Proof. intros D H. apply Rmult_le_compat_r; [left; now apply Rinv_0_lt_compat|exact H]. Qed.
Lemma div_mono_lt x y d : 0 < d -> x < y -> x / d < y / d.
Proof. intros D H. apply Rmult_lt_compat_r; [now apply Rinv_0_lt_compat|exact H]. Qed.

Lemma div_le x y d : 0 < d -> (x <= y / d <-> x * d <= y).
Proof. intros D. assert (E : y = y / d * d) by (field; lra). split; intros H; [rewrite E; apply Rmult_le_compat_r; lra|]. replace x with (x * d / d) by (field; lra). now apply div_mono. Qed.
Lemma div_lt x y d : 0 < d -> (y / d < x <-> y < x * d).
Proof. intros D. pose proof (div_le x y d D). lra. Qed.

Lemma uniform_quantile lower upper u : lower < upper -> 0 < u < 1 ->
  quantile (fun x => if Rlt_dec x lower then 0 else if Rlt_dec x upper then (x - lower) / (upper - lower) else 1) u (lower + (upper - lower) * u).
Proof.
  intros B U. assert (P : 0 < (upper - lower) * u) by (apply Rmult_lt_0_compat; lra).
  apply quantile_intro; intros y Y; cbv beta; destruct (Rlt_dec y lower); try lra; destruct (Rlt_dec y upper); try lra.
  - apply div_le; lra.
  - apply div_lt; lra.
  - exfalso. assert ((upper - lower) * u < (upper - lower) * 1) by (apply Rmult_lt_compat_l; lra). lra.
Qed.

Lemma laplace_quantile mean decay u : 0 < decay -> 0 < u < 1 ->
  quantile (fun x => if Rlt_dec x mean then exp ((x - mean) / decay) / 2 else 1 - exp (- (x - mean) / decay) / 2) u (sample (LaplaceNoise mean decay) u).
Proof.
  intros D U. cbn [sample]. unfold real_less. destruct (Rlt_dec u (1 / 2)) as [L|L].
  - assert (N : ln (u + u) < 0) by (rewrite <- ln_1; apply ln_increasing; lra). assert (NP : decay * ln (u + u) < 0) by (replace 0 with (decay * 0) by ring; apply Rmult_lt_compat_l; lra).
    apply quantile_intro; intros y Y; destruct (Rlt_dec y mean) as [M|M].
    + enough (u + u <= exp ((y - mean) / decay)) by lra. rewrite <- (exp_ln (u + u)) at 1 by lra. apply exp_mono, div_le; lra.
    + pose proof (exp_mono (- (y - mean) / decay) 0) as E. rewrite exp_0 in E. enough (- (y - mean) / decay <= 0) by (specialize (E H); lra).
      pose proof (div_mono (- (y - mean)) 0 decay D). unfold Rdiv in *. lra.
    + enough (exp ((y - mean) / decay) < u + u) by lra. rewrite <- (exp_ln (u + u)) by lra. apply exp_increasing, div_lt; lra.
    + lra.
  - assert (N : ln (2 - u - u) <= 0). { destruct (Req_dec (2 - u - u) 1) as [-> |]; [rewrite ln_1; lra|]. left. rewrite <- ln_1. apply ln_increasing; lra. }
    assert (NP : decay * ln (2 - u - u) <= 0) by (replace 0 with (decay * 0) by ring; apply Rmult_le_compat_l; lra).
    apply quantile_intro; intros y Y; destruct (Rlt_dec y mean) as [M|M].
    + lra.
    + enough (exp (- (y - mean) / decay) <= 2 - u - u) by lra. rewrite <- (exp_ln (2 - u - u)) by lra. apply exp_mono.
      enough (~ ln (2 - u - u) < - (y - mean) / decay) by lra. intros Q.
      assert (Q' : ln (2 - u - u) * decay < - (y - mean) / decay * decay) by (apply Rmult_lt_compat_r; auto).
      replace (- (y - mean) / decay * decay) with (- (y - mean)) in Q' by (field; lra). lra.
    + pose proof (exp_increasing ((y - mean) / decay) 0) as E. rewrite exp_0 in E. enough ((y - mean) / decay < 0) by (specialize (E H); lra). apply div_lt; lra.
    + enough (2 - u - u < exp (- (y - mean) / decay)) by lra. rewrite <- (exp_ln (2 - u - u)) at 1 by lra. apply exp_increasing.
      enough (~ - (y - mean) / decay <= ln (2 - u - u)) by lra. intros Q.
      assert (Q' : - (y - mean) / decay * decay <= ln (2 - u - u) * decay) by (apply Rmult_le_compat_r; lra).
      replace (- (y - mean) / decay * decay) with (- (y - mean)) in Q' by (field; lra). lra.
Qed.

Lemma logistic_quantile mean scale u : 0 < scale -> 0 < u < 1 ->
  quantile (fun x => 1 / (1 + exp (- (x - mean) / scale))) u (mean + scale * ln (u / (1 - u))).
Proof.
  intros D U. assert (P : 0 < u / (1 - u)) by (apply Rdiv_lt_0_compat; lra).
  assert (E : forall z, exp (- z) = / exp z) by (intros; apply exp_Ropp).
  assert (Q : exp (- ln (u / (1 - u))) = (1 - u) / u) by (rewrite E, exp_ln by auto; field; lra).
  apply quantile_intro; intros y Y; pose proof (exp_pos (- (y - mean) / scale)) as X.
  - apply div_le; [lra|]. enough (exp (- (y - mean) / scale) <= (1 - u) / u).
    { assert (u * exp (- (y - mean) / scale) <= u * ((1 - u) / u)) by (apply Rmult_le_compat_l; lra). replace (u * ((1 - u) / u)) with (1 - u) in * by (field; lra). lra. }
    rewrite <- Q. apply exp_mono. replace (- (y - mean) / scale) with (- ((y - mean) / scale)) by (field; lra). apply Ropp_le_contravar, div_le; lra.
  - apply div_lt; [lra|]. enough ((1 - u) / u < exp (- (y - mean) / scale)).
    { assert (u * ((1 - u) / u) < u * exp (- (y - mean) / scale)) by (apply Rmult_lt_compat_l; lra). replace (u * ((1 - u) / u)) with (1 - u) in * by (field; lra). lra. }
    rewrite <- Q. apply exp_increasing. replace (- (y - mean) / scale) with (- ((y - mean) / scale)) by (field; lra). apply Ropp_lt_contravar, div_lt; lra.
Qed.

Lemma square_le a b : 0 <= a <= b -> a ^ 2 <= b ^ 2.
Proof. intros H. apply pow_incr. lra. Qed.
Lemma square_lt a b : 0 <= a < b -> a ^ 2 < b ^ 2.
Proof. intros H. cbn. rewrite !Rmult_1_r. apply Rmult_le_0_lt_compat; lra. Qed.
Lemma sqrt_below a b : 0 <= a -> 0 <= b -> a <= b ^ 2 -> sqrt a <= b.
Proof. intros A B H. rewrite <- (sqrt_pow2 b) by auto. now apply sqrt_le_1_alt. Qed.
Lemma sqrt_below_lt a b : 0 <= a -> 0 <= b -> a < b ^ 2 -> sqrt a < b.
Proof. intros A B H. rewrite <- (sqrt_pow2 b) by auto. apply sqrt_lt_1_alt. lra. Qed.

(** Both parts of the triangle *)
Lemma triangle lower upper m u : lower < upper -> lower <= m <= upper -> 0 <= u <= 1 ->
  (u <= (m - lower) / (upper - lower) -> lower <= lower + sqrt (u * ((m - lower) * (upper - lower))) <= m) /\
  ((m - lower) / (upper - lower) < u -> m <= upper - sqrt ((1 - u) * ((upper - m) * (upper - lower))) <= upper).
Proof.
  intros B M U. split; intros L.
  - apply div_le in L; [|lra]. pose proof (sqrt_pos (u * ((m - lower) * (upper - lower)))). split; [lra|].
    enough (sqrt (u * ((m - lower) * (upper - lower))) <= m - lower) by lra. apply sqrt_below; [repeat apply Rmult_le_pos; lra|lra|].
    replace (u * ((m - lower) * (upper - lower))) with ((m - lower) * (u * (upper - lower))) by ring. cbn. rewrite Rmult_1_r. apply Rmult_le_compat_l; lra.
  - apply div_lt in L; [|lra]. pose proof (sqrt_pos ((1 - u) * ((upper - m) * (upper - lower)))). split; [|lra].
    enough (sqrt ((1 - u) * ((upper - m) * (upper - lower))) <= upper - m) by lra. apply sqrt_below; [repeat apply Rmult_le_pos; lra|lra|].
    replace ((1 - u) * ((upper - m) * (upper - lower))) with ((upper - m) * ((1 - u) * (upper - lower))) by ring. cbn. rewrite Rmult_1_r. apply Rmult_le_compat_l; lra.
Qed.

Lemma triangular_quantile lower upper mode u : lower < upper -> lower <= peak lower upper mode <= upper -> 0 < u < 1 ->
  quantile (fun x => if Rle_dec x lower then 0
      else if Rle_dec x (peak lower upper mode) then (x - lower) ^ 2 / ((upper - lower) * (peak lower upper mode - lower))
      else if Rlt_dec x upper then 1 - (upper - x) ^ 2 / ((upper - lower) * (upper - peak lower upper mode)) else 1) u (sample (TriangularNoise lower upper mode) u).
Proof.
  intros B M U. cbn [sample]. set (m := peak lower upper mode) in *. unfold real_less.
  destruct (triangle lower upper m u B M ltac:(lra)) as [T1 T2].
  assert (Mid1 : lower < m -> forall y, y <= m -> lower < y -> (y - lower) ^ 2 / ((upper - lower) * (m - lower)) <= (m - lower) / (upper - lower)).
  { intros K y Y1 Y2. apply Rle_trans with ((m - lower) ^ 2 / ((upper - lower) * (m - lower))); [|right; field; lra].
    apply div_mono; [apply Rmult_lt_0_compat; lra|]. apply square_le. lra. }
  assert (Mid2 : forall y, m < y < upper -> (m - lower) / (upper - lower) <= 1 - (upper - y) ^ 2 / ((upper - lower) * (upper - m))).
  { intros y Y. apply Rle_trans with (1 - (upper - m) ^ 2 / ((upper - lower) * (upper - m))); [right; field; lra|].
    assert ((upper - y) ^ 2 / ((upper - lower) * (upper - m)) <= (upper - m) ^ 2 / ((upper - lower) * (upper - m))); [|lra].
    apply div_mono; [apply Rmult_lt_0_compat; lra|]. apply square_le. lra. }
  destruct (Rlt_dec ((m - lower) / (upper - lower)) u) as [L|L].
  - specialize (T2 L). pose proof (proj1 (div_lt _ _ (upper - lower) ltac:(lra)) L) as L'.
    assert (MU : m < upper). { enough (u * (upper - lower) < 1 * (upper - lower)) by lra. apply Rmult_lt_compat_r; lra. }
    set (q := (1 - u) * ((upper - m) * (upper - lower))) in *. assert (Q : 0 < q) by (unfold q; repeat apply Rmult_lt_0_compat; lra).
    pose proof (sqrt_lt_R0 q Q) as SQ. assert (SS : sqrt q ^ 2 = q) by (apply pow2_sqrt; lra).
    assert (DP : 0 < (upper - lower) * (upper - m)) by (apply Rmult_lt_0_compat; lra).
    assert (EQ : q = (1 - u) * ((upper - lower) * (upper - m))) by (unfold q; ring).
    assert (T3 : sqrt q < upper - m).
    { apply sqrt_below_lt; [lra|lra|]. rewrite EQ. replace ((1 - u) * ((upper - lower) * (upper - m))) with ((upper - m) * ((1 - u) * (upper - lower))) by ring.
      cbn. rewrite Rmult_1_r. apply Rmult_lt_compat_l; lra. }
    apply quantile_intro; intros y Y; destruct (Rle_dec y lower); destruct (Rle_dec y m); destruct (Rlt_dec y upper); try lra.
    + enough (~ u > 1 - (upper - y) ^ 2 / ((upper - lower) * (upper - m))) by lra. intros X. assert (1 - u < (upper - y) ^ 2 / ((upper - lower) * (upper - m))) by lra.
      assert (Q2 : q < (upper - y) ^ 2).
      { rewrite EQ. replace ((upper - y) ^ 2) with ((upper - y) ^ 2 / ((upper - lower) * (upper - m)) * ((upper - lower) * (upper - m))) by (field; lra). now apply Rmult_lt_compat_r. }
      rewrite <- SS in Q2. assert ((upper - y) ^ 2 <= sqrt q ^ 2) by (apply square_le; lra). lra.
    + eapply Rle_lt_trans; [apply Mid1; lra|exact L].
    + enough (~ u <= 1 - (upper - y) ^ 2 / ((upper - lower) * (upper - m))) by lra. intros X. assert ((upper - y) ^ 2 / ((upper - lower) * (upper - m)) <= 1 - u) by lra.
      assert (Q2 : (upper - y) ^ 2 <= q).
      { rewrite EQ. replace ((upper - y) ^ 2) with ((upper - y) ^ 2 / ((upper - lower) * (upper - m)) * ((upper - lower) * (upper - m))) by (field; lra). apply Rmult_le_compat_r; lra. }
      rewrite <- SS in Q2. assert (sqrt q ^ 2 < (upper - y) ^ 2) by (apply square_lt; lra). lra.
  - assert (L' : u <= (m - lower) / (upper - lower)) by lra. specialize (T1 L'). pose proof (proj1 (div_le _ _ (upper - lower) ltac:(lra)) L') as L2.
    assert (ML : lower < m). { assert (0 < u * (upper - lower)) by (apply Rmult_lt_0_compat; lra). lra. }
    set (q := u * ((m - lower) * (upper - lower))) in *. assert (Q : 0 < q) by (unfold q; repeat apply Rmult_lt_0_compat; lra).
    pose proof (sqrt_lt_R0 q Q) as SQ. assert (SS : sqrt q ^ 2 = q) by (apply pow2_sqrt; lra).
    assert (DP : 0 < (upper - lower) * (m - lower)) by (apply Rmult_lt_0_compat; lra).
    assert (EQ : q = u * ((upper - lower) * (m - lower))) by (unfold q; ring).
    apply quantile_intro; intros y Y; destruct (Rle_dec y lower); destruct (Rle_dec y m); destruct (Rlt_dec y upper); try lra.
    + apply div_le; [auto|]. rewrite <- EQ, <- SS. apply square_le. lra.
    + apply div_le; [auto|]. rewrite <- EQ, <- SS. apply square_le. lra.
    + eapply Rle_trans; [exact L'|]. apply Mid2. lra.
    + apply div_lt; [auto|]. rewrite <- EQ, <- SS. apply square_lt. lra.
Qed.

Lemma lomax_quantile shape e : 0 < shape -> 0 < e ->
  quantile (fun x => if Rle_dec x 0 then 0 else 1 - Rpower (1 + x) (- shape)) (1 - exp (- e)) (exp (e / shape) - 1).
Proof.
  intros D E. assert (P : 0 < e / shape) by now apply Rdiv_lt_0_compat. pose proof (exp_increasing 0 (e / shape) P) as X. rewrite exp_0 in X.
  pose proof (exp_increasing (- e) 0 ltac:(lra)) as X2. rewrite exp_0 in X2. assert (SE : shape * (e / shape) = e) by (field; lra).
  apply quantile_intro; intros y Y; destruct (Rle_dec y 0); try lra; unfold Rpower.
  - enough (exp (- shape * ln (1 + y)) <= exp (- e)) by lra. apply exp_mono. enough (e / shape <= ln (1 + y)).
    { assert (shape * (e / shape) <= shape * ln (1 + y)) by (apply Rmult_le_compat_l; lra). lra. }
    rewrite <- (ln_exp (e / shape)). destruct (Req_dec (exp (e / shape)) (1 + y)) as [-> |]; [lra|]. left. apply ln_increasing; lra.
  - enough (exp (- e) < exp (- shape * ln (1 + y))) by lra. apply exp_increasing. enough (ln (1 + y) < e / shape).
    { assert (shape * ln (1 + y) < shape * (e / shape)) by (apply Rmult_lt_compat_l; lra). lra. }
    rewrite <- (ln_exp (e / shape)). apply ln_increasing; lra.
Qed.
End Quantiles.

Section Results.
Variables (power modulo : R -> R -> R).
Context {S : Type}.
Variable G : rng R S.
Variable junk : Z -> R.
Local Notation make := (real_noise power modulo G junk).
Hypothesis SG : sound G.

Lemma number_range (P : R -> Prop) (f : S -> R * S) s t : (forall s, P (fst (f s))) -> P (nth_number f s t).
Proof. intros H. apply H. Qed.

Lemma distribution_ok c F sd rate n w s : probability c = Some F -> proper c -> 0 <= n -> starts G sd w s ->
  exists x w', make c sd rate n w = (Ok x, w') /\
    forall t, 0 <= t < n -> exists v, at_time x 0 t = Some v /\ ((0 < level G c s t)%R -> quantile F (level G c s t) v).
Proof.
  intros P C N St. destruct SG as (R1 & R2 & R3 & R4 & _). destruct (made power modulo G junk c sd rate n w s N St (proper_accepted c C)) as (x & w' & M & _ & _ & AT).
  exists x, w'. split; [exact M|]. intros t T. eexists. split; [apply AT; exact T|]. intros L.
  destruct c; try discriminate P; injection P as <-; cbn [proper level source] in *.
  - apply uniform_quantile; auto. split; auto. apply (number_range (fun u => u < 1)%R). intros; apply R1.
  - apply laplace_quantile; auto. split; auto. apply (number_range (fun u => u < 1)%R). intros; apply R2.
  - apply triangular_quantile; try apply C. split; auto. apply (number_range (fun u => u < 1)%R). intros; apply R1.
  - apply logistic_quantile; auto. split; auto. apply (number_range (fun u => u < 1)%R). intros; apply R2.
  - apply lomax_quantile; auto. set (e := nth_number _ _ _) in *. destruct (Rlt_le_dec 0 e); [auto|]. exfalso.
    pose proof (exp_mono 0 (- e) ltac:(lra)) as X. rewrite exp_0 in X. lra.
Qed.

Lemma range_ok c sd rate n w s : proper c -> 0 <= n -> starts G sd w s ->
  exists x w', make c sd rate n w = (Ok x, w') /\ is_noise x c rate n /\ forall t, 0 <= t < n -> exists v, at_time x 0 t = Some v /\ allowed c v.
Proof.
  intros C N St. destruct SG as (R1 & R2 & R3 & R4 & _). destruct (made power modulo G junk c sd rate n w s N St (proper_accepted c C)) as (x & w' & M & I & _ & AT).
  exists x, w'. split; [exact M|]. split; [exact I|]. intros t T. eexists. split; [apply AT; exact T|].
  destruct c; cbn [proper allowed sample source] in *; auto.
  - pose proof (number_range (fun u => 0 <= u < 1)%R (r_random G) s t R1) as U. cbv beta in U. set (u := nth_number _ _ _) in *.
    assert (0 <= (upper_boundary - lower_boundary) * u)%R by (apply Rmult_le_pos; lra).
    assert ((upper_boundary - lower_boundary) * u < (upper_boundary - lower_boundary) * 1)%R by (apply Rmult_lt_compat_l; lra). lra.
  - pose proof (number_range (fun u => 0 <= u < 1)%R (r_random G) s t R1) as U. cbv beta in U. set (u := nth_number _ _ _) in *.
    destruct C as [B Q]. destruct (triangle _ _ _ u B Q ltac:(lra)) as [T1 T2]. unfold real_less. destruct (Rlt_dec _ u) as [L|L].
    + specialize (T2 L). lra.
    + assert (L' := Rnot_lt_le _ _ L). specialize (T1 L'). lra.
  - apply Rmult_le_pos; [lra|]. apply (number_range (fun u => 0 <= u)%R). intros; apply R4; lra.
  - pose proof (number_range (fun u => 0 <= u)%R (r_exponential G) s t R3) as U. cbv beta in U. set (u := nth_number _ _ _) in *.
    assert (0 <= u / shape)%R by (apply div_le; lra). pose proof (exp_mono 0 _ H) as X. rewrite exp_0 in X. lra.
  - apply Rmult_le_pos; [lra|]. apply (number_range (fun u => 0 <= u)%R). intros; apply R4; lra.
Qed.
End Results.

Section Relations.
Variables (power modulo : R -> R -> R).
Context {S : Type}.
Variable G : rng R S.
Variable junk : Z -> R.
Local Notation make := (real_noise power modulo G junk).

Lemma standard_ok c std loc scale : standard c = Some (std, loc, scale) -> proper c ->
  proper std /\ source G std = source G c /\ forall u, sample c u = (loc + scale * sample std u)%R.
Proof.
  intros E C. destruct c; try discriminate E; injection E as <- <- <-; cbn [proper source sample] in *.
  - split; [lra|]. split; [auto|]. intros u. ring.
  - split; [lra|]. split; [auto|]. intros u. ring.
  - split; [lra|]. split; [auto|]. intros u. unfold real_less. destruct (Rlt_dec u _); ring.
  - cbn [peak]. set (m := peak lower_boundary upper_boundary mode) in *. set (d := (upper_boundary - lower_boundary)%R) in *. assert (D : (0 < d)%R) by (unfold d; lra).
    split; [|split; [auto|]].
    + split; [lra|]. split; [apply div_le; lra|]. apply Rmult_le_reg_r with d; [auto|]. unfold Rdiv. rewrite Rmult_assoc, Rinv_l by lra. unfold d. lra.
    + intros u. replace (((m - lower_boundary) / d - 0) / (1 - 0))%R with ((m - lower_boundary) / d)%R by (field; lra). destruct (real_less _ u).
      * assert (E : (sqrt ((1 - u) * ((upper_boundary - m) * d)) = d * sqrt ((1 - u) * ((1 - (m - lower_boundary) / d) * (1 - 0))))%R).
        { rewrite <- (sqrt_pow2 d) at 2 by lra. rewrite <- sqrt_mult_alt by apply pow2_ge_0. f_equal. unfold d. field. unfold d in D. lra. }
        rewrite E. unfold d at 2. ring_simplify. unfold d. ring.
      * assert (E : (sqrt (u * ((m - lower_boundary) * d)) = d * sqrt (u * (((m - lower_boundary) / d - 0) * (1 - 0))))%R).
        { rewrite <- (sqrt_pow2 d) at 2 by lra. rewrite <- sqrt_mult_alt by apply pow2_ge_0. f_equal. unfold d. field. unfold d in D. lra. }
        rewrite E. ring.
  - split; [lra|]. split; [auto|]. intros u. ring.
  - split; [lra|]. split; [auto|]. intros u. ring.
  - split; [lra|]. split; [auto|]. intros u. ring.
Qed.

Lemma affine_ok c std loc scale sd rate n w s : standard c = Some (std, loc, scale) -> proper c -> 0 <= n -> starts G sd w s ->
  exists x y w1 w2, make c sd rate n w = (Ok x, w1) /\ make std sd rate n w = (Ok y, w2) /\
    forall t, 0 <= t < n -> exists v, at_time y 0 t = Some v /\ at_time x 0 t = Some (loc + scale * v)%R.
Proof.
  intros E C N St. destruct (standard_ok c std loc scale E C) as (C' & SR & SA).
  destruct (made power modulo G junk c sd rate n w s N St (proper_accepted c C)) as (x & w1 & M1 & _ & _ & AT1).
  destruct (made power modulo G junk std sd rate n w s N St (proper_accepted std C')) as (y & w2 & M2 & _ & _ & AT2).
  exists x, y, w1, w2. split; [exact M1|]. split; [exact M2|]. intros t T. eexists. split; [now apply AT2|]. now rewrite AT1, SA, SR.
Qed.

Lemma prefix_ok c sd rate n m w s : proper c -> 0 <= n <= m -> starts G sd w s ->
  exists x y w1 w2, make c sd rate n w = (Ok x, w1) /\ make c sd rate m w = (Ok y, w2) /\ forall t, 0 <= t < n -> at_time x 0 t = at_time y 0 t.
Proof.
  intros C N St. destruct (made power modulo G junk c sd rate n w s ltac:(lia) St (proper_accepted c C)) as (x & w1 & M1 & _ & _ & AT1).
  destruct (made power modulo G junk c sd rate m w s ltac:(lia) St (proper_accepted c C)) as (y & w2 & M2 & _ & _ & AT2).
  exists x, y, w1, w2. split; [exact M1|]. split; [exact M2|]. intros t T. rewrite AT1, AT2 by lia. reflexivity.
Qed.

Lemma continue_ok c i rate n m w : proper c -> 0 <= n -> 0 <= m -> 0 <= i < zlen (w_generators w) ->
  exists x y z w1 w2 w3, make c (GeneratorSeed i) rate n w = (Ok x, w1) /\ make c (GeneratorSeed i) rate m w1 = (Ok y, w2) /\
    make c (GeneratorSeed i) rate (n + m) w = (Ok z, w3) /\ (forall j, 0 <= j -> zth (w_generators w2) j = zth (w_generators w3) j) /\
    forall t, 0 <= t < n + m -> at_time z 0 t = if t <? n then at_time x 0 t else at_time y 0 (t - n).
Proof.
  intros C N M I. destruct (zth_in (w_generators w) i I) as [s Hs]. pose proof (proper_accepted c C) as A. assert (St : starts G (GeneratorSeed i) w s) by (split; [lia|auto]).
  destruct (made power modulo G junk c (GeneratorSeed i) rate n w s N St A) as (x & w1 & M1 & _ & (_ & _ & W1) & AT1).
  assert (St1 : starts G (GeneratorSeed i) w1 (state_after (source G c) (Z.to_nat n) s)) by (split; [lia|]; rewrite W1 by lia; now rewrite Z.eqb_refl).
  destruct (made power modulo G junk c (GeneratorSeed i) rate m w1 _ M St1 A) as (y & w2 & M2 & _ & (_ & _ & W2) & AT2).
  destruct (made power modulo G junk c (GeneratorSeed i) rate (n + m) w s ltac:(lia) St A) as (z & w3 & M3 & _ & (_ & _ & W3) & AT3).
  exists x, y, z, w1, w2, w3. split; [exact M1|]. split; [exact M2|]. split; [exact M3|]. split.
  - intros j J. rewrite W2, W3, W1 by auto. destruct (j =? i); [|auto]. f_equal. rewrite <- state_after_add. f_equal. lia.
  - intros t T. rewrite AT3 by auto. destruct (Z.ltb_spec t n); [now rewrite AT1 by lia|]. rewrite AT2 by lia. do 2 f_equal. unfold nth_number. do 2 f_equal.
    rewrite <- state_after_add. f_equal. lia.
Qed.

Lemma methods_ok c name parameters sd rate n w s : sound G -> documented_method c = Some (name, parameters) -> 0 <= n -> starts G sd w s ->
  match r_method G name parameters s n with
  | Ok (l, s') => exists x w', make c sd rate n w = (Ok x, w') /\ is_noise x c rate n /\ world_after sd w s' w' /\ forall t, 0 <= t < n -> at_time x 0 t = zth l t
  | Err e => exists w', make c sd rate n w = (Err e, w')
  end.
Proof.
  intros SG D N St.
  assert (F : noise_function (real_ops power modulo) G IZR real_less sqrt ln exp c n s = r_method G name parameters s n) by (destruct c; try discriminate D; injection D as <- <-; reflexivity).
  destruct (r_method G name parameters s n) as [[l s']|e] eqn:E.
  - assert (L : zlen l = n) by (eapply SG; eauto). destruct (make_ok power modulo G junk c sd rate n w s l s' N St F L) as (w' & M & W).
    exists (one_channel rate l n (noise_label c)), w'. split; [exact M|]. split; [now apply one_channel_noise|]. split; [exact W|]. intros t T. apply one_channel_at.
  - destruct (starts_ok G sd w s St) as (w1 & Dr & _). exists w1. unfold make_noise. rewrite Dr. destruct (vector_ok junk n N) as (v & -> & _). now rewrite F.
Qed.
End Relations.

(** ** A generator with two states *)
Definition two_numbers : rng R bool :=
  Rng (fun _ => true) (fun _ => true) (fun s => (if s then / 2 else / 4, negb s)%R) (fun s => (if s then / 2 else / 4, negb s)%R) (fun s => (0%R, s)) (fun s => (1%R, s)) (fun _ s => (1%R, s))
    (fun _ _ s n => if n <? 0 then Err ValueError else Ok (zrepeat 0%R n, s)).

Lemma two_numbers_sound : sound two_numbers.
Proof.
  split; [intros []; cbn; lra|]. split; [intros []; cbn; lra|]. split; [intros; cbn; lra|]. split; [intros; cbn; lra|].
  intros name parameters s n l s'. cbn. destruct (Z.ltb_spec n 0); [discriminate|]. intros H0. injection H0 as <- _. rewrite zlen_repeat. lia.
Qed.

Lemma generator_differs : exists (G : rng R bool) w, sound G /\ forall power modulo junk rate,
  exists x y w1 w2, real_noise power modulo G junk (UniformNoise (- 1) 1)%R (GeneratorSeed 0) rate 1 w = (Ok x, w1) /\
    real_noise power modulo G junk (UniformNoise (- 1) 1)%R (GeneratorSeed 0) rate 1 w1 = (Ok y, w2) /\ at_time x 0 0 <> at_time y 0 0.
Proof.
  exists two_numbers, (World 0 [true]). split; [exact two_numbers_sound|]. intros power modulo junk rate.
  destruct (made power modulo two_numbers junk (UniformNoise (- 1) 1)%R (GeneratorSeed 0) rate 1 (World 0 [true]) true ltac:(lia)) as (x & w1 & M1 & _ & (_ & _ & W1) & AT1);
    [split; [lia|reflexivity]|cbn; lra|].
  destruct (made power modulo two_numbers junk (UniformNoise (- 1) 1)%R (GeneratorSeed 0) rate 1 w1 false ltac:(lia)) as (y & w2 & M2 & _ & _ & AT2);
    [split; [lia|]; rewrite W1 by lia; reflexivity|cbn; lra|].
  exists x, y, w1, w2. split; [exact M1|]. split; [exact M2|]. rewrite AT1, AT2 by lia. unfold nth_number. cbn. intros E. injection E. lra.
Qed.

(** With equal boundaries the samples are not smaller than the upper boundary. *)
Lemma equal_boundaries {S} (G : rng R S) b sd w s : starts G sd w s -> forall power modulo junk rate,
  exists x w', real_noise power modulo G junk (UniformNoise b b) sd rate 1 w = (Ok x, w') /\ at_time x 0 0 = Some b.
Proof.
  intros St power modulo junk rate. destruct (made power modulo G junk (UniformNoise b b) sd rate 1 w s ltac:(lia) St) as (x & w1 & M1 & _ & _ & AT1); [cbn; lra|].
  exists x, w1. split; [exact M1|]. rewrite AT1 by lia. cbn [sample]. f_equal. ring.
Qed.
