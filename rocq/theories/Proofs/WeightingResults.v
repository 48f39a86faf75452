(** The curves of the frequency weighting filters. *)

From Coq Require Import String ZArith List Bool Lia Reals Lra Psatz.
From Verif.Model Require Import Py Functions Signal Terms Filter Fourier Rolloff Weighting.
From Verif.Spec Require Import TermsSpec FilterSpec RealSpec ComplexSpec DftSpec RolloffSpec WeightingSpec.
From Verif.Proofs Require Import PyFacts TermFacts TermOperators TermFuel FilterFacts FilterOperators ComplexFacts DftFacts RootsFacts RolloffFacts ButterworthFacts Chebyshev2Facts WeightingFacts.
Import ListNotations.
Open Scope R_scope.

(** ** The frequencies of the C-weighting *)

Lemma Rpower_square x : Rpower 10 x * Rpower 10 x = Rpower 10 (2 * x).
Proof. rewrite <- Rpower_plus. f_equal. ring. Qed.
Lemma low_square : Rpower 10 (15 / 10) * Rpower 10 (15 / 10) = 1000.
Proof. rewrite Rpower_square. replace (2 * (15 / 10)) with (INR 3) by (cbn; field). rewrite Rpower_pow by lra. ring. Qed.
Lemma high_square : 60000000 < Rpower 10 (39 / 10) * Rpower 10 (39 / 10) < 70000000.
Proof.
  rewrite Rpower_square. set (x := Rpower 10 (2 * (39 / 10))). assert (P : 0 < x) by (unfold x, Rpower; apply exp_pos).
  assert (E : x ^ 5 = 10 ^ 39).
  { unfold x. rewrite <- Rpower_pow, Rpower_mult by exact P. rewrite <- (Rpower_pow 39) by lra. f_equal. cbn. field. }
  assert (M : forall u v, 0 <= u <= v -> u ^ 5 <= v ^ 5) by (intros u v H; now apply pow_incr).
  split; apply Rnot_le_lt; intros H.
  - specialize (M x 60000000 ltac:(lra)). rewrite E in M. lra.
  - specialize (M 70000000 x ltac:(lra)). rewrite E in M. lra.
Qed.
Lemma half_root : 7 / 10 < sqrt (5 / 10) < 71 / 100.
Proof.
  pose proof (sqrt_sqrt (5 / 10) ltac:(lra)) as E. pose proof (sqrt_pos (5 / 10)) as P. split; nra.
Qed.
Lemma half_root_inverse : sqrt (5 / 10) = 1 / sqrt 2.
Proof.
  pose proof (sqrt_lt_R0 2 ltac:(lra)) as P. replace (5 / 10) with (/ 2) by field. rewrite sqrt_inv. field. lra.
Qed.

Definition c_sum : R :=
  let fl := Rpower 10 (15 / 10) in let fh := Rpower 10 (39 / 10) in
  (1000 * 1000 + fl * fl * (fh * fh) / (1000 * 1000) - sqrt (5 / 10) * (fl * fl + fh * fh)) / (1 - sqrt (5 / 10)).
Definition c_product : R := let fl := Rpower 10 (15 / 10) in let fh := Rpower 10 (39 / 10) in fl * fl * (fh * fh).
Definition c_root : R := sqrt (c_sum * c_sum - 4 * c_product).
Definition c_low : R := sqrt ((- c_sum - c_root) / 2).
Definition c_high : R := sqrt ((- c_sum + c_root) / 2).

Lemma c_sum_bound : c_sum < - 100000000 /\ 0 < c_product < 70000000000.
Proof.
  unfold c_sum, c_product. cbv zeta. rewrite low_square. pose proof high_square as H. pose proof half_root as D. set (x := Rpower 10 (39 / 10) * Rpower 10 (39 / 10)) in *.
  set (d := sqrt (5 / 10)) in *. split; [|lra].
  apply (Rmult_lt_reg_r (1 - d)); [lra|]. unfold Rdiv at 1. rewrite Rmult_assoc, Rinv_l, Rmult_1_r by lra. nra.
Qed.

Lemma c_root_ok : 0 <= c_root < - c_sum /\ c_root * c_root = c_sum * c_sum - 4 * c_product /\ 0 < c_root.
Proof.
  destruct c_sum_bound as [H [P Q]]. assert (D : 0 < c_sum * c_sum - 4 * c_product) by nra.
  assert (E : c_root * c_root = c_sum * c_sum - 4 * c_product) by (unfold c_root; apply sqrt_sqrt; lra).
  assert (R : 0 < c_root) by (unfold c_root; now apply sqrt_lt_R0). split; [split; [lra|nra]|]. split; auto.
Qed.

Lemma c_squares : c_low ^ 2 = (- c_sum - c_root) / 2 /\ c_high ^ 2 = (- c_sum + c_root) / 2 /\ 0 < c_low < c_high.
Proof.
  destruct c_root_ok as (H & E & P). split; [unfold c_low; rewrite pow2_sqrt; lra|]. split; [unfold c_high; rewrite pow2_sqrt; lra|].
  unfold c_low, c_high. split; [apply sqrt_lt_R0; lra|]. apply sqrt_lt_1; lra.
Qed.

Lemma c_curve_simple f : f <> 0 -> c_curve c_low c_high f = 1 / (f ^ 2 + c_product / f ^ 2 - c_sum).
Proof.
  intros Hf. destruct c_squares as (L & H & _). destruct c_root_ok as (_ & E & _). destruct c_sum_bound as [B [P _]].
  assert (F : 0 < f ^ 2) by nra. unfold c_curve. replace ((f ^ 2 + c_low ^ 2) * (f ^ 2 + c_high ^ 2)) with (f ^ 2 * (f ^ 2 + c_product / f ^ 2 - c_sum)).
  - assert (G : 0 < c_product / f ^ 2) by now apply Rdiv_lt_0_compat. assert (Q : 0 < f ^ 2 + c_product / f ^ 2 - c_sum) by lra.
    set (q := f ^ 2 + c_product / f ^ 2 - c_sum) in *. set (p := f ^ 2) in *. field. split; lra.
  - rewrite L, H. replace ((f ^ 2 + (- c_sum - c_root) / 2) * (f ^ 2 + (- c_sum + c_root) / 2)) with (f ^ 2 * f ^ 2 - c_sum * f ^ 2 + (c_sum * c_sum - c_root * c_root) / 4) by field.
    rewrite E. field. lra.
Qed.

Lemma c_poles_ok : c_poles c_low c_high.
Proof.
  destruct c_squares as (_ & _ & B). split; [exact B|]. set (fl := Rpower 10 (15 / 10)). set (fh := Rpower 10 (39 / 10)).
  assert (Pl : 0 < fl) by (unfold fl, Rpower; apply exp_pos). assert (Ph : 0 < fh) by (unfold fh, Rpower; apply exp_pos).
  assert (Ec : c_product = fl ^ 2 * fh ^ 2) by (unfold c_product, fl, fh; cbv zeta; ring).
  assert (D : c_sum * (1 - sqrt (5 / 10)) = 1000 ^ 2 + c_product / 1000 ^ 2 - sqrt (5 / 10) * (fl ^ 2 + fh ^ 2)).
  { pose proof half_root. rewrite Ec. unfold c_sum, fl, fh. cbv zeta. field. lra. }
  destruct c_sum_bound as [S [Pc _]]. pose proof (sqrt_lt_R0 2 ltac:(lra)) as P2.
  rewrite !c_curve_simple by lra. rewrite half_root_inverse in D.
  assert (X : 0 < 1000 ^ 2 + c_product / 1000 ^ 2 - c_sum) by nra.
  assert (Y : 0 < fl ^ 2 + fh ^ 2 - c_sum) by nra.
  assert (K : 1 / (fl ^ 2 + fh ^ 2 - c_sum) = 1 / (1000 ^ 2 + c_product / 1000 ^ 2 - c_sum) / sqrt 2).
  { assert (Q : 1000 ^ 2 + c_product / 1000 ^ 2 - c_sum = (fl ^ 2 + fh ^ 2 - c_sum) / sqrt 2) by (set (u := c_product / 1000 ^ 2) in *; apply (Rmult_eq_reg_r (sqrt 2)); [|lra];
      unfold Rdiv at 1; rewrite Rmult_assoc, Rinv_l, Rmult_1_r by lra; apply (Rmult_eq_compat_r (sqrt 2)) in D; replace (c_sum * (1 - 1 / sqrt 2) * sqrt 2) with (c_sum * sqrt 2 - c_sum) in D by (field; lra);
      replace ((1000 ^ 2 + u - 1 / sqrt 2 * (fl ^ 2 + fh ^ 2)) * sqrt 2) with ((1000 ^ 2 + u) * sqrt 2 - (fl ^ 2 + fh ^ 2)) in D by (field; lra); lra).
    rewrite Q. field. split; lra. }
  split; rewrite <- K; f_equal; f_equal; rewrite Ec; field; lra.
Qed.

(** ** The filters *)

Section Results.
Variable power modulo : R -> R -> R.
Variable cpower cmodulo : C -> C -> C.
Variable log2_c exp2_c : C -> C.
Variable junk : C.
Notation T := (complex_arithmetic cpower cmodulo log2_c exp2_c).
Notation M := (real_mathematics power modulo).
Notation factors := (factors cpower cmodulo log2_c exp2_c).

(** The filter [F] has the label and the curve of a frequency weighting, with a gain of 1 at 1000 Hz. *)
Lemma curve_ok generator label l vs ws curve : generator 1000 = Ok l -> factors l vs ws -> (forall f, 0 <= curve f) -> 0 < curve 1000 ->
  (exists c, 0 < c /\ forall f, weight_of ws f = c * curve f ^ 2) ->
  exists F, weighting_filter M T junk generator label = Ok (Some F) /\ f_count F = 1%Z /\ f_labels F = [label] /\ response T junk F 0 1000 = Some C1 /\
    forall f, exists z, response T junk F 0 f = Some z /\ modulus z = curve f / curve 1000.
Proof.
  intros E Fs P P0 (c & Pc & W).
  destruct (weighting_ok power modulo cpower cmodulo log2_c exp2_c junk generator label l vs ws E Fs) as (F & EF & N & L & R & V).
  - rewrite W. assert (0 < curve 1000 ^ 2) by nra. nra.
  - intros f. rewrite W. pose proof (pow2_ge_0 (curve f)). nra.
  - exists F. split; [exact EF|]. split; [exact N|]. split; [exact L|]. split; [exact R|]. intros f. destruct (V f) as (z & Z & Q). exists z. split; [exact Z|]. rewrite Q, !W.
    replace (c * curve f ^ 2 / (c * curve 1000 ^ 2)) with ((curve f / curve 1000) * (curve f / curve 1000)) by (field; split; lra).
    apply sqrt_square. apply Rmult_le_pos; [apply P|]. left. now apply Rinv_0_lt_compat.
Qed.

Notation high p := (fun f => f ^ 2 / (f ^ 2 + p ^ 2)).
Notation low x y := (fun f => 1 / (x ^ 2 + (f + y) ^ 2)).
Definition c_weights : list (R -> R) := [high c_low; low c_low 0; high c_high; low c_high 0].

Lemma c_factors_ok : exists l vs, c_factors M T 1000 = Ok l /\ factors l vs c_weights.
Proof.
  destruct c_squares as (_ & _ & B).
  destruct (highpass_ok power modulo cpower cmodulo log2_c exp2_c c_low ltac:(lra)) as (t1 & v1 & E1 & F1).
  destruct (lowpass_ok power modulo cpower cmodulo log2_c exp2_c c_low 0 ltac:(lra)) as (t2 & v2 & E2 & F2).
  destruct (highpass_ok power modulo cpower cmodulo log2_c exp2_c c_high ltac:(lra)) as (t3 & v3 & E3 & F3).
  destruct (lowpass_ok power modulo cpower cmodulo log2_c exp2_c c_high 0 ltac:(lra)) as (t4 & v4 & E4 & F4).
  exists [t1; t2; t3; t4], [v1; v2; v3; v4]. split; [|repeat constructor; auto; apply F1 || apply F2 || apply F3 || apply F4].
  transitivity (t1 <- highpass_factor M T (2 * PI * c_low) ;; t2 <- lowpass_factor M T (C_of_R (2 * PI * c_low)) ;; t3 <- highpass_factor M T (2 * PI * c_high) ;;
                t4 <- lowpass_factor M T (C_of_R (2 * PI * c_high)) ;; Ok [t1; t2; t3; t4]); [reflexivity|].
  assert (Z : forall x, C_of_R x = (x, 2 * PI * 0)) by (intros x; apply C_ext; cbn; ring). rewrite !Z, E1, E2, E3, E4. reflexivity.
Qed.

Lemma c_weight f : weight_of c_weights f = c_curve c_low c_high f ^ 2.
Proof.
  destruct c_squares as (_ & _ & B). unfold weight_of, c_weights, c_curve. cbn [fold_left]. rewrite !Rplus_0_r. rewrite (Rplus_comm (c_low ^ 2)), (Rplus_comm (c_high ^ 2)).
  assert (0 < f ^ 2 + c_low ^ 2) by nra. assert (0 < f ^ 2 + c_high ^ 2) by nra. field. split; lra.
Qed.
Lemma c_curve_nonneg f : 0 <= c_curve c_low c_high f.
Proof.
  destruct c_squares as (_ & _ & B). unfold c_curve. apply Rmult_le_pos; [apply pow2_ge_0|]. left. apply Rinv_0_lt_compat. assert (0 < f ^ 2 + c_low ^ 2) by nra. assert (0 < f ^ 2 + c_high ^ 2) by nra. nra.
Qed.
Lemma c_curve_pos f : f <> 0 -> 0 < c_curve c_low c_high f.
Proof.
  intros Hf. destruct c_squares as (_ & _ & B). unfold c_curve. apply Rdiv_lt_0_compat; [nra|]. assert (0 < f ^ 2 + c_low ^ 2) by nra. assert (0 < f ^ 2 + c_high ^ 2) by nra. nra.
Qed.

Lemma c_weighting_ok : exists f1 f4, c_poles f1 f4 /\ exists F, c_weighting M T junk = Ok (Some F) /\ is_weighting T junk F "C-weighting" (c_curve f1 f4).
Proof.
  exists c_low, c_high. split; [apply c_poles_ok|]. destruct c_factors_ok as (l & vs & E & Fs). apply (curve_ok _ _ l vs c_weights); auto using c_curve_nonneg.
  - apply c_curve_pos. lra.
  - exists 1. split; [lra|]. intros f. rewrite c_weight. ring.
Qed.

Lemma weight_cons w ws f : weight_of (w :: ws) f = w f * weight_of ws f.
Proof. unfold weight_of at 1. cbn [fold_left]. rewrite weight_from. ring. Qed.

Definition a_low : R := (15 / 10 - sqrt 5 / 2) * Rpower 10 (245 / 100).
Definition a_high : R := (15 / 10 + sqrt 5 / 2) * Rpower 10 (245 / 100).
Lemma a_poles_ok : a_poles a_low a_high.
Proof.
  pose proof (sqrt_sqrt 5 ltac:(lra)) as E. pose proof (sqrt_lt_R0 5 ltac:(lra)) as P. assert (B : sqrt 5 < 3) by nra.
  assert (Q : 0 < Rpower 10 (245 / 100)) by (unfold Rpower; apply exp_pos). unfold a_poles, a_low, a_high. set (x := Rpower 10 (245 / 100)) in *. set (s := sqrt 5) in *.
  split; [split; nra|]. split; [|lra]. transitivity ((9 - s * s) / 4 * x ^ 2); [field|]. rewrite E. field.
Qed.
Lemma root_square x : 0 <= x -> sqrt x ^ 2 = x.
Proof. intros H. now apply pow2_sqrt. Qed.

Lemma a_weighting_ok : exists f1 f2 f3 f4, c_poles f1 f4 /\ a_poles f2 f3 /\ exists F, a_weighting M T junk = Ok (Some F) /\ is_weighting T junk F "A-weighting" (a_curve f1 f2 f3 f4).
Proof.
  exists c_low, a_low, a_high, c_high. split; [apply c_poles_ok|]. pose proof a_poles_ok as AP. split; [exact AP|]. destruct AP as (B & _).
  destruct c_factors_ok as (l & vs & E & Fs).
  destruct (highpass_ok power modulo cpower cmodulo log2_c exp2_c a_low ltac:(lra)) as (t1 & v1 & E1 & F1).
  destruct (highpass_ok power modulo cpower cmodulo log2_c exp2_c a_high ltac:(lra)) as (t2 & v2 & E2 & F2).
  assert (P : forall f p, 0 < p -> 0 < f ^ 2 + p ^ 2) by (intros; nra).
  apply (curve_ok _ _ (t1 :: t2 :: l) (v1 :: v2 :: vs) (high a_low :: high a_high :: c_weights)).
  - transitivity (t1 <- highpass_factor M T (2 * PI * a_low) ;; t2 <- highpass_factor M T (2 * PI * a_high) ;; rest <- c_factors M T 1000 ;; Ok (t1 :: t2 :: rest)); [reflexivity|].
    rewrite E1, E2, E. reflexivity.
  - repeat constructor; auto; apply F1 || apply F2.
  - intros f. apply Rmult_le_pos; [apply c_curve_nonneg|]. apply Rmult_le_pos; [apply pow2_ge_0|]. left. apply Rinv_0_lt_compat. apply Rmult_lt_0_compat; apply sqrt_lt_R0; apply P; lra.
  - apply Rmult_lt_0_compat; [apply c_curve_pos; lra|]. apply Rdiv_lt_0_compat; [lra|]. apply Rmult_lt_0_compat; apply sqrt_lt_R0; apply P; lra.
  - exists 1. split; [lra|]. intros f. rewrite !weight_cons, c_weight. unfold a_curve. pose proof (P f a_low ltac:(lra)) as Q1. pose proof (P f a_high ltac:(lra)) as Q2.
    pose proof (sqrt_lt_R0 _ Q1) as S1. pose proof (sqrt_lt_R0 _ Q2) as S2. rewrite <- (root_square (f ^ 2 + a_low ^ 2)) at 1 by lra. rewrite <- (root_square (f ^ 2 + a_high ^ 2)) at 1 by lra. field. split; lra.
Qed.

Lemma b_weighting_ok : exists f1 f4, c_poles f1 f4 /\ exists F, b_weighting M T junk = Ok (Some F) /\ is_weighting T junk F "B-weighting" (b_curve f1 f4).
Proof.
  exists c_low, c_high. split; [apply c_poles_ok|]. destruct c_factors_ok as (l & vs & E & Fs).
  destruct (highpass_ok power modulo cpower cmodulo log2_c exp2_c (1585 / 10) ltac:(lra)) as (t1 & v1 & E1 & F1).
  assert (P : forall f, 0 < f ^ 2 + (1585 / 10) ^ 2) by (intros; nra).
  apply (curve_ok _ _ (t1 :: l) (v1 :: vs) (high (1585 / 10) :: c_weights)).
  - transitivity (t1 <- highpass_factor M T (2 * PI * (1585 / 10)) ;; rest <- c_factors M T 1000 ;; Ok (t1 :: rest)); [reflexivity|]. rewrite E1, E. reflexivity.
  - repeat constructor; auto; apply F1.
  - intros f. apply Rmult_le_pos; [apply c_curve_nonneg|]. apply Rmult_le_pos; [apply Rabs_pos|]. left. apply Rinv_0_lt_compat. apply sqrt_lt_R0, P.
  - apply Rmult_lt_0_compat; [apply c_curve_pos; lra|]. apply Rdiv_lt_0_compat; [apply Rabs_pos_lt; lra|]. apply sqrt_lt_R0, P.
  - exists 1. split; [lra|]. intros f. rewrite !weight_cons, c_weight. unfold b_curve. pose proof (P f) as Q1. pose proof (sqrt_lt_R0 _ Q1) as S1.
    rewrite <- (root_square (f ^ 2 + (1585 / 10) ^ 2)) at 1 by lra. rewrite <- (pow2_abs f) at 1. field. lra.
Qed.

Lemma d_weighting_ok : exists F, d_weighting M T junk = Ok (Some F) /\ is_weighting T junk F "D-weighting" d_curve.
Proof.
  assert (S0 : forall x, 0 < x -> 0 < sqrt x) by (intros; now apply sqrt_lt_R0).
  destruct (highpass_ok power modulo cpower cmodulo log2_c exp2_c (sqrt (7991929 / 100)) ltac:(apply S0; lra)) as (t1 & v1 & E1 & F1).
  destruct (lowpass_ok power modulo cpower cmodulo log2_c exp2_c (sqrt 1345600) 0 ltac:(apply S0; lra)) as (t2 & v2 & E2 & F2).
  destruct (second_order_ok power modulo cpower cmodulo log2_c exp2_c (103791848 / 100) (108076816 / 100) 9837328 11723776 ltac:(lra) ltac:(lra) ltac:(lra) ltac:(lra)) as (t3 & v3 & E3 & F3).
  assert (PD : forall a b f, 0 < a -> 0 < b -> 0 < (a - f ^ 2) ^ 2 + b * f ^ 2).
  { intros a b f Ha Hb. destruct (Req_dec f 0) as [->|Hf]; [nra|]. assert (0 < f ^ 2) by nra. pose proof (pow2_ge_0 (a - f ^ 2)). nra. }
  assert (Q : forall f, 0 < ((103791848 / 100 - f ^ 2) ^ 2 + 108076816 / 100 * f ^ 2) / ((9837328 - f ^ 2) ^ 2 + 11723776 * f ^ 2) / ((f ^ 2 + 7991929 / 100) * (f ^ 2 + 1345600))).
  { intros f. apply Rdiv_lt_0_compat; [apply Rdiv_lt_0_compat; apply PD; lra|]. pose proof (pow2_ge_0 f). nra. }
  apply (curve_ok _ _ [t1; t2; t3] [v1; v2; v3]
    [high (sqrt (7991929 / 100)); low (sqrt 1345600) 0; fun f => ((103791848 / 100 - f ^ 2) ^ 2 + 108076816 / 100 * f ^ 2) / ((9837328 - f ^ 2) ^ 2 + 11723776 * f ^ 2)]).
  - transitivity (t1 <- highpass_factor M T (2 * PI * sqrt (7991929 / 100)) ;; t2 <- lowpass_factor M T (C_of_R (2 * PI * sqrt 1345600)) ;;
      t3 <- div T (poly [C1; C_of_R (2 * PI * sqrt (108076816 / 100)); C_of_R (square M (2 * PI * sqrt (103791848 / 100)))])
                  (poly [C1; C_of_R (2 * PI * sqrt 11723776); C_of_R (square M (2 * PI * sqrt 9837328))]) ;; Ok [t1; t2; t3]); [reflexivity|].
    rewrite E1, E3. replace (C_of_R (2 * PI * sqrt 1345600)) with (2 * PI * sqrt 1345600, 2 * PI * 0) by (apply C_ext; cbn; ring). rewrite E2. reflexivity.
  - repeat constructor; apply F1 || apply F2 || apply F3.
  - intros f. unfold d_curve. apply Rmult_le_pos; [apply Rabs_pos|apply sqrt_pos].
  - unfold d_curve. apply Rmult_lt_0_compat; [apply Rabs_pos_lt; lra|apply sqrt_lt_R0, Q].
  - exists 1. split; [lra|]. intros f. rewrite !weight_cons. unfold weight_of, d_curve. cbn [fold_left]. rewrite Rpow_mult_distr, pow2_abs.
    rewrite (root_square (_ / ((f ^ 2 + 7991929 / 100) * (f ^ 2 + 1345600)))) by (left; apply Q). rewrite !root_square by lra. rewrite Rplus_0_r. pose proof (PD 9837328 11723776 f ltac:(lra) ltac:(lra)) as X. pose proof (pow2_ge_0 f).
    set (h := (9837328 - f ^ 2) ^ 2 + 11723776 * f ^ 2) in *. field. repeat split; lra.
Qed.

Lemma u_weighting_ok : exists F, u_weighting M T junk = Ok (Some F) /\ is_weighting T junk F "U-weighting" u_curve.
Proof.
  assert (LP : forall x y, 0 < x -> exists t v, lowpass_factor M T (2 * PI * x, 2 * PI * y) = Ok t /\ factor cpower cmodulo log2_c exp2_c t v (low x y)) by (intros; now apply lowpass_ok).
  destruct (LP 12200 0 ltac:(lra)) as (t1 & v1 & E1 & F1). destruct (LP 7850 (-8800) ltac:(lra)) as (t3 & v3 & E3 & F3). destruct (LP 7850 8800 ltac:(lra)) as (t4 & v4 & E4 & F4).
  destruct (LP 2900 (-12150) ltac:(lra)) as (t5 & v5 & E5 & F5). destruct (LP 2900 12150 ltac:(lra)) as (t6 & v6 & E6 & F6).
  assert (P : forall x y f, 0 < x -> 0 < x ^ 2 + (f - y) ^ 2) by (intros x y f Hx; pose proof (pow2_ge_0 (f - y)); nra).
  assert (S0 : forall x y f, 0 < x -> 0 < sqrt (x ^ 2 + (f - y) ^ 2)) by (intros; apply sqrt_lt_R0; now apply P).
  assert (U : forall f, 0 < u_curve f).
  { intros f. unfold u_curve. apply Rdiv_lt_0_compat; [lra|]. repeat apply Rmult_lt_0_compat; apply S0; lra. }
  apply (curve_ok _ _ [t1; t1; t3; t4; t5; t6] [v1; v1; v3; v4; v5; v6] [low 12200 0; low 12200 0; low 7850 (-8800); low 7850 8800; low 2900 (-12150); low 2900 12150]).
  - unfold u_factors. cbn [map].
    change (m_complex M (o_mul (m_ops M) (o_mul (m_ops M) (m_float M 2) (m_pi M)) (m_float M 12200)) (o_mul (m_ops M) (o_mul (m_ops M) (m_float M 2) (m_pi M)) (m_float M 0))) with (2 * PI * 12200, 2 * PI * 0).
    change (m_complex M (o_mul (m_ops M) (o_mul (m_ops M) (m_float M 2) (m_pi M)) (m_float M 7850)) (o_mul (m_ops M) (o_mul (m_ops M) (m_float M 2) (m_pi M)) (m_float M (-8800)))) with (2 * PI * 7850, 2 * PI * -8800).
    change (m_complex M (o_mul (m_ops M) (o_mul (m_ops M) (m_float M 2) (m_pi M)) (m_float M 7850)) (o_mul (m_ops M) (o_mul (m_ops M) (m_float M 2) (m_pi M)) (m_float M 8800))) with (2 * PI * 7850, 2 * PI * 8800).
    change (m_complex M (o_mul (m_ops M) (o_mul (m_ops M) (m_float M 2) (m_pi M)) (m_float M 2900)) (o_mul (m_ops M) (o_mul (m_ops M) (m_float M 2) (m_pi M)) (m_float M (-12150)))) with (2 * PI * 2900, 2 * PI * -12150).
    change (m_complex M (o_mul (m_ops M) (o_mul (m_ops M) (m_float M 2) (m_pi M)) (m_float M 2900)) (o_mul (m_ops M) (o_mul (m_ops M) (m_float M 2) (m_pi M)) (m_float M 12150))) with (2 * PI * 2900, 2 * PI * 12150).
    cbn [sequence]. rewrite E1, E3, E4, E5, E6. reflexivity.
  - repeat constructor; apply F1 || apply F3 || apply F4 || apply F5 || apply F6.
  - intros f. left. apply U.
  - apply U.
  - exists 1. split; [lra|]. intros f. rewrite !weight_cons. unfold weight_of, u_curve. cbn [fold_left]. cbv zeta.
    replace (f + 0) with (f - 0) by ring. replace (f + -8800) with (f - 8800) by ring. replace (f + 8800) with (f - - 8800) by ring.
    replace (f + -12150) with (f - 12150) by ring. replace (f + 12150) with (f - - 12150) by ring.
    assert (W : forall x y, 0 < x -> 1 / (x ^ 2 + (f - y) ^ 2) = 1 / (sqrt (x ^ 2 + (f - y) ^ 2) ^ 2)) by (intros x y Hx; rewrite root_square; [reflexivity|left; now apply P]).
    rewrite !W by lra. pose proof (S0 12200 0 f ltac:(lra)). pose proof (S0 7850 8800 f ltac:(lra)). pose proof (S0 7850 (- 8800) f ltac:(lra)). pose proof (S0 2900 12150 f ltac:(lra)). pose proof (S0 2900 (- 12150) f ltac:(lra)).
    generalize dependent (sqrt (12200 ^ 2 + (f - 0) ^ 2)). generalize dependent (sqrt (7850 ^ 2 + (f - 8800) ^ 2)). generalize dependent (sqrt (7850 ^ 2 + (f - - 8800) ^ 2)).
    generalize dependent (sqrt (2900 ^ 2 + (f - 12150) ^ 2)). generalize dependent (sqrt (2900 ^ 2 + (f - - 12150) ^ 2)). intros. field. repeat split; lra.
Qed.

End Results.
