(** Properties of the predefined filters: C29, C30, C49 and C50.

    [M] are the functions of real numbers, with which the coefficients are computed, and [T] is the arithmetic of complex numbers.  [junk] is
    what uninitialized memory contains. *)

From Coq Require Import String ZArith List Bool Reals Lra Lia.
From Verif.Model Require Import Py Functions Signal Terms Filter Rolloff Weighting.
From Verif.Spec Require Import FilterSpec RealSpec ComplexSpec RolloffSpec WeightingSpec.
From Verif.Proofs Require Import ButterworthFacts BesselFacts GroupDelayFacts Chebyshev1Facts Chebyshev2Facts RolloffResults WeightingResults DelayFacts.
Import ListNotations.
Open Scope Z_scope.

Section Properties.
Variable power modulo : R -> R -> R.
Variable cpower cmodulo : C -> C -> C.
Variable log2_c exp2_c : C -> C.
Variable junk : C.
Notation T := (complex_arithmetic cpower cmodulo log2_c exp2_c).
Notation M := (real_mathematics power modulo).

(** * C29 Butterworth filters *)

Theorem C29_butterworth : forall cutoff order highpass, 1 <= order -> cutoff <> 0%R ->
  exists F, butterworth_filter M T cutoff order highpass = Ok F /\ f_count F = 1 /\ f_labels F = ["Butterworth"%string] /\
    (forall f, evaluable highpass f -> exists z, response T junk F 0 f = Some z /\
      norm2 z = (1 / (1 + relative_frequency highpass cutoff f ^ (2 * Z.to_nat order)))%R) /\
    (highpass = true -> response T junk F 0 0%R = Some (C_of_R 0)).
Proof. exact (butterworth_response power modulo cpower cmodulo log2_c exp2_c junk). Qed.

(** The cutoff frequency is the -3 dB threshold *)
Theorem C29_half_power : forall cutoff order highpass, 1 <= order -> cutoff <> 0%R ->
  exists F z, butterworth_filter M T cutoff order highpass = Ok F /\ response T junk F 0 cutoff = Some z /\ norm2 z = (1 / 2)%R.
Proof. exact (butterworth_half_power power modulo cpower cmodulo log2_c exp2_c junk). Qed.

(** The magnitude response is monotonic *)
Theorem C29_monotonic : forall cutoff order (highpass : bool) F f g y z, 1 <= order -> cutoff <> 0%R -> butterworth_filter M T cutoff order highpass = Ok F ->
  response T junk F 0 f = Some y -> response T junk F 0 g = Some z -> (Rabs f <= Rabs g)%R ->
  if highpass then (norm2 y <= norm2 z)%R else (norm2 z <= norm2 y)%R.
Proof. exact (butterworth_monotone power modulo cpower cmodulo log2_c exp2_c junk). Qed.

(** An order of 0 is not possible *)
Theorem C29_order_0 : forall cutoff highpass, cutoff <> 0%R -> butterworth_filter M T cutoff 0 highpass = Err ZeroDivisionError.
Proof. exact (butterworth_order_0 power modulo cpower cmodulo log2_c exp2_c). Qed.

(** A lowpass with a cutoff frequency of 0 Hz is not possible with any of the filters *)
Theorem C29_cutoff_0 : forall order highpass, highpass = false ->
  butterworth_filter M T 0%R order highpass = Err ZeroDivisionError /\ bessel_filter M T 0%R order highpass = Err ZeroDivisionError /\
  (forall ripple, chebyshev1_filter M T 0%R ripple order highpass = Err ZeroDivisionError /\
                  chebyshev2_filter M T 0%R ripple order highpass = Err ZeroDivisionError).
Proof. exact (cutoff_0 power modulo cpower cmodulo log2_c exp2_c). Qed.

Example C29_third_order : exists F z, butterworth_filter M T 500%R 3 true = Ok F /\ response T junk F 0 250%R = Some z /\ norm2 z = (1 / 65)%R.
Proof.
  destruct (C29_butterworth 500%R 3 true ltac:(lia) ltac:(lra)) as (F & E & _ & _ & V & _). destruct (V 250%R) as (z & R & N); [intros _; lra|].
  exists F, z. split; [exact E|]. split; [exact R|]. rewrite N. unfold relative_frequency. change (2 * Z.to_nat 3)%nat with 6%nat. field.
Qed.

(** * C30 Bessel filters *)

Theorem C30_bessel : forall cutoff order highpass, 0 <= order -> cutoff <> 0%R -> let n := Z.to_nat order in
  exists F, bessel_filter M T cutoff order highpass = Ok F /\ f_count F = 1 /\ f_labels F = ["Bessel"%string] /\
    (forall f, evaluable highpass f ->
      response T junk F 0 f = Some (Cdiv (bessel_polynomial n (C_of_R 0)) (bessel_polynomial n (relative_variable highpass cutoff f)))) /\
    (highpass = true -> 1 <= order -> response T junk F 0 0%R = Some (C_of_R 0)).
Proof. exact (bessel_response power modulo cpower cmodulo log2_c exp2_c junk). Qed.

Theorem C30_low_frequencies : forall cutoff order, 0 <= order -> cutoff <> 0%R ->
  exists F, bessel_filter M T cutoff order false = Ok F /\ response T junk F 0 0%R = Some (C_of_R 1).
Proof. exact (bessel_low power modulo cpower cmodulo log2_c exp2_c junk). Qed.

(** The group delay of a lowpass is maximally flat. *)
Theorem C30_group_delay : forall cutoff order, 1 <= order -> cutoff <> 0%R -> let n := Z.to_nat order in
  exists F H, bessel_filter M T cutoff order false = Ok F /\ (forall f, response T junk F 0 f = Some (H f)) /\
    forall f, group_delay H f ((1 - (f / cutoff) ^ (2 * n) / norm2 (bessel_polynomial n (0, f / cutoff))) / (2 * PI * cutoff))%R.
Proof. exact (bessel_group_delay power modulo cpower cmodulo log2_c exp2_c junk). Qed.

(** The documentation of the parameter claims, that the cutoff frequency is the -3 dB threshold. *)
Theorem C30_half_power_refuted :
  exists F z, bessel_filter M T 1000%R 2 false = Ok F /\ response T junk F 0 1000%R = Some z /\ norm2 z = (9 / 13)%R.
Proof. exact (bessel_cutoff_refuted power modulo cpower cmodulo log2_c exp2_c junk). Qed.

Example C30_polynomials : bessel_polynomial 3 (C_of_R 2) = C_of_R 77.
Proof. apply ComplexFacts.C_ext; cbn; ring. Qed.

(** * C49 Chebyshev filters *)

Theorem C49_chebyshev1 : forall cutoff ripple order highpass, 1 <= order -> cutoff <> 0%R -> ripple <> 0%R ->
  let e2 := (Rpower 10 (Rabs ripple / 10) - 1)%R in
  exists F, chebyshev1_filter M T cutoff ripple order highpass = Ok F /\ f_count F = 1 /\ f_labels F = ["Chebyshev 1"%string] /\
    (forall f, evaluable highpass f -> exists z, response T junk F 0 f = Some z /\
      norm2 z = ((if Z.even order then 1 + e2 else 1) / (1 + e2 * chebyshev_polynomial (Z.to_nat order) (relative_frequency highpass cutoff f) ^ 2))%R) /\
    (highpass = true -> response T junk F 0 0%R = Some (C_of_R 0)).
Proof. exact (chebyshev1_response power modulo cpower cmodulo log2_c exp2_c junk). Qed.

(** In the pass band, filters of an even order amplify and filters of an odd order attenuate by at most the ripple; at the cutoff frequency the
    magnitude falls below 1 or below the ripple. *)
Theorem C49_pass_band : forall cutoff ripple order highpass F f z, 1 <= order -> cutoff <> 0%R -> ripple <> 0%R ->
  chebyshev1_filter M T cutoff ripple order highpass = Ok F -> evaluable highpass f -> response T junk F 0 f = Some z ->
  let r := Rpower 10 (Rabs ripple / 10) in let x := Rabs (relative_frequency highpass cutoff f) in
  ((x <= 1)%R -> if Z.even order then (1 <= norm2 z <= r)%R else (1 / r <= norm2 z <= 1)%R) /\
  (x = 1%R -> norm2 z = if Z.even order then 1%R else (1 / r)%R) /\
  ((1 < x)%R -> if Z.even order then (norm2 z < 1)%R else (norm2 z < 1 / r)%R).
Proof. exact (chebyshev1_ripple power modulo cpower cmodulo log2_c exp2_c junk). Qed.

(** Without ripple, the filter is a Butterworth filter. *)
Theorem C49_without_ripple : forall cutoff order highpass, 1 <= order -> cutoff <> 0%R ->
  exists F, chebyshev1_filter M T cutoff 0%R order highpass = Ok F /\ f_labels F = ["Chebyshev 1"%string] /\
    forall f, evaluable highpass f -> exists z, response T junk F 0 f = Some z /\
      norm2 z = (1 / (1 + relative_frequency highpass cutoff f ^ (2 * Z.to_nat order)))%R.
Proof. exact (chebyshev1_without_ripple power modulo cpower cmodulo log2_c exp2_c junk). Qed.

Theorem C49_chebyshev2 : forall cutoff ripple order highpass, 1 <= order -> cutoff <> 0%R -> ripple <> 0%R ->
  let a := (Rpower 10 (Rabs ripple / 10) - 1)%R in
  exists F, chebyshev2_filter M T cutoff ripple order highpass = Ok F /\ f_count F = 1 /\ f_labels F = ["Chebyshev 2"%string] /\
    (forall f, f <> 0%R -> exists z, response T junk F 0 f = Some z /\
      let t := chebyshev_polynomial (Z.to_nat order) (relative_frequency (negb highpass) cutoff f) in norm2 z = (t ^ 2 / (t ^ 2 + a))%R) /\
    (highpass = false -> response T junk F 0 0%R = Some (C_of_R 1)).
Proof. exact (chebyshev2_response power modulo cpower cmodulo log2_c exp2_c junk). Qed.

(** In the stop band, the magnitude is at most that of the ripple, which it has at the cutoff frequency. *)
Theorem C49_stop_band : forall cutoff ripple order highpass F f z, 1 <= order -> cutoff <> 0%R -> ripple <> 0%R ->
  chebyshev2_filter M T cutoff ripple order highpass = Ok F -> f <> 0%R -> response T junk F 0 f = Some z ->
  let r := Rpower 10 (Rabs ripple / 10) in let stop := if highpass then (Rabs f <= Rabs cutoff)%R else (Rabs cutoff <= Rabs f)%R in
  (stop -> (norm2 z <= 1 / r)%R) /\ (Rabs f = Rabs cutoff -> norm2 z = (1 / r)%R) /\ (~ stop -> (1 / r < norm2 z < 1)%R).
Proof. exact (chebyshev2_stop_band power modulo cpower cmodulo log2_c exp2_c junk). Qed.

Example C49_polynomials : chebyshev_polynomial 4 2%R = 97%R.
Proof. cbn. ring. Qed.
Example C49_second_order : exists F z, chebyshev1_filter M T 100%R 10%R 2 false = Ok F /\ response T junk F 0 200%R = Some z /\ norm2 z = (10 / 442)%R.
Proof.
  destruct (C49_chebyshev1 100%R 10%R 2 false ltac:(lia) ltac:(lra) ltac:(lra)) as (F & E & _ & _ & V & _). destruct (V 200%R) as (z & R & N); [discriminate|].
  exists F, z. split; [exact E|]. split; [exact R|]. rewrite N. rewrite Rabs_pos_eq by lra. replace (10 / 10)%R with 1%R by field. rewrite Rpower_1 by lra.
  unfold relative_frequency. replace (chebyshev_polynomial (Z.to_nat 2) (200 / 100)) with 7%R by (change (Z.to_nat 2) with 2%nat; unfold chebyshev_polynomial; cbn [chebyshev_polynomials fst]; field). cbn [Z.even]. field.
Qed.

(** * C50 Weighting filters, delays and derivatives *)

Theorem C50_a_weighting : exists f1 f2 f3 f4, c_poles f1 f4 /\ a_poles f2 f3 /\
  exists F, a_weighting M T junk = Ok (Some F) /\ is_weighting T junk F "A-weighting" (a_curve f1 f2 f3 f4).
Proof. exact (a_weighting_ok power modulo cpower cmodulo log2_c exp2_c junk). Qed.
Theorem C50_b_weighting : exists f1 f4, c_poles f1 f4 /\ exists F, b_weighting M T junk = Ok (Some F) /\ is_weighting T junk F "B-weighting" (b_curve f1 f4).
Proof. exact (b_weighting_ok power modulo cpower cmodulo log2_c exp2_c junk). Qed.
Theorem C50_c_weighting : exists f1 f4, c_poles f1 f4 /\ exists F, c_weighting M T junk = Ok (Some F) /\ is_weighting T junk F "C-weighting" (c_curve f1 f4).
Proof. exact (c_weighting_ok power modulo cpower cmodulo log2_c exp2_c junk). Qed.
Theorem C50_d_weighting : exists F, d_weighting M T junk = Ok (Some F) /\ is_weighting T junk F "D-weighting" d_curve.
Proof. exact (d_weighting_ok power modulo cpower cmodulo log2_c exp2_c junk). Qed.
Theorem C50_u_weighting : exists F, u_weighting M T junk = Ok (Some F) /\ is_weighting T junk F "U-weighting" u_curve.
Proof. exact (u_weighting_ok power modulo cpower cmodulo log2_c exp2_c junk). Qed.

(** A magnitude of 1 and a constant group delay *)
Theorem C50_delay : forall delay, f_labels (delay_filter M T delay) = ["Delay"%string] /\ f_count (delay_filter M T delay) = 1 /\
  exists H, (forall f, response T junk (delay_filter M T delay) 0 f = Some (H f)) /\ forall f, modulus (H f) = 1%R /\ group_delay H f delay.
Proof. exact (delay_ok power modulo cpower cmodulo log2_c exp2_c junk). Qed.

(** The phase at 0 Hz is 0, so delays in series are a delay. *)
Theorem C50_delays : forall d e f y z,
  response T junk (delay_filter M T d) 0 f = Some y -> response T junk (delay_filter M T e) 0 f = Some z ->
  response T junk (delay_filter M T (d + e)%R) 0 f = Some (Cmul y z).
Proof. exact (delays_add power modulo cpower cmodulo log2_c exp2_c junk). Qed.

(** The multiplication with the frequency variable [s] *)
Theorem C50_derivative : f_labels (derivative_filter M T) = ["Derivative"%string] /\ f_count (derivative_filter M T) = 1 /\
  forall f, response T junk (derivative_filter M T) 0 f = Some (0, 2 * PI * f)%R.
Proof. exact (derivative_ok power modulo cpower cmodulo log2_c exp2_c junk). Qed.

End Properties.

Print Assumptions C29_butterworth.
Print Assumptions C29_half_power.
Print Assumptions C29_monotonic.
Print Assumptions C29_order_0.
Print Assumptions C29_cutoff_0.
Print Assumptions C30_bessel.
Print Assumptions C30_low_frequencies.
Print Assumptions C30_group_delay.
Print Assumptions C30_half_power_refuted.
Print Assumptions C49_chebyshev1.
Print Assumptions C49_pass_band.
Print Assumptions C49_without_ripple.
Print Assumptions C49_chebyshev2.
Print Assumptions C49_stop_band.
Print Assumptions C50_a_weighting.
Print Assumptions C50_b_weighting.
Print Assumptions C50_c_weighting.
Print Assumptions C50_d_weighting.
Print Assumptions C50_u_weighting.
Print Assumptions C50_delay.
Print Assumptions C50_delays.
Print Assumptions C50_derivative.
