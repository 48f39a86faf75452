(** Cases of sweeps and harmonic impulse responses. *)

From Coq Require Import String ZArith QArith List Bool Lia Lra ZifyBool Reals.
From Verif.Model Require Import Py Numpy Vector Functions Signal Fft Fourier Text Sweeps.
From Verif.Spec Require Import TimeSpec RealSpec ComplexSpec DftSpec FourierSpec SweepSpec HarmonicSpec.
From Verif.Proofs Require Import PyFacts NumpyFacts SumFacts DftFacts SweepFacts WaveFacts HarmonicFacts.
Import ListNotations.
Open Scope Z_scope.

Lemma linear_ends f0 f1 a b rate : (0 < rate)%R -> a <> b ->
  linear_frequency f0 f1 a b rate (IZR a / rate) = f0 /\ linear_frequency f0 f1 a b rate (IZR b / rate) = f1.
Proof.
  intros P AB. assert (B : IZR (b - a) <> 0%R) by (apply IZR_neq; lia). unfold linear_frequency. rewrite minus_IZR in *. split; field; split; auto; lra.
Qed.

Lemma exponential_ends f0 f1 a b rate : (0 < rate)%R -> a <> b -> (0 < f0)%R -> (0 < f1)%R ->
  exponential_frequency f0 f1 a b rate (IZR a / rate) = f0 /\ exponential_frequency f0 f1 a b rate (IZR b / rate) = f1.
Proof.
  intros P AB F0 F1. assert (B : IZR (b - a) <> 0%R) by (apply IZR_neq; lia). unfold exponential_frequency. rewrite minus_IZR in *. split.
  - replace ((IZR a / rate * rate - IZR a) / (IZR b - IZR a))%R with 0%R by (field; split; auto; lra). rewrite Rpower_O; [lra|]. apply Rdiv_lt_0_compat; auto.
  - replace ((IZR b / rate * rate - IZR a) / (IZR b - IZR a))%R with 1%R by (field; split; auto; lra). rewrite Rpower_1; [field; lra|]. apply Rdiv_lt_0_compat; auto.
Qed.

Lemma equal_frequencies power modulo junk numexpr f phase i j rate length a b :
  (0 < rate)%R -> 0 <= length -> index i length = Ok a -> index j length = Ok b -> (0 < f)%R ->
  exponential_sweep (real_ops power modulo) real_functions junk numexpr f f phase i j rate length = Err ZeroDivisionError.
Proof.
  intros P L Ea Eb F. unfold exponential_sweep. destruct (VectorFacts.vector_ok junk length L) as (v & -> & _). cbn [bind].
  unfold exponential_sweep_parameters. destruct (general_ok power modulo i j rate length a b P L Ea Eb) as (t & -> & _). cbn [bind].
  rewrite (divide_ok power modulo) by lra. cbn [bind]. replace (f / f)%R with 1%R by (field; lra). unfold logarithm. cbn. rewrite leb_false by lra. cbn. rewrite ln_1.
  unfold divide. cbn. destruct (Req_EM_T 0 0); [reflexivity|lra].
Qed.

(** A linear sweep, that has reached the frequency 0 before the interval begins *)
Lemma negative_minimum power modulo junk numexpr :
  exists r, linear_sweep (real_ops power modulo) real_functions junk numexpr 20%R 20000%R 0%R (NFloat (1 # 2)) (NFloat 1) 48000%R 1000 = Ok r /\ (sw_minimum r = -19960)%R.
Proof.
  destruct (linear_sweep_ok power modulo junk numexpr 20%R 20000%R 0%R (NFloat (1 # 2)) (NFloat 1) 48000%R 1000 500 1000) as (r & E & (Fr & _)); try reflexivity; try lia; try lra.
  exists r. split; [exact E|]. destruct Fr as (_ & _ & _ & _ & _ & _ & Mn & (t & Ht & Et) & _ & _ & _). rewrite <- Et.
  pose proof (Mn 0%R ltac:(lra)) as M0. unfold linear_frequency in *. rewrite <- Et in M0. change (1000 - 500) with 500 in *. lra.
Qed.

(** ** Harmonics *)

(** The sweep rate of an exponential sweep over two octaves in three samples *)
Definition demo_rate : R := (3 / (2 * ln 2))%R.
Definition demo_response : signal R := mk_signal (Arr [[0; 0; 1; 0]%R] 4) 1%R 0 (Some ["H"%string]).
Definition demo_responses : signal R := mk_signal (Arr [[0; 0; 1; 0]; [4; 3; 2; 1]]%R 4) 1%R 0 (Some ["H"%string]).

Lemma ln2 : (0 < ln 2)%R.
Proof. rewrite <- ln_1. apply ln_increasing; lra. Qed.
Lemma demo_rate_ok : (0 < demo_rate)%R /\ sweep_rate 1 4 0 3 1 = demo_rate.
Proof.
  pose proof ln2. split; [apply Rdiv_lt_0_compat; lra|]. unfold sweep_rate, demo_rate. change (3 - 0) with 3.
  replace (4 / 1)%R with (2 * 2)%R by field. rewrite ln_mult by lra. field. lra.
Qed.
Lemma demo_rounded rate : rate = 1%R -> rounded_up (ln (IZR 2) * demo_rate * rate) 2 /\ rounded_down (ln (IZR (2 - 1)) * demo_rate * rate) 0.
Proof.
  intros ->. pose proof ln2. change (2 - 1) with 1. rewrite ln_1. replace (ln (IZR 2) * demo_rate * 1)%R with (3 / 2)%R by (unfold demo_rate; field; lra).
  unfold rounded_up, rounded_down. lra.
Qed.
Lemma demo_wf : wf_signal demo_response /\ wf_signal demo_responses.
Proof. repeat split; cbn; try lia; repeat constructor. Qed.
Lemma demo_fits : fits demo_response 2 0 /\ fits demo_responses 2 0.
Proof. unfold fits, begins, ends, length. cbn. lia. Qed.

Lemma dft2 x k : dft_of 2 x k = Cadd (Cmul (C_of_R (x 0)) (root 2 0)) (Cadd (Cmul (C_of_R (x 1)) (root 2 (- k))) (C_of_R 0)).
Proof. unfold dft_of, Csum. change (zseq 0 2) with [0; 1]. cbn [fold_right]. rewrite Z.mul_1_l. reflexivity. Qed.
Lemma root2 : root 2 0 = C_of_R 1 /\ root 2 (- 1) = C_of_R (-1).
Proof.
  split; [apply root_0; lia|]. unfold root, cis, C_of_R. change (- 1) with (-1). replace (2 * PI * IZR (-1) / 2)%R with (- PI)%R by field.
  rewrite cos_neg, sin_neg, cos_PI, sin_PI. f_equal; ring.
Qed.

(** Two samples, that are advanced by half a sampling interval, are replaced by their mean. *)
Lemma half x y : advanced 2 (1 / 2) x y -> y 0 = ((x 0%Z + x 1%Z) / 2)%R /\ y 1 = ((x 0%Z + x 1%Z) / 2)%R.
Proof.
  intros A. destruct (A 0 ltac:(lia)) as [A0 _]. destruct (A 1 ltac:(lia)) as [_ A1]. specialize (A0 ltac:(lia)). specialize (A1 ltac:(lia)).
  rewrite !dft2 in A0, A1. change (- 0) with 0 in A0. destruct root2 as [R0 R1]. rewrite R0 in A0, A1. change (Z.opp 1) with (-1) in A1. rewrite R1 in A1.
  replace (2 * PI * 0 * (1 / 2) / 2)%R with 0%R in A0 by field. replace (PI * (1 / 2))%R with (PI / 2)%R in A1 by field. rewrite cos_PI2 in A1.
  apply (f_equal re) in A0, A1. cbn in A0, A1. rewrite cos_0, sin_0 in A0. lra.
Qed.

Lemma argument_overwritten power modulo cpower cmodulo junk :
  exists r a, harmonic_impulse_response (real_ops power modulo) real_functions real_transforms (real_numbers cpower cmodulo) junk demo_rate demo_response 2 None = Ok (Outcome r a) /\
    at_time demo_response 0 2 = Some 1%R /\ el a 0 2 = Some (1 / 2)%R /\ at_time r 0 0 = Some (1 / 2)%R /\ at_time r 0 1 = Some (1 / 2)%R.
Proof.
  destruct (demo_rounded 1%R eq_refl) as [Hs He]. destruct demo_wf as [W _]. destruct demo_fits as [F _].
  destruct (response_none power modulo cpower cmodulo junk demo_response 2 demo_rate 2 0) as (r & a & E & Fr & A & _ & _ & _ & Va); auto; try (cbn; lra); try (cbn; lia).
  { reflexivity. } { apply demo_rate_ok. }
  exists r, a. split; [exact E|]. split; [reflexivity|]. specialize (A 0 ltac:(vm_compute; split; congruence)). unfold advance in A. cbn [Z.sub Z.opp Z.add Z.even] in A.
  replace (IZR 2 - ln (IZR 2) * demo_rate * sampling_rate demo_response)%R with (1 / 2)%R in A.
  2:{ pose proof ln2. cbn [sampling_rate demo_response mk_signal]. unfold demo_rate. field. lra. }
  apply half in A. destruct A as [A0 A1]. 
  assert (P : periodic demo_response 0 (0 - 2) = 1%R /\ periodic demo_response 0 (1 - 2) = 0%R) by (split; reflexivity). destruct P as [P0 P1].
  rewrite P0, P1 in *. pose proof (Va 0 2 ltac:(vm_compute; split; congruence) ltac:(unfold ends; cbn; lia)) as V. change (el a 0 2 = Some (sample r 0 0)) in V.
  destruct Fr as (Wr & Cr & _ & Br & Er & _).
  assert (S : forall t, 0 <= t < 2 -> at_time r 0 t = Some (sample r 0 t)).
  { intros t T. unfold sample, at_time. destruct (el_in (channels r) 0 (t - offset r)) as (v & ->); auto; [apply Wr|change (nrows (channels r)) with (count r); rewrite Cr; vm_compute; split; congruence|].
    unfold begins, ends, length in *. lia. }
  rewrite V, !S by lia. rewrite A0, A1. split; [|split]; f_equal; lra.
Qed.

Lemma length_ignored power modulo cpower cmodulo junk :
  exists r, harmonic_impulse_response (real_ops power modulo) real_functions real_transforms (real_numbers cpower cmodulo) junk demo_rate demo_responses 2 (Some 1) = Ok (Outcome r (channels demo_responses)) /\
    length r = 2.
Proof.
  destruct (demo_rounded 1%R eq_refl) as [Hs He]. destruct demo_wf as [_ W]. destruct demo_fits as [_ F].
  destruct (response_ignored power modulo cpower cmodulo junk demo_responses 2 demo_rate 2 0) with (n := 1) as (r & E & Fr & _); auto; try (cbn; lra); try (cbn; lia).
  { apply demo_rate_ok. } { vm_compute. congruence. }
  exists r. split; [exact E|]. destruct Fr as (_ & _ & _ & Br & Er & _). unfold begins, ends in *. lia.
Qed.

(** A linear impulse response of one sample in one channel is not cropped *)
Lemma linear_length_ignored power modulo cpower cmodulo junk :
  exists r, harmonic_impulse_response (real_ops power modulo) real_functions real_transforms (real_numbers cpower cmodulo) junk demo_rate
      (mk_signal (Arr [[1]; [2]]%R 1) 1%R 0 None) 1 (Some 0) = Ok r /\ length (o_result r) = 1.
Proof. eexists. split; [vm_compute; reflexivity|reflexivity]. Qed.

(** ** The theorems *)
Lemma linear_sweep_angle power modulo junk numexpr f0 f1 phase i j rate length a b :
  (0 < rate)%R -> 0 <= length -> index i length = Ok a -> index j length = Ok b -> a <> b ->
  exists r phi, linear_sweep (real_ops power modulo) real_functions junk numexpr f0 f1 phase i j rate length = Ok r /\
    angle_of (linear_frequency f0 f1 a b rate) phi (IZR a / rate) phase /\
    is_sweep r rate length (linear_frequency f0 f1 a b rate) phi.
Proof.
  intros P L Ea Eb AB. destruct (linear_sweep_ok power modulo junk numexpr f0 f1 phase i j rate length a b) as (r & E & S); auto.
  exists r, (linear_angle f0 f1 phase a b rate). split; [exact E|]. split; [now apply linear_angle_ok|exact S].
Qed.

Lemma inverse_linear_sweep_angle power modulo junk numexpr f0 f1 phase i j rate length a b :
  (0 < rate)%R -> 0 <= length -> index i length = Ok a -> index j length = Ok b -> a <> b ->
  exists r phi, inverse_linear_sweep (real_ops power modulo) real_functions junk numexpr f0 f1 phase i j rate length = Ok r /\
    angle_of (linear_frequency f0 f1 a b rate) phi (IZR a / rate) phase /\
    is_inverse_sweep r rate a b length (linear_frequency f0 f1 a b rate) phi (fun _ => 2 / IZR (b - a))%R.
Proof.
  intros P L Ea Eb AB. destruct (inverse_linear_sweep_ok power modulo junk numexpr f0 f1 phase i j rate length a b) as (r & E & S); auto.
  exists r, (linear_angle f0 f1 phase a b rate). split; [exact E|]. split; [now apply linear_angle_ok|exact S].
Qed.

Lemma exponential_sweep_angle power modulo junk numexpr f0 f1 phase i j rate length a b :
  (0 < rate)%R -> 0 <= length -> index i length = Ok a -> index j length = Ok b -> a <> b -> (0 < f0)%R -> (0 < f1)%R -> f0 <> f1 ->
  exists r phi, exponential_sweep (real_ops power modulo) real_functions junk numexpr f0 f1 phase i j rate length = Ok r /\
    angle_of (exponential_frequency f0 f1 a b rate) phi (IZR a / rate) phase /\
    is_sweep r rate length (exponential_frequency f0 f1 a b rate) phi.
Proof.
  intros P L Ea Eb AB F0 F1 F01. destruct (exponential_sweep_ok power modulo junk numexpr f0 f1 rate a b) with (phase := phase) (i := i) (j := j) (length := length) as (r & E & S & _); auto.
  exists r, (exponential_angle f0 f1 phase a b rate). split; [exact E|]. split; [now apply exponential_angle_ok|exact S].
Qed.

Lemma inverse_exponential_sweep_angle power modulo junk numexpr f0 f1 phase i j rate length a b :
  (0 < rate)%R -> 0 <= length -> index i length = Ok a -> index j length = Ok b -> a <> b -> (0 < f0)%R -> (0 < f1)%R -> f0 <> f1 ->
  exists r phi, inverse_exponential_sweep (real_ops power modulo) real_functions junk numexpr f0 f1 phase i j rate length = Ok r /\
    angle_of (exponential_frequency f0 f1 a b rate) phi (IZR a / rate) phase /\
    is_inverse_sweep r rate a b length (exponential_frequency f0 f1 a b rate) phi
      (fun t => 2 / IZR (b - a) * (ln (f1 / f0) / (f1 - f0) * exponential_frequency f0 f1 a b rate t))%R.
Proof.
  intros P L Ea Eb AB F0 F1 F01. destruct (inverse_exponential_sweep_ok power modulo junk numexpr f0 f1 rate a b) with (phase := phase) (i := i) (j := j) (length := length) as (r & E & S & _); auto.
  exists r, (exponential_angle f0 f1 phase a b rate). split; [exact E|]. split; [now apply exponential_angle_ok|exact S].
Qed.

Lemma sweep_ends f0 f1 a b rate : (0 < rate)%R -> a <> b ->
  (linear_frequency f0 f1 a b rate (IZR a / rate) = f0 /\ linear_frequency f0 f1 a b rate (IZR b / rate) = f1) /\
  ((0 < f0)%R -> (0 < f1)%R ->
   exponential_frequency f0 f1 a b rate (IZR a / rate) = f0 /\ exponential_frequency f0 f1 a b rate (IZR b / rate) = f1).
Proof. intros. split; [now apply linear_ends|]. intros. now apply exponential_ends. Qed.

Lemma waves_repeat power modulo junk frequency phase rate length p q n : (0 < rate)%R -> (frequency * IZR p = rate * IZR q)%R ->
  0 <= n < length -> 0 <= n + p < length ->
  exists s r, sine_wave (real_ops power modulo) real_functions junk frequency phase rate length = Ok s /\
    square_wave (real_ops power modulo) real_functions junk frequency phase rate length = Ok r /\
    at_time (w_signal s) 0 (n + p) = at_time (w_signal s) 0 n /\ at_time (w_signal r) 0 (n + p) = at_time (w_signal r) 0 n.
Proof.
  intros P E H1 H2. destruct (make_wave_ok power modulo junk (fun x => x) "Sine" frequency phase rate length P ltac:(lia)) as (s & Es & Ws).
  destruct (make_wave_ok power modulo junk (sign (real_ops power modulo) real_functions) "Square wave" frequency phase rate length P ltac:(lia)) as (r & Er & Wr).
  exists s, r. split; [exact Es|]. split; [exact Er|]. split; [|eapply wave_periodic; eauto].
  eapply (wave_periodic _ _ _ _ _ _ (fun x => x)); eauto.
Qed.

Lemma square_values : (1000 * IZR 48 = 48000 * IZR 1)%R /\ square (PI / 2) = 1%R /\ square (- (PI / 2)) = (-1)%R /\ square 0 = 0%R.
Proof.
  unfold square. rewrite sin_neg, sin_PI2, sin_0. repeat split; [lra| | |]; repeat (destruct (Rlt_dec _ _)); try reflexivity; lra.
Qed.

Lemma demo_hypotheses : wf_signal demo_response /\ 0 < count demo_response /\ (0 < sampling_rate demo_response)%R /\
  (0 < demo_rate)%R /\ sweep_rate 1 4 0 3 1 = demo_rate /\
  rounded_up (ln (IZR 2) * demo_rate * sampling_rate demo_response) 2 /\ rounded_down (ln (IZR (2 - 1)) * demo_rate * sampling_rate demo_response) 0 /\
  fits demo_response 2 0 /\ count demo_response < 2 - 0.
Proof.
  destruct (demo_rounded 1%R eq_refl) as [Hs He]. split; [apply demo_wf|]. split; [reflexivity|]. split; [cbn; lra|].
  split; [apply demo_rate_ok|]. split; [apply demo_rate_ok|]. split; [exact Hs|]. split; [exact He|]. split; [apply demo_fits|reflexivity].
Qed.

Lemma harmonic_rate power modulo junk numexpr f0 f1 phase i j rate length a b :
  (0 < rate)%R -> 0 <= length -> index i length = Ok a -> index j length = Ok b -> a <> b -> (0 < f0)%R -> (0 < f1)%R -> f0 <> f1 ->
  exists r q l, exponential_sweep (real_ops power modulo) real_functions junk numexpr f0 f1 phase i j rate length = Ok r /\
    inverse_exponential_sweep (real_ops power modulo) real_functions junk numexpr f0 f1 phase i j rate length = Ok q /\
    sw_rate r = Some l /\ sw_rate q = Some l /\
    forall h t, (0 < h)%R -> (exponential_frequency f0 f1 a b rate (t + ln h * l) = h * exponential_frequency f0 f1 a b rate t)%R.
Proof.
  intros P L Ea Eb AB F0 F1 F01.
  destruct (exponential_sweep_ok power modulo junk numexpr f0 f1 rate a b) with (phase := phase) (i := i) (j := j) (length := length) as (r & Er & _ & Rr); auto.
  destruct (inverse_exponential_sweep_ok power modulo junk numexpr f0 f1 rate a b) with (phase := phase) (i := i) (j := j) (length := length) as (q & Eq & _ & Rq); auto.
  exists r, q, (sweep_rate f0 f1 a b rate). repeat (split; [assumption|]). intros h t Hh.
  rewrite !exponential_frequency_exp by auto. pose proof (rate_not_zero f0 f1 rate a b P F0 F1 F01 AB).
  replace ((t + ln h * sweep_rate f0 f1 a b rate - IZR a / rate) / sweep_rate f0 f1 a b rate)%R
    with ((t - IZR a / rate) / sweep_rate f0 f1 a b rate + ln h)%R by (field; split; auto; lra).
  rewrite exp_plus, exp_ln by auto. ring.
Qed.
