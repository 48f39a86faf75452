(** Stationary waves and constants. *)

From Coq Require Import String ZArith QArith List Bool Lia Lra ZifyBool Reals.
From Verif.Model Require Import Py Numpy Vector Functions Signal Spectrum Cube Spectrogram Sweeps.
From Verif.Spec Require Import TimeSpec FrequencySpec RealSpec SpectrogramSpec SweepSpec.
From Verif.Proofs Require Import PyFacts NumpyFacts VectorFacts MergeOrder CubeFacts SweepFacts.
Import ListNotations.
Open Scope Z_scope.

Section Waves.
Variables power modulo : R -> R -> R.
Variable junk : Z -> R.
Notation O := (real_ops power modulo).
Notation M := real_functions.

Lemma make_wave_ok f label frequency phase rate length : (0 < rate)%R -> 0 <= length ->
  exists r, make_wave O M junk f label frequency phase rate length = Ok r /\
    is_wave r label frequency rate length (fun t => f (sin (2 * PI * frequency * t + phase))).
Proof.
  intros P L. unfold make_wave. destruct (vector_ok junk length L) as (v & -> & Lv). cbn [bind].
  rewrite (divide_ok power modulo) by lra. cbn [bind].
  match goal with |- context [vset v everything ?w] => set (values := w) end.
  assert (Lw : zlen values = length). { unfold values. rewrite zlen_map. now apply zlen_linspace. }
  rewrite vset_everything by lia. cbn [bind]. rewrite Lw. rewrite (divide_ok power modulo) by lra. cbn [bind].
  eexists. split; [reflexivity|]. unfold is_wave. cbn [w_signal w_periods].
  split; [split; [split; [exact L|constructor; [exact Lw|constructor]]|reflexivity]|].
  split; [reflexivity|]. split; [reflexivity|]. split; [reflexivity|]. split; [reflexivity|]. split; [reflexivity|].
  split. { cbn. ring. }
  intros n Hn. match goal with |- ?lhs = _ => change lhs with (zth values (n - 0)) end. rewrite Z.sub_0_r. unfold values. rewrite zth_map.
  rewrite (linspace_nth power modulo) with (d := (2 * PI * frequency / rate)%R); auto.
  - cbn. do 3 f_equal. unfold Rdiv. ring.
  - cbn. unfold Rdiv. ring.
Qed.

Lemma sine_wave_ok frequency phase rate length : (0 < rate)%R -> 0 <= length ->
  exists r, sine_wave O M junk frequency phase rate length = Ok r /\
    is_wave r "Sine" frequency rate length (fun t => sin (2 * PI * frequency * t + phase)).
Proof. apply make_wave_ok. Qed.

Lemma sign_ok x : sign O M (sin x) = square x.
Proof.
  unfold sign, square. cbn. destruct (Rlt_dec 0 (sin x)).
  - rewrite leb_false by auto. reflexivity.
  - rewrite leb_true by lra. destruct (Rlt_dec (sin x) 0); [rewrite leb_false by auto|rewrite leb_true by lra]; reflexivity.
Qed.

Lemma square_wave_ok frequency phase rate length : (0 < rate)%R -> 0 <= length ->
  exists r, square_wave O M junk frequency phase rate length = Ok r /\
    is_wave r "Square wave" frequency rate length (fun t => square (2 * PI * frequency * t + phase)).
Proof.
  intros P L. destruct (make_wave_ok (sign O M) "Square wave" frequency phase rate length P L) as (r & E & W).
  exists r. split; [exact E|]. unfold is_wave in *. intuition. rewrite <- sign_ok. auto.
Qed.

Lemma sin_period_Z x q : sin (x + 2 * PI * IZR q) = sin x.
Proof.
  destruct (Z_le_gt_dec 0 q) as [H|H].
  - rewrite <- (Z2Nat.id q) by auto. rewrite <- INR_IZR_INZ. replace (x + 2 * PI * INR (Z.to_nat q))%R with (x + 2 * INR (Z.to_nat q) * PI)%R by ring. apply sin_period.
  - replace q with (- Z.of_nat (Z.to_nat (- q))) by lia. rewrite opp_IZR, <- INR_IZR_INZ. set (k := Z.to_nat (- q)).
    rewrite <- (sin_period (x + 2 * PI * - INR k) k). f_equal. ring.
Qed.

(** The samples of a wave repeat after whole periods. *)
Lemma wave_periodic r label frequency phase rate length (g : R -> R) p q n : (0 < rate)%R ->
  is_wave r label frequency rate length (fun t => g (sin (2 * PI * frequency * t + phase))) -> (frequency * IZR p = rate * IZR q)%R ->
  0 <= n < length -> 0 <= n + p < length -> at_time (w_signal r) 0 (n + p) = at_time (w_signal r) 0 n.
Proof.
  intros P (_ & _ & _ & _ & _ & _ & _ & V) E H1 H2. rewrite !V by auto. do 2 f_equal. rewrite <- (sin_period_Z (2 * PI * frequency * (IZR n / rate) + phase) q). f_equal.
  rewrite plus_IZR. replace (IZR q) with (frequency * IZR p / rate)%R. { field. lra. }
  rewrite E. field. lra.
Qed.

End Waves.

(** ** Constants *)

Lemma constant_signal_ok {A} (junk : Z -> A) (value rate : A) length : 0 <= length ->
  exists s, constant_signal junk value rate length = Ok s /\ wf_signal s /\ count s = 1 /\ sampling_rate s = rate /\ begins s = 0 /\ ends s = length /\
    labels s = ["Constant"%string] /\ forall n, 0 <= n < length -> at_time s 0 n = Some value.
Proof.
  intros L. unfold constant_signal. destruct (vector_ok junk length L) as (v & -> & Lv). cbn [bind]. eexists. split; [reflexivity|].
  rewrite vfill_everything, Lv. split; [split; [split; [exact L|constructor; [rewrite zlen_repeat, Z.max_r by exact L; reflexivity|constructor]]|reflexivity]|].
  split; [reflexivity|]. split; [reflexivity|]. split; [reflexivity|]. split; [reflexivity|]. split; [reflexivity|].
  intros n Hn. match goal with |- ?lhs = _ => change lhs with (zth (zrepeat value length) (n - 0)) end. rewrite Z.sub_0_r, zth_repeat. replace (_ && _) with true by lia. reflexivity.
Qed.

Lemma constant_spectrum_ok {K R} (junk : Z -> K) (value : K) (resolution : R) length : 0 <= length ->
  exists s, constant_spectrum junk value resolution length = Ok s /\ wf_spectrum s /\ sp_count s = 1 /\ Spectrum.resolution s = resolution /\ sp_length s = length /\
    sp_labels s = ["Constant"%string] /\ forall n, 0 <= n < length -> bin s 0 n = Some value.
Proof.
  intros L. unfold constant_spectrum. destruct (vector_ok junk length L) as (v & -> & Lv). cbn [bind]. eexists. split; [reflexivity|].
  rewrite vfill_everything, Lv. split; [split; [split; [exact L|constructor; [rewrite zlen_repeat, Z.max_r by exact L; reflexivity|constructor]]|reflexivity]|].
  split; [reflexivity|]. split; [reflexivity|]. split; [reflexivity|]. split; [reflexivity|].
  intros n Hn. match goal with |- ?lhs = _ => change lhs with (zth (zrepeat value length) n) end. rewrite zth_repeat. replace (_ && _) with true by lia. reflexivity.
Qed.

Lemma constant_spectrogram_ok {K R} (junk : Z -> Z -> Z -> K) (value : K) (resolution rate : R) frequencies length : 0 <= frequencies -> 0 <= length ->
  exists s, constant_spectrogram junk value resolution rate frequencies length = Ok s /\ wf_spectrogram s /\ sg_count s = 1 /\
    sg_resolution s = resolution /\ sg_rate s = rate /\ sg_begins s = 0 /\ sg_ends s = length /\ sg_frequencies s = frequencies /\
    sg_labels s = ["Constant"%string] /\ forall f n, 0 <= f < frequencies -> 0 <= n < length -> sg_at s 0 f n = Some value.
Proof.
  intros F L. unfold constant_spectrogram. destruct (allocate3_ok junk 1 frequencies length) as (m & -> & Wm & D0 & D1 & D2); auto; try lia. cbn [bind].
  destruct (scalar3_ok value) as (Ws & S0 & S1 & S2 & Sv).
  destruct (set3_ok m everything everything everything (scalar3 value) 0 1 0 frequencies 0 length) as (r & -> & Wr & R0 & R1 & R2 & V); auto;
    rewrite ?D0, ?D1, ?D2; try apply lower_everything; try (apply upper_everything; lia).
  cbn [bind]. eexists. split; [reflexivity|]. unfold mk_spectrogram.
  split; [split; [exact Wr|unfold sg_count; cbn [sg_channels sg_labels]; rewrite R0, D0; reflexivity]|].
  unfold sg_count, sg_begins, sg_ends, sg_length, sg_frequencies, sg_at. cbn [sg_channels sg_resolution sg_rate sg_offset sg_labels].
  rewrite R0, D0, R1, D1, R2, D2. repeat (split; [reflexivity|]). intros f n Hf Hn. rewrite V.
  replace (_ && _) with true by (unfold inr; lia). rewrite S0, S1, S2. exact Sv.
Qed.
