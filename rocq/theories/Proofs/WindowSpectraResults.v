(** The measures of rectangular windows that are computed from spectrums; windows for which the documented bandwidth is wrong. *)

From Coq Require Import String ZArith List Bool Lia ZifyBool Reals Lra Ring_theory Field_theory Ring Field.
From Verif.Model Require Import Py Numpy Vector Functions Signal Fft Generators Windows WindowSpectra.
From Verif.Spec Require Import TimeSpec RealSpec ConvolutionSpec ComplexSpec DftSpec BlockSpec WindowSpec WindowSpectraSpec.
From Verif.Proofs Require Import PyFacts NumpyFacts VectorFacts SliceFacts FadeFacts SumFacts ComplexFacts ConvolveFacts DftFacts BlockRanges WindowMeasures WindowShapes WindowResults WindowSpectraFacts.
Import ListNotations.
Open Scope Z_scope.
Ltac Zify.zify_post_hook ::= idtac.

Section Results.
Variables power modulo : R -> R -> R.
Variable junk : Z -> R.
Notation O := (real_ops power modulo).

Lemma rectangular_ok rate length symmetric : 0 < length ->
  exists w, real_window power modulo junk RectangularWindow rate (NInt 0) length symmetric = Ok w /\ wf_signal w /\ count w = 1 /\ Signal.length w = length /\
    sampling_rate w = rate /\ forall n, 0 <= n < length -> window_at w 0 n = 1%R.
Proof.
  intros H. destruct (window_ok O (window_function O IZR PI cos RectangularWindow) (sized_ok power modulo RectangularWindow) junk rate (window_label RectangularWindow) (NInt 0) length symmetric 0)
    as (w & Ew & Ww & Cw & Bw & En & Rw & Lw & _ & Q & _); try lia.
  { rewrite index_int by lia. reflexivity. }
  exists w. split; [exact Ew|]. do 2 (split; [auto|]). split; [unfold begins, ends in *; lia|]. split; [exact Rw|].
  intros n Hn. rewrite window_at_time by auto. rewrite (Q eq_refl n Hn). unfold window_function, ones. rewrite zth_repeat. destruct symmetric; replace (_ && _) with true by lia; reflexivity.
Qed.

(** ** The spectrum of a rectangular window *)
Section Rectangular.
Variable w : signal R.
Hypothesis Ww : wf_signal w.
Hypothesis One : count w = 1.
Notation l := (length w).
Hypothesis Pos : 0 < l.
Hypothesis Ones : forall n, 0 <= n < l -> window_at w 0 n = 1%R.

Lemma geometric a n : 0 <= n -> Cmul (Csub (cis a) (C_of_R 1)) (sumz CO 0 n (fun k => cis (a * IZR k))) = Csub (cis (a * IZR n)) (C_of_R 1).
Proof.
  intros Hn. apply (natlike_ind (fun n => Cmul (Csub (cis a) (C_of_R 1)) (sumz CO 0 n (fun k => cis (a * IZR k))) = Csub (cis (a * IZR n)) (C_of_R 1))); [| |exact Hn].
  - rewrite sumz_nil by lia. rewrite Rmult_0_r, cis_0. apply C_ext; cbn; ring.
  - clear n Hn. intros n Hn IH. rewrite (sumz_snoc CO CO_ring) by lia. replace (Z.succ n - 1) with n by lia. replace (0 + Z.succ n - 1) with n by lia.
    change (o_add CO) with Cadd. transitivity (Cadd (Cmul (Csub (cis a) (C_of_R 1)) (sumz CO 0 n (fun k => cis (a * IZR k)))) (Cmul (Csub (cis a) (C_of_R 1)) (cis (a * IZR n)))).
    + apply C_ext; cbn; ring.
    + rewrite IH. replace (cis (a * IZR (Z.succ n))) with (Cmul (cis a) (cis (a * IZR n))) by (rewrite <- cis_add; f_equal; rewrite succ_IZR; ring). apply C_ext; cbn; ring.
Qed.

Lemma modulus_chord a : modulus (Csub (cis a) (C_of_R 1)) = (2 * Rabs (sin (a / 2)))%R.
Proof.
  replace 2%R with (Rabs 2) at 1 by (apply Rabs_right; lra). rewrite <- Rabs_mult, <- sqrt_Rsqr_abs. unfold modulus. f_equal. unfold norm2, Csub, cis, C_of_R, re, im, Rsqr. cbn [fst snd].
  replace a with (2 * (a / 2))%R at 1 2 3 4 by field. rewrite cos_2a_sin, sin_2a. pose proof (sin2_cos2 (a / 2)) as H. unfold Rsqr in H.
  set (s := sin (a / 2)) in *. set (c := cos (a / 2)) in *. clearbody s c. replace (c * c)%R with (1 - s * s)%R by lra || idtac.
  transitivity (4 * (s * s) * (s * s) + 4 * (s * s) * (c * c))%R; [ring|]. replace (c * c)%R with (1 - s * s)%R by lra. ring.
Qed.

Lemma rectangular_spectrum nu : (magnitude_at w nu * Rabs (sin (PI * nu)) = Rabs (sin (PI * nu * IZR l)))%R.
Proof.
  assert (E : magnitude_at w nu = modulus (sumz CO 0 l (fun k => cis (- (2 * PI * nu) * IZR k)))).
  { unfold magnitude_at. f_equal. rewrite Csum_sumz. apply sumz_ext. intros k Hk. rewrite Ones by lia. replace (- (2 * PI * nu * IZR k))%R with (- (2 * PI * nu) * IZR k)%R by ring. apply C_ext; cbn; ring. }
  pose proof (f_equal modulus (geometric (- (2 * PI * nu)) l ltac:(lia))) as G. rewrite modulus_mul, <- E, !modulus_chord in G.
  replace (- (2 * PI * nu) / 2)%R with (- (PI * nu))%R in G by field. replace (- (2 * PI * nu) * IZR l / 2)%R with (- (PI * nu * IZR l))%R in G by field.
  rewrite !sin_neg, !Rabs_Ropp in G. lra.
Qed.

Lemma rectangular_sum : window_sum w = IZR l.
Proof.
  unfold window_sum. rewrite (Rsum_list_ext _ _ (fun _ => 1%R)) by (intros n Hn; apply in_zseq in Hn; apply Ones; lia).
  change (Rsum_list (zseq 0 l) (fun _ => 1%R)) with (sumz RO 0 l (fun _ => 1%R)).
  apply (natlike_ind (fun n => sumz RO 0 n (fun _ => 1%R) = IZR n)); [reflexivity| |lia]. intros n Hn IH. rewrite (sumz_snoc RO (real_ring _ _)) by lia.
  replace (Z.succ n - 1) with n by lia. rewrite IH, succ_IZR. reflexivity.
Qed.

Lemma rectangular_0 : magnitude_at w 0 = IZR l.
Proof. rewrite magnitude_0, rectangular_sum. apply Rabs_right. apply Rle_ge, IZR_le. lia. Qed.

Lemma rectangular_scalloping : real_scalloping_loss power modulo junk w = Ok (Some (1 / (IZR l * sin (PI / (2 * IZR l))))%R) /\ (2 / PI < 1 / (IZR l * sin (PI / (2 * IZR l))))%R.
Proof.
  assert (Pl : (1 <= IZR l)%R) by (apply IZR_le; lia). pose proof PI_RGT_0 as PI0.
  assert (A : (0 < PI / (2 * IZR l) < PI)%R).
  { split; [apply Rdiv_lt_0_compat; lra|]. apply (Rmult_lt_reg_r (2 * IZR l)); [lra|]. unfold Rdiv. rewrite Rmult_assoc, Rinv_l by lra.
    pose proof (Rmult_lt_0_compat PI (2 * IZR l - 1) PI0 ltac:(lra)). lra. }
  assert (S0 : (0 < sin (PI / (2 * IZR l)))%R) by (apply sin_gt_0; lra). split.
  - rewrite scalloping_ok by auto. rewrite rectangular_sum, rectangular_0. destruct (Req_EM_T (IZR l) 0) as [Z0|_]; [exfalso; lra|]. do 2 f_equal.
    pose proof (rectangular_spectrum (1 / (2 * IZR l))) as E. replace (PI * (1 / (2 * IZR l)))%R with (PI / (2 * IZR l))%R in E by (field; lra).
    replace (PI / (2 * IZR l) * IZR l)%R with (PI / 2)%R in E by (field; lra). rewrite sin_PI2, Rabs_R1, (Rabs_right (sin _)) in E by lra.
    replace (magnitude_at w (1 / (2 * IZR l))) with (/ sin (PI / (2 * IZR l)))%R; [field; lra|]. apply (Rmult_eq_reg_r (sin (PI / (2 * IZR l)))); [|lra]. rewrite E. field. lra.
  - pose proof (sin_lt_x (PI / (2 * IZR l)) (proj1 A)) as B. apply (Rmult_lt_reg_r (PI * (IZR l * sin (PI / (2 * IZR l))))); [apply Rmult_lt_0_compat; [exact PI0|apply Rmult_lt_0_compat; lra]|].
    replace (2 / PI * (PI * (IZR l * sin (PI / (2 * IZR l)))))%R with (2 * IZR l * sin (PI / (2 * IZR l)))%R by (field; lra).
    replace (1 / (IZR l * sin (PI / (2 * IZR l))) * (PI * (IZR l * sin (PI / (2 * IZR l)))))%R with PI by (field; lra).
    apply (Rlt_le_trans _ (2 * IZR l * (PI / (2 * IZR l)))); [apply Rmult_lt_compat_l; lra|]. right. field. lra.
Qed.

(** Without an overlap, the sum of the repetitions is constant and there is no correlation. *)
Lemma rectangular_outside n : ~ (0 <= n < l) -> window_at w 0 n = 0%R.
Proof. intros H. destruct (first_channel_ok w Ww One) as (_ & Lf & Vf). rewrite <- Vf. apply at_out. lia. Qed.

Lemma rectangular_compromise k d : 0 <= k < l -> is_compromise w k d -> (k = 0 -> d = 1%R) /\ (0 < k -> (d < 1)%R).
Proof.
  intros Hk (f & (t0 & T0) & (a & b & -> & B) & ->).
  assert (E0 : correlation (window_at w 0) l 0 = IZR l).
  { rewrite <- rectangular_sum. apply Rsum_list_ext. intros n Hn. apply in_zseq in Hn. rewrite Z.add_0_r, Ones by lia. ring. }
  assert (Pl : (1 <= IZR l)%R) by (apply IZR_le; lia). rewrite E0. set (S := overlapped (window_at w 0) l (l - k)) in *. pose proof (B t0) as Bt. pose proof (B b) as Bb. split.
  - intros ->. assert (C0 : correlation (window_at w 0) l (l - 0) = 0%R).
    { unfold correlation. rewrite (Rsum_list_ext _ _ (fun _ => 0%R)); [apply Rsum_list_zero|]. intros n Hn. apply in_zseq in Hn. rewrite (rectangular_outside (n + (l - 0))) by lia. ring. }
    rewrite C0. assert (C1 : forall t, S t = 1%R).
    { intros t. unfold S, overlapped. rewrite Z.sub_0_r. rewrite (Rsum_list_ext _ _ (fun n => if n =? t mod l then 1%R else 0%R)).
      - rewrite (Rsum_single _ (t mod l)); [|apply NoDup_zseq|intros x Hx; replace (x =? t mod l) with false by lia; reflexivity].
        rewrite Z.eqb_refl. destruct (in_dec Z.eq_dec (t mod l) (zseq 0 l)) as [_|N]; [reflexivity|]. exfalso. apply N, in_zseq. pose proof (Z.mod_pos_bound t l Pos). lia.
      - intros n Hn. apply in_zseq in Hn. rewrite Ones by lia. replace ((n - t) mod l =? 0) with (n =? t mod l); [reflexivity|].
        pose proof (Z.div_mod t l ltac:(lia)) as D. pose proof (Z.mod_pos_bound t l Pos) as Bm. destruct (n =? t mod l) eqn:E.
        + symmetry. apply Z.eqb_eq. replace (n - t) with ((- (t / l)) * l) by lia. apply Z.mod_mul. lia.
        + symmetry. apply Z.eqb_neq. intros M. apply Z.mod_divide in M; [|lia]. destruct M as (q & M). assert (n mod l = t mod l) as X.
          { replace n with (t + q * l) by lia. apply Z.mod_add. lia. } rewrite Z.mod_small in X by lia. lia. }
    rewrite !C1. field. lra.
  - intros K. assert (Ck : (0 < correlation (window_at w 0) l (l - k))%R).
    { unfold correlation. assert (I : In 0 (zseq 0 l)) by (apply in_zseq; lia).
      assert (Nn : forall n, (0 <= window_at w 0 n * window_at w 0 (n + (l - k)))%R).
      { assert (W : forall m, (0 <= window_at w 0 m)%R) by (intros m; destruct (Z_le_gt_dec 0 m) as [M1|M1]; destruct (Z_lt_ge_dec m l) as [M2|M2]; try (rewrite Ones by lia; lra); rewrite rectangular_outside by lia; lra).
        intros n. apply Rmult_le_pos; apply W. }
      rewrite (zseq_cons 0 l) by lia. change (Rsum_list (0 :: ?r) ?g) with (g 0%Z + Rsum_list r g)%R. cbv beta. rewrite Z.add_0_l, !Ones by lia.
      pose proof (Rsum_list_nonneg (zseq (0 + 1) (l - 1)) _ Nn). lra. }
    assert (Fq : (S a / S b <= 1)%R). { apply (Rmult_le_reg_r (S b)); [lra|]. unfold Rdiv. rewrite Rmult_assoc, Rinv_l by lra. lra. }
    assert (Cq : (0 < correlation (window_at w 0) l (l - k) / IZR l)%R) by (apply Rdiv_lt_0_compat; lra). lra.
Qed.

Lemma rectangular_overlap : real_recommended_overlap power modulo junk w = Ok 0.
Proof.
  destruct (recommended_ok power modulo junk w Ww One Pos) as (k & d & E & Hk & C & B); [rewrite rectangular_sum; apply IZR_lt; lia|].
  destruct (Z.eq_dec k 0) as [->|K]; [exact E|]. exfalso. destruct (B 0 ltac:(lia)) as (d' & C' & L & _).
  apply (rectangular_compromise k d Hk) in C. apply (rectangular_compromise 0 d' ltac:(lia)) in C'. pose proof (proj2 C ltac:(lia)). pose proof (proj1 C' eq_refl). lra.
Qed.

(** The bandwidth of the window with two samples: the result is the frequency, at which the spectrum is zero. *)
Lemma two_samples nu : l = 2 -> (magnitude_at w nu * magnitude_at w nu = 2 + 2 * cos (2 * PI * nu))%R.
Proof.
  intros L. rewrite magnitude_parts, L. change (zseq 0 2) with [0; 1]. cbn [Rsum_list fold_right]. rewrite !Ones by lia. rewrite !Rmult_0_r, cos_0, sin_0, !Rmult_1_r.
  pose proof (sin2_cos2 (2 * PI * nu)) as H. unfold Rsqr in H. nra.
Qed.

Lemma two_samples_bandwidth : l = 2 -> (0 < sampling_rate w)%R ->
  exists b, real_bandwidth power modulo junk w 8 = Ok (Some b) /\ b = (sampling_rate w / 2)%R /\ magnitude_at w (b / sampling_rate w) = 0%R /\ magnitude_at w (b / 2 / sampling_rate w) = threshold w /\ (0 < threshold w)%R.
Proof.
  intros L Pr. pose proof PI_RGT_0 as PI0. pose proof (fun nu => two_samples nu L) as TS.
  assert (S2 : (sqrt 2 * sqrt 2 = 2)%R) by (apply sqrt_sqrt; lra). assert (S0 : (0 < sqrt 2)%R) by (apply sqrt_lt_R0; lra).
  assert (T : threshold w = sqrt 2). { unfold threshold. rewrite rectangular_0, L. apply (Rmult_eq_reg_r (sqrt 2)); [|lra]. unfold Rdiv. rewrite Rmult_assoc, Rinv_l by lra. lra. }
  assert (M4 : magnitude_at w (1 / 4) = sqrt 2).
  { apply Rsqr_inj; [apply magnitude_nonneg|lra|]. unfold Rsqr. rewrite TS, S2. replace (2 * PI * (1 / 4))%R with (PI / 2)%R by field. rewrite cos_PI2. ring. }
  assert (M16 : forall i, 4 < i <= 8 -> (magnitude_at w (IZR i / 16) < sqrt 2)%R).
  { intros i Hi. apply Rsqr_incrst_0; [|apply magnitude_nonneg|lra]. unfold Rsqr. rewrite TS, S2.
    assert (cos (2 * PI * (IZR i / 16)) < 0)%R; [|lra]. assert (5 <= IZR i <= 8)%R by (split; apply IZR_le; lia). apply cos_lt_0; nra. }
  destruct (bandwidth_ok power modulo junk w Ww One Pos 8) as (b & k & E & Hk & B & B' & Eb); [lia|exact Pr| |].
  { exists 8. rewrite L. change (8 * 2) with 16. split; [split; reflexivity || discriminate|]. rewrite T. apply M16. lia. }
  rewrite L in *. change (8 * 2) with 16 in *. change (16 / 2) with 8 in *. rewrite T in *.
  assert (K : k = 4).
  { destruct (Z_lt_le_dec k 4) as [K|K].
    - exfalso. assert (Q : (sqrt 2 <= magnitude_at w (IZR (k + 1) / 16))%R); [|lra]. apply Rsqr_incr_0_var; [|apply magnitude_nonneg]. unfold Rsqr. rewrite TS, S2.
      assert (0 <= cos (2 * PI * (IZR (k + 1) / 16)))%R; [|lra]. assert (1 <= IZR (k + 1) <= 4)%R by (split; apply IZR_le; lia). apply cos_ge_0; nra.
    - destruct (Z.eq_dec k 4); [auto|]. exfalso. pose proof (B 5 ltac:(lia)). pose proof (M16 5 ltac:(lia)). lra. }
  subst k. change (4 + 1) with 5 in *. exists b. split; [exact E|].
  replace (4 / 16)%R with (1 / 4)%R in Eb by field. rewrite M4 in Eb. replace (sqrt 2 - sqrt 2)%R with 0%R in Eb by ring.
  assert (Q : b = (sampling_rate w / 2)%R) by (rewrite Eb; unfold Rdiv; rewrite Rmult_0_l; field). split; [exact Q|]. rewrite Q.
  replace (sampling_rate w / 2 / sampling_rate w)%R with (1 / 2)%R by (field; lra). replace (sampling_rate w / 2 / 2 / sampling_rate w)%R with (1 / 4)%R by (field; lra).
  split; [|split; [exact M4|exact S0]]. assert (Z0 : (magnitude_at w (1 / 2) * magnitude_at w (1 / 2) = 0)%R); [|pose proof (magnitude_nonneg w (1 / 2)); nra].
  rewrite TS. replace (2 * PI * (1 / 2))%R with PI by field. rewrite cos_PI. ring.
Qed.

Lemma one_sample nu : l = 1 -> magnitude_at w nu = 1%R.
Proof.
  intros L. apply Rsqr_inj; [apply magnitude_nonneg|lra|]. unfold Rsqr. rewrite magnitude_parts, L. change (zseq 0 1) with [0]. cbn [Rsum_list fold_right].
  rewrite !Ones by lia. rewrite !Rmult_0_r, cos_0, sin_0. ring.
Qed.

Lemma first_below_none (th : R) rest : forall i m k, rest <> [] -> (forall n y, zth rest n = Some y -> (th <= y)%R) ->
  exists y, first_below less th i m k rest = (k + zlen rest - 1, y) /\ zth rest (zlen rest - 1) = Some y.
Proof.
  induction rest as [|y rest IH]; intros i m k N H; [contradiction|]. cbn [first_below]. unfold less at 1. pose proof (H 0 y eq_refl) as Y.
  destruct (Rlt_dec y th) as [B|_]; [exfalso; lra|]. rewrite zlen_cons. destruct rest as [|z rest].
  - exists y. change (zlen []) with 0. split; [cbn [first_below]; f_equal; lia|reflexivity].
  - destruct (IH k y (k + 1)) as (y' & E & Z'); [discriminate| |].
    + intros n x Zn. apply (H (n + 1)). assert (0 <= n) by (destruct (Z_lt_le_dec n 0); [rewrite zth_out in Zn by lia; discriminate|lia]).
      rewrite zth_cons. replace (n + 1 =? 0) with false by lia. now replace (n + 1 - 1) with n by lia.
    + exists y'. rewrite E. split; [f_equal; lia|]. rewrite zth_cons. rewrite zlen_cons in *. pose proof (zlen_nonneg rest). replace (_ =? 0) with false by lia.
      rewrite <- Z'. f_equal. lia.
Qed.

Lemma one_sample_bandwidth oversampling : l = 1 -> 1 < oversampling -> real_bandwidth power modulo junk w oversampling = Ok None.
Proof.
  intros L Po. pose proof (fun nu => one_sample nu L) as OS. destruct (spectrum_ok power modulo junk w Ww One Pos oversampling) as (p & Ep & Er & Lr & V); [lia|]. unfold bandwidth. rewrite Ep. cbn [bind]. rewrite Er. cbn [bind].
  rewrite L, Z.mul_1_r in *. set (ms := map modulus (rfft p)).
  assert (N2 : 1 <= oversampling / 2) by (apply Z.div_le_lower_bound; lia).
  assert (Vm : forall k, 0 <= k <= oversampling / 2 -> zth ms k = Some 1%R).
  { intros k Hk. unfold ms. rewrite zth_map. destruct (V k Hk) as [-> E]. cbn. now rewrite E, OS. }
  assert (Lm : zlen ms = oversampling / 2 + 1) by (unfold ms; now rewrite zlen_map).
  assert (G0 : forall k, 0 <= k <= oversampling / 2 -> getitem ms k = Ok 1%R) by (intros k Hk; unfold getitem; replace (k <? 0) with false by lia; now rewrite Vm). rewrite G0 by lia. cbn [bind].
  assert (Ld : zlen (zdrop 1 ms) = oversampling / 2) by (rewrite zlen_drop; lia).
  assert (Vd : forall k y, zth (zdrop 1 ms) k = Some y -> y = 1%R).
  { intros k y H. rewrite zth_drop in H. destruct (k <? 0) eqn:E; [discriminate|]. change (Z.max 0 1) with 1 in H. destruct (Z_lt_le_dec (oversampling / 2) (k + 1)); [rewrite zth_out in H by lia; discriminate|].
    rewrite Vm in H by lia. now apply some_inv in H. }
  assert (S1 : (1 <= sqrt 2)%R) by (rewrite <- sqrt_1 at 1; apply sqrt_le_1_alt; lra).
  destruct (first_below_none (o_div O 1%R (sqrt 2)) (zdrop 1 ms) 0 (o_zero O) 0) as (y & -> & Zy).
  { intros E. rewrite E in Ld. change (zlen (@nil R)) with 0 in Ld. lia. }
  { intros n y H. rewrite (Vd _ _ H). cbn. apply (Rmult_le_reg_r (sqrt 2)); [lra|]. unfold Rdiv. rewrite Rmult_assoc, Rinv_l by lra. lra. }
  apply Vd in Zy. subst y. rewrite Ld, G0 by lia. cbn [bind]. unfold quotient. cbn [o_sub o_abs o_zero o_eqb real_ops].
  destruct (Req_EM_T _ 0) as [_|N]; [reflexivity|]. exfalso. apply N. ring.
Qed.
End Rectangular.

(** ** The windows themselves *)

Lemma rectangular_measures rate length symmetric : 0 < length ->
  exists w, real_window power modulo junk RectangularWindow rate (NInt 0) length symmetric = Ok w /\
    real_scalloping_loss power modulo junk w = Ok (Some (1 / (IZR length * sin (PI / (2 * IZR length))))%R) /\ (2 / PI < 1 / (IZR length * sin (PI / (2 * IZR length))))%R /\
    real_recommended_overlap power modulo junk w = Ok 0.
Proof.
  intros H. destruct (rectangular_ok rate length symmetric H) as (w & E & Ww & One & L & _ & V). exists w. split; [exact E|]. rewrite <- L in *.
  destruct (rectangular_scalloping w Ww One H V) as [S1 S2]. split; [exact S1|]. split; [exact S2|]. now apply rectangular_overlap.
Qed.

Lemma bandwidth_refuted rate : (0 < rate)%R -> exists w b, real_window power modulo junk RectangularWindow rate (NInt 0) 2 true = Ok w /\ real_bandwidth power modulo junk w 8 = Ok (Some b) /\
  magnitude_at w (b / rate) = 0%R /\ magnitude_at w (b / 2 / rate) = threshold w /\ (0 < threshold w)%R.
Proof.
  intros Pr. destruct (rectangular_ok rate 2 true eq_refl) as (w & E & Ww & One & L & <- & V). rewrite <- L in V.
  destruct (two_samples_bandwidth w Ww One ltac:(lia) V L Pr) as (b & Eb & _ & M). exists w, b. auto.
Qed.

Lemma no_bandwidth rate oversampling : 1 < oversampling -> exists w, real_window power modulo junk RectangularWindow rate (NInt 0) 1 true = Ok w /\ real_bandwidth power modulo junk w oversampling = Ok None.
Proof.
  intros H. destruct (rectangular_ok rate 1 true eq_refl) as (w & E & Ww & One & L & _ & V'). assert (V : forall n, 0 <= n < length w -> window_at w 0 n = 1%R) by (intros; apply V'; lia). exists w. split; [exact E|].
  apply (one_sample_bandwidth w Ww One ltac:(lia) V oversampling L H).
Qed.

End Results.
