(** Round trips, levels and inverses of whole signals and spectrums. *)

From Coq Require Import String ZArith List Bool Lia ZifyBool Reals Lra Ring_theory Field_theory Ring Field.
From Verif.Model Require Import Py Numpy Vector Functions Signal Spectrum Fft Fourier Convolution.
From Verif.Spec Require Import TimeSpec FrequencySpec RealSpec ConvolutionSpec ComplexSpec DftSpec FourierSpec.
From Verif.Proofs Require Import PyFacts NumpyFacts VectorFacts SumFacts ComplexFacts ConvolveFacts PlacedFacts DftFacts MethodFacts CircularFacts SpectrumModes SignalAlgebra SignalConvolve FourierFacts RoundTripFacts.
Import ListNotations.
Open Scope Z_scope.
Ltac Zify.zify_post_hook ::= idtac.

Section Results.
Variables power modulo : R -> R -> R.
Variables cpower cmodulo : C -> C -> C.
Variable junk : Z -> Z -> R.
Variable cjunk : Z -> Z -> C.
Notation O := (real_ops power modulo).
Notation X := real_transforms.
Notation N := (real_numbers cpower cmodulo).
Notation transform s := (fourier_transform O X N junk cjunk s None).
Notation inverse := (inverse_fourier_transform O X N junk).
Let EX : exact_transforms O X := real_exact power modulo.
Let RT : commutative_ring O := real_ring power modulo.

(** ** The inverse transform *)

Lemma irfft_rows_ok (m : arr C) n : wf m -> 0 < n ->
  exists q, irfft_rows_n X m n = Ok q /\ has q (nrows m) n (fun c i => at_R (irfft (rowv m c) n) i).
Proof.
  intros W Hn. unfold irfft_rows_n. replace (n <? 1) with false by lia. eexists. split; [reflexivity|]. split; [|split; [|split]].
  - split; cbn; [lia|]. rewrite Forall_map. apply Forall_forall. intros x _. rewrite zlen_irfft. lia.
  - unfold nrows. cbn. apply zlen_map.
  - reflexivity.
  - intros c i Hc Hi. unfold el. cbn [rows]. rewrite zth_map, rowv_zth by auto. cbn [option_map x_irfft real_transforms].
    apply zth_at_R. rewrite zlen_irfft. lia.
Qed.

Lemma inverse_ok r : wf_spectrum r -> 0 < sp_length r ->
  let n := Z.max 1 ((sp_length r - 1) * 2) in
  exists s, inverse r = Ok s /\ wf_signal s /\ count s = sp_count r /\ length s = n /\ offset s = 0 /\ labels s = sp_labels r /\
    sampling_rate s = (resolution r * IZR n)%R /\
    forall c i, 0 <= c < sp_count r -> 0 <= i < n -> el (channels s) c i = Some (at_R (irfft (rowv (sp_channels r) c) n) i).
Proof.
  intros [W L] Hr n. unfold inverse_fourier_transform. replace (sp_length r =? 0) with false by lia. cbv zeta. fold n.
  pose proof (nrows_nonneg (sp_channels r)) as Nn. fold (sp_count r) in Nn.
  destruct (allocate_ok junk (sp_count r) n) as (m & -> & Wm & Nm & Cm); try lia. cbn [bind].
  destruct (irfft_rows_ok (sp_channels r) n) as (q & -> & Wq & Nq & Cq & Vq); auto; try lia. cbn [bind].
  rewrite set_all_ok by (auto; unfold sp_count in *; lia). cbn [bind]. eexists. split; [reflexivity|]. unfold mk_signal.
  rewrite sanitize_same by (rewrite Nq; exact L). split; [split; auto; cbn; rewrite Nq; exact L|]. repeat (split; [auto|]). exact Vq.
Qed.

(** ** There and back *)

Lemma spectrum_row (r : spectrum C R) n c F : wf_spectrum r -> sp_length r = n / 2 + 1 -> 0 < n -> 0 <= c < sp_count r ->
  (forall k, 0 <= k <= n / 2 -> bin r c k = Some (F k)) -> rowv (sp_channels r) c = map F (zseq 0 (n / 2 + 1)).
Proof.
  intros [W _] L Hn Hc V. apply (list_of_terms n); auto; [rewrite zlen_rowv by auto; exact L|]. intros k Hk. rewrite <- el_rowv by auto. apply V. lia.
Qed.

Lemma transform_row s r overlap pad c : wf_signal s -> 0 < length s -> sampling_rate s <> 0%R -> transform s overlap pad = Ok r -> 0 <= c < count s ->
  rowv (sp_channels r) c = map (fun k => Cmul (dft (rowv (channels s) c) k) (root (length s) (- (k * offset s)))) (zseq 0 (length s / 2 + 1)).
Proof.
  intros W Hn Hr E Hc. destruct (transform_ok power modulo cpower cmodulo junk cjunk s overlap pad W Hn Hr) as (r' & E' & Wr & Nr & Lr & _ & _ & V).
  rewrite E in E'. injection E' as <-. apply spectrum_row; auto; try lia. intros k Hk. rewrite V by auto. f_equal. now apply fourier_sum_dft.
Qed.

Lemma round_trip_ok s overlap pad : wf_signal s -> 0 < length s -> length s mod 2 = 0 -> sampling_rate s <> 0%R ->
  exists r s', transform s overlap pad = Ok r /\ inverse r = Ok s' /\ wf_signal s' /\
    sampling_rate s' = sampling_rate s /\ count s' = count s /\ length s' = length s /\ begins s' = 0 /\ labels s' = labels s /\
    forall c t, begins s <= t < ends s -> at_time s' c (t mod length s) = at_time s c t.
Proof.
  intros W Hn Ev Hr. destruct (transform_ok power modulo cpower cmodulo junk cjunk s overlap pad W Hn Hr) as (r & E & Wr & Nr & Lr & Rr & Br & V).
  assert (Hd : 0 <= length s / 2) by (apply Z.div_pos; lia). pose proof (Z.div_mod (length s) 2 ltac:(lia)) as D.
  destruct (inverse_ok r Wr ltac:(lia)) as (s' & E' & Ws & Ns & Ls & Os & Bs & Fs & Vs). cbv zeta in *.
  replace (Z.max 1 ((sp_length r - 1) * 2)) with (length s) in * by lia.
  exists r, s'. split; [exact E|]. split; [exact E'|]. split; [exact Ws|]. split. { rewrite Fs, Rr. field. now apply n_not_0. }
  split; [lia|]. split; [exact Ls|]. split; [exact Os|]. split; [congruence|]. intros c t Ht. unfold begins, ends, at_time in *. rewrite Os, Z.sub_0_r.
  pose proof (Z.mod_pos_bound t (length s) Hn) as B.
  destruct (Z_lt_ge_dec c 0) as [Hc|Hc]; [rewrite !el_out by (try apply Ws; try apply W; lia); auto|].
  destruct (Z_lt_ge_dec c (count s)) as [Hc'|Hc']; [|rewrite !el_out by (try apply Ws; try apply W; unfold count in *; lia); auto].
  rewrite Vs by lia. rewrite (transform_row s r overlap pad) by (auto; lia).
  assert (Lx : zlen (rowv (channels s) c) = length s) by (apply zlen_rowv; [apply W|unfold count in *; lia]).
  unfold at_R at 1. rewrite (irfft_ok (length s) Hn) by (auto using rotated_symmetric). rewrite (idft_rotated (length s) Hn) by auto.
  rewrite el_rowv by (unfold count in *; lia). rewrite (zth_at_R _ (t - offset s)) by lia. f_equal.
  replace ((t mod length s - offset s) mod length s) with (t - offset s).
  - cbn. field. now apply n_not_0.
  - rewrite Zminus_mod_idemp_l. symmetry. apply Z.mod_small. lia.
Qed.

Lemma odd_length_ok s overlap pad : wf_signal s -> 1 < length s -> length s mod 2 = 1 -> sampling_rate s <> 0%R ->
  exists r s', transform s overlap pad = Ok r /\ inverse r = Ok s' /\ length s' = length s - 1 /\
    sampling_rate s' = (sampling_rate s * IZR (length s - 1) / IZR (length s))%R.
Proof.
  intros W Hn Ev Hr. destruct (transform_ok power modulo cpower cmodulo junk cjunk s overlap pad W ltac:(lia) Hr) as (r & E & Wr & Nr & Lr & Rr & Br & V).
  assert (Hd : 0 <= length s / 2) by (apply Z.div_pos; lia). pose proof (Z.div_mod (length s) 2 ltac:(lia)) as D.
  destruct (inverse_ok r Wr ltac:(lia)) as (s' & E' & Ws & Ns & Ls & Os & Bs & Fs & Vs). cbv zeta in *.
  replace (Z.max 1 ((sp_length r - 1) * 2)) with (length s - 1) in * by lia.
  exists r, s'. repeat (split; [auto|]). rewrite Fs, Rr. field. apply n_not_0. lia.
Qed.

(** The other way round *)
(** The terms of a spectrum as a symmetric sequence *)
Definition extended (y : list C) (n k : Z) : C := let q := k mod n in if 2 * q <=? n then at_C y q else Cconj (at_C y (n - q)).

Lemma extended_symmetric y n : 0 < n -> im (at_C y 0) = 0%R -> (n mod 2 = 0 -> im (at_C y (n / 2)) = 0%R) -> symmetric n (extended y n).
Proof.
  intros Hn H0 H1. assert (Rl : forall z, im z = 0%R -> Cconj z = z). { intros [x w] H. unfold Cconj, re, im in *. cbn in *. f_equal. lra. }
  split; intros k; unfold extended; cbv zeta.
  - rewrite <- Zplus_mod_idemp_r, Z_mod_same_full, Z.add_0_r. reflexivity.
  - pose proof (Z.mod_pos_bound k n Hn) as B. destruct (k mod n =? 0) eqn:E0.
    + assert (k mod n = 0) as -> by lia. rewrite (Z_mod_zero_opp_full k n) by lia. replace (2 * 0 <=? n) with true by lia. symmetry. auto.
    + rewrite (Z_mod_nz_opp_full k n) by lia. set (q := k mod n) in *. destruct (2 * (n - q) <=? n) eqn:E1, (2 * q <=? n) eqn:E2.
      * replace (n - q) with q by lia. symmetry. apply Rl. replace q with (n / 2) by (symmetry; apply Z.div_unique with 0; lia). apply H1.
        replace n with (q * 2) by lia. apply Z_mod_mult.
      * now rewrite Cconj_involutive.
      * replace (n - (n - q)) with q by lia. reflexivity.
      * lia.
Qed.

Lemma spectrum_round_trip_ok r overlap pad : wf_spectrum r -> 0 < sp_length r -> resolution r <> 0%R ->
  (forall c z, bin r c 0 = Some z \/ bin r c (sp_length r - 1) = Some z -> im z = 0%R) ->
  exists s r', inverse r = Ok s /\ transform s overlap pad = Ok r' /\ wf_spectrum r' /\ sp_count r' = sp_count r /\ sp_length r' = sp_length r /\
    resolution r' = resolution r /\ sp_labels r' = sp_labels r /\ forall c k, bin r' c k = bin r c k.
Proof.
  intros Wr Hl Hr Hi. destruct (inverse_ok r Wr Hl) as (s & E & Ws & Ns & Ls & Os & Bs & Fs & Vs). cbv zeta in *. set (n := Z.max 1 ((sp_length r - 1) * 2)) in *.
  assert (Hn : 0 < n) by lia.
  assert (Hh : n / 2 + 1 = sp_length r).
  { unfold n. destruct (Z.eq_dec (sp_length r) 1) as [->|]; [reflexivity|]. replace (Z.max _ _) with ((sp_length r - 1) * 2) by lia. rewrite Z.div_mul by lia. lia. }
  assert (Rs : sampling_rate s <> 0%R). { rewrite Fs. apply Rmult_integral_contrapositive_currified; auto. now apply n_not_0. }
  destruct (transform_ok power modulo cpower cmodulo junk cjunk s overlap pad Ws ltac:(lia) Rs) as (r' & E' & Wr' & Nr' & Lr' & Rr' & Br' & V').
  rewrite Ls in *. assert (Lr : sp_length r' = sp_length r) by lia.
  exists s, r'. split; [exact E|]. split; [exact E'|]. split; [exact Wr'|]. split; [congruence|]. split; [exact Lr|].
  split. { rewrite Rr', Fs. field. now apply n_not_0. } split; [congruence|]. intros c k. unfold bin.
  destruct (Z_lt_ge_dec c 0) as [Hc|Hc]; [rewrite !el_out by (try apply Wr; try apply Wr'; lia); auto|].
  destruct (Z_lt_ge_dec c (sp_count r)) as [Hc'|Hc']; [|rewrite !el_out by (try apply Wr; try apply Wr'; unfold sp_count in *; lia); auto].
  destruct (Z_lt_ge_dec k 0) as [Hk|Hk]; [rewrite !el_out by (try apply Wr; try apply Wr'; lia); auto|].
  destruct (Z_lt_ge_dec k (sp_length r)) as [Hk'|Hk']; [|rewrite !el_out by (try apply Wr; try apply Wr'; unfold sp_length in *; lia); auto].
  fold (bin r' c k). fold (bin r c k). rewrite V' by lia. rewrite <- Ls. rewrite fourier_sum_dft by (auto; lia). rewrite Os, Z.mul_0_r. change (- 0) with 0.
  rewrite Ls, (root_0 n Hn).
  set (y := rowv (sp_channels r) c). assert (Ly : zlen y = sp_length r) by (apply zlen_rowv; [apply Wr|unfold sp_count in *; lia]).
  assert (Bn : forall q, 0 <= q < sp_length r -> bin r c q = Some (at_C y q)).
  { intros q Hq. unfold bin. rewrite el_rowv by (unfold sp_count in *; lia). fold y. unfold at_C. destruct (zth_in y q) as (z & ->); [lia|reflexivity]. }
  pose proof (Z.div_mod n 2 ltac:(lia)) as D. pose proof (Z.mod_pos_bound n 2 ltac:(lia)) as B.
  assert (S : symmetric n (extended y n)).
  { apply extended_symmetric; auto.
    - apply (Hi c). left. apply Bn. lia.
    - intros Ev. apply (Hi c). right. replace (sp_length r - 1) with (n / 2) by lia. apply Bn. lia. }
  assert (Ey : y = map (extended y n) (zseq 0 (n / 2 + 1))).
  { apply (list_of_terms n); [lia|lia|]. intros q Hq. assert (q < n \/ n = 1 /\ q = 0) by lia. unfold extended. cbv zeta.
    rewrite Z.mod_small by lia. replace (2 * q <=? n) with true by lia. unfold at_C. destruct (zth_in y q) as (z & ->); [lia|reflexivity]. }
  assert (Lx : zlen (rowv (channels s) c) = n). { rewrite zlen_rowv; [exact Ls|apply Ws|unfold count in *; lia]. }
  assert (Ex : rowv (channels s) c = irfft y n).
  { apply zth_ext_in; [rewrite zlen_irfft; lia|]. intros i Hx. rewrite <- el_rowv by (unfold count in *; lia). rewrite Vs by lia. fold y.
    rewrite zth_at_R; [reflexivity|]. rewrite zlen_irfft. lia. }
  rewrite Ex, Bn by lia. f_equal. assert (k < n \/ n = 1 /\ k = 0) by lia.
  replace (dft (irfft y n) k) with (extended y n k).
  - unfold extended. cbv zeta. rewrite Z.mod_small by lia. replace (2 * k <=? n) with true by lia. ring.
  - rewrite Ey at 2. now rewrite (dft_irfft n Hn) by (auto; lia).
Qed.

End Results.
