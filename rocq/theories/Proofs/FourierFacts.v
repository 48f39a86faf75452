(** The Fourier transform of a whole signal and back. *)

From Coq Require Import String ZArith List Bool Lia ZifyBool Reals Lra Ring_theory Field_theory Ring Field.
From Verif.Model Require Import Py Numpy Vector Functions Signal Spectrum Fft Fourier.
From Verif.Spec Require Import TimeSpec FrequencySpec RealSpec ConvolutionSpec ComplexSpec DftSpec FourierSpec.
From Verif.Proofs Require Import PyFacts NumpyFacts VectorFacts SumFacts ComplexFacts ConvolveFacts PlacedFacts DftFacts MethodFacts CircularFacts SpectrumModes SignalAlgebra.
Import ListNotations.
Open Scope Z_scope.
Ltac Zify.zify_post_hook ::= idtac.

Section Fourier.
Variables power modulo : R -> R -> R.
Variables cpower cmodulo : C -> C -> C.
Variable junk : Z -> Z -> R.
Variable cjunk : Z -> Z -> C.
Notation O := (real_ops power modulo).
Notation X := real_transforms.
Notation N := (real_numbers cpower cmodulo).
Let EX : exact_transforms O X := real_exact power modulo.

(** ** The factors for the offset *)

Lemma zth_linspace (y : R) num k : 0 <= k < num ->
  zth (linspace O N (0%R, y) num) k = Some (0%R, (if 0 <? num - 1 then IZR k * y / IZR (num - 1) else 0)%R).
Proof.
  intros H. unfold linspace. rewrite zth_map, zth_seq. replace (_ && _) with true by lia. cbn [option_map]. f_equal.
  change (0 + k) with k. destruct (0 <? num - 1) eqn:E.
  - assert (D : IZR (num - 1) <> 0%R). { intros D. apply (eq_IZR _ 0) in D. lia. }
    destruct ((1 <? num) && (k =? num - 1)) eqn:E1.
    + replace k with (num - 1) by lia. f_equal. field. auto.
    + cbn. apply C_ext; unfold Cdiv, Cinv, Cmul, Cadd, norm2, re, im; cbn; field; auto.
  - replace ((1 <? num) && _) with false by lia. replace k with 0 by lia. cbn. apply C_ext; unfold Cmul, Cadd, re, im; cbn; ring.
Qed.

Lemma Cexp_imaginary t : Cexp (0%R, t) = cis t.
Proof. unfold Cexp, cis, re, im. cbn. rewrite exp_0. f_equal; ring. Qed.

Lemma compensation_ok n (rate : R) (off : Z) : 0 < n -> rate <> 0%R ->
  has (compensation O N (n / 2 + 1) (rate / IZR n)%R off rate) 1 (n / 2 + 1) (fun _ k => root n (- (k * off))).
Proof.
  intros Hn Hr. assert (0 <= n / 2) by (apply Z.div_pos; lia). unfold compensation. split; [|split; [|split]]; cbn [nrows cols].
  - split; cbn; [lia|]. constructor; [|constructor]. rewrite zlen_map. unfold linspace. rewrite zlen_map, zlen_seq. lia.
  - reflexivity.
  - reflexivity.
  - intros c k Hc Hk. unfold el. cbn [rows]. replace c with 0 by lia. rewrite zth_cons. cbn [Z.eqb]. rewrite zth_map.
    cbn [c_make real_numbers o_zero real_ops]. rewrite zth_linspace by lia. cbn [option_map c_exp real_numbers]. f_equal. rewrite Cexp_imaginary. unfold root. f_equal.
    cbn [o_div o_mul real_ops n_int n_pi real_numbers]. rewrite opp_IZR, mult_IZR.
    pose proof (n_not_0 n Hn). destruct (0 <? n / 2 + 1 - 1) eqn:E.
    + assert (D : IZR (n / 2 + 1 - 1) <> 0%R). { intros D. apply (eq_IZR _ 0) in D. lia. } field. auto.
    + replace k with 0 by lia. field. auto.
Qed.

(** ** The transform *)

Lemma allocate_has {A} (j : Z -> Z -> A) r c : 0 <= r -> 0 <= c -> exists m, allocate j r c = Ok m /\ wf m /\ nrows m = r /\ cols m = c.
Proof. apply allocate_ok. Qed.

Lemma set_all_ok {A} (m src : arr A) : wf m -> wf src -> nrows src = nrows m -> cols src = cols m -> set_block m everything everything src = Ok src.
Proof.
  intros W WS N C. destruct (set_cols_ok m everything src 0 (cols m)) as (r & E & Wr & Nr & Cr & V); auto.
  - apply upper_everything. apply W.
  - lia.
  - rewrite E. f_equal. apply arr_ext; auto; try lia. intros i j Hi Hj. rewrite V by lia. replace (_ && _) with true by lia. f_equal. lia.
Qed.

Lemma one_index i n : 0 <= i < n -> (if n =? 1 then 0 else i) = i.
Proof. destruct (n =? 1) eqn:E; lia. Qed.

Lemma full_transform_ok s : wf_signal s -> 0 < length s -> sampling_rate s <> 0%R ->
  exists m, full_fourier_transform O X N cjunk s = Ok (m, (sampling_rate s / IZR (length s))%R) /\
    has m (count s) (length s / 2 + 1) (fun c k => Cmul (dft (rowv (channels s) c) k) (root (length s) (- (k * offset s)))).
Proof.
  intros [W L] Hn Hr. unfold full_fourier_transform. cbv zeta. assert (Hd : 0 <= length s / 2) by (apply Z.div_pos; lia).
  pose proof (nrows_nonneg (channels s)) as Nn. unfold count in *.
  destruct (nrows (channels s) =? 0) eqn:E0.
  - destruct (allocate_ok cjunk 0 (length s / 2 + 1)) as (m & -> & Wm & Nm & Cm); try lia. cbn [bind].
    exists m. replace (Z.max (length s) 1) with (length s) by lia. split; [reflexivity|]. split; [|split; [|split]]; auto; try lia.
  - replace (length s =? 0) with false by lia.
    destruct (allocate_ok cjunk (nrows (channels s)) (length s / 2 + 1)) as (m & -> & Wm & Nm & Cm); try lia. cbn [bind].
    destruct (rfft_rows_ok O X EX (channels s)) as (p & -> & Wp & Np & Cp & Vp); auto. cbn [bind].
    assert (Lr : forall c, 0 <= c < nrows (channels s) -> zlen (rowv (channels s) c) = length s) by (intros; now apply zlen_rowv).
    destruct (offset s =? 0) eqn:Eo.
    + rewrite set_all_ok by (auto; unfold length in *; lia). cbn [bind]. exists p. split; [reflexivity|]. split; [|split; [|split]]; auto.
      intros c k Hc Hk. rewrite Vp by lia. cbn [x_rfft real_transforms]. rewrite (zth_rfft (length s)) by (auto; lia). f_equal.
      replace (offset s) with 0 by lia. rewrite Z.mul_0_r. change (- 0) with 0. rewrite (root_0 (length s)) by lia. ring.
    + destruct (compensation_ok (length s) (sampling_rate s) (offset s)) as (Wk & Nk & Ck & Vk); auto.
      cbn [o_div real_ops n_int real_numbers]. set (cc := compensation _ _ _ _ _ _) in *. clearbody cc.
      destruct (ufunc2_into_ok (o_mul (c_ops N)) p cc m everything everything) as (q & -> & Wq & Nq & Cq & Vq); auto;
        rewrite ?lower_everything, ?upper_everything by lia; try (unfold length in *; lia).
      cbn [bind]. exists q. split; [reflexivity|]. split; [|split; [|split]]; auto; try lia.
      intros c k Hc Hk. rewrite Vq. rewrite !lower_everything, !upper_everything by lia. replace (_ && _) with true by lia.
      rewrite Nk. change (1 =? 1) with true. cbv iota. rewrite !Z.sub_0_r.
      change (cols (channels s)) with (length s) in Cp. rewrite !one_index by lia.
      rewrite Vp by lia. cbn [x_rfft real_transforms]. rewrite (zth_rfft (length s)) by (auto; lia). rewrite Vk by lia. reflexivity.
Qed.

(** The bins are the Fourier transform of the signal *)
Lemma sample_row s c i : wf_signal s -> 0 <= c < count s -> sample s c (offset s + i) = at_R (rowv (channels s) c) i.
Proof.
  intros [W _] Hc. unfold sample, at_time, at_R. replace (offset s + i - offset s) with i by lia. now rewrite el_rowv by auto.
Qed.

Lemma Csum_over_time_sum s f : Csum_over_time s f = sumz CO 0 (length s) (fun i => f (offset s + i)).
Proof.
  unfold Csum_over_time, begins. change (fold_right _ _ (zseq (offset s) (length s))) with (sumz CO (offset s) (length s) f).
  rewrite <- (Z.add_0_l (offset s)) at 1. rewrite <- (sumz_shift CO 0 (length s) (offset s) f). apply sumz_ext. intros k _. f_equal. lia.
Qed.

Lemma sum_over_time_sum s f : sum_over_time s f = sumz RO 0 (length s) (fun i => f (offset s + i)).
Proof.
  unfold sum_over_time, begins. change (fold_right _ _ (zseq (offset s) (length s))) with (sumz RO (offset s) (length s) f).
  rewrite <- (Z.add_0_l (offset s)) at 1. rewrite <- (sumz_shift RO 0 (length s) (offset s) f). apply sumz_ext. intros k _. f_equal. lia.
Qed.

Lemma fourier_sum_dft s c k : wf_signal s -> 0 <= c < count s -> 0 < length s ->
  fourier_sum s c (IZR k / IZR (length s))%R = Cmul (dft (rowv (channels s) c) k) (root (length s) (- (k * offset s))).
Proof.
  intros W Hc Hn. unfold fourier_sum. rewrite Csum_over_time_sum.
  assert (Lr : zlen (rowv (channels s) c) = length s) by (apply zlen_rowv; [apply W|exact Hc]). rewrite (dft_sum (length s)) by auto. change Cmul with (o_mul CO) at 2. rewrite <- (sumz_mul_r CO CO_ring).
  apply sumz_ext. intros i _. rewrite sample_row by auto. cbn [o_mul CO complex_ops].
  assert (H : forall a b z, Cmul (Cmul z a) b = Cmul z (Cmul a b)) by (intros; ring). rewrite H. f_equal. rewrite <- root_add by lia. unfold root. f_equal.
  rewrite plus_IZR, plus_IZR, !opp_IZR, !mult_IZR. pose proof (n_not_0 (length s) Hn). field. auto.
Qed.

Lemma transform_ok s overlap pad : wf_signal s -> 0 < length s -> sampling_rate s <> 0%R ->
  exists r, fourier_transform O X N junk cjunk s None overlap pad = Ok r /\ wf_spectrum r /\ sp_count r = count s /\ sp_length r = length s / 2 + 1 /\
    resolution r = (sampling_rate s / IZR (length s))%R /\ sp_labels r = labels s /\
    forall c k, 0 <= c < count s -> 0 <= k <= length s / 2 -> bin r c k = Some (fourier_sum s c (IZR k / IZR (length s))%R).
Proof.
  intros W Hn Hr. unfold fourier_transform. destruct (full_transform_ok s W Hn Hr) as (m & -> & Wm & Nm & Cm & Vm). cbn [bind fst snd].
  eexists. split; [reflexivity|]. assert (E : sanitize_labels (Some (labels s)) (nrows m) = labels s).
  { apply sanitize_same. rewrite Nm. apply W. }
  unfold mk_spectrum. rewrite E. split; [split; auto; cbn; rewrite Nm; apply W|]. repeat (split; [auto|]). intros c k Hc Hk. unfold bin. cbn [sp_channels].
  rewrite fourier_sum_dft by auto. apply Vm; lia.
Qed.

End Fourier.
