(** Statistical parameters of signals. *)

From Coq Require Import String ZArith List Bool Lia ZifyBool Reals Lra Ring_theory Field_theory Ring Field.
From Verif.Model Require Import Py Numpy Vector Functions Signal Spectrum Fft Fourier Convolution Sweeps Levels.
From Verif.Spec Require Import TimeSpec RealSpec ConvolutionSpec ComplexSpec DftSpec FourierSpec SweepSpec LevelSpec.
From Verif.Proofs Require Import PyFacts NumpyFacts VectorFacts SumFacts ComplexFacts ConvolveFacts PlacedFacts MergeOrder DftFacts MethodFacts FourierFacts RoundTripFacts FourierResults LevelFacts SweepFacts CoverageFacts.
Import ListNotations.
Open Scope Z_scope.
Ltac Zify.zify_post_hook ::= idtac.

(** ** Means *)

Lemma mean_ext s c f g : (forall x, f x = g x) -> mean_over_time s c f = mean_over_time s c g.
Proof. intros H. unfold mean_over_time. f_equal. rewrite !sum_over_time_sum. apply sumz_ext. auto. Qed.

Lemma mean_add s c f g : mean_over_time s c (fun x => f x + g x)%R = (mean_over_time s c f + mean_over_time s c g)%R.
Proof.
  unfold mean_over_time. rewrite !sum_over_time_sum. pose proof (sumz_add RO RO_ring 0 (length s) (fun i => f (sample s c (offset s + i))) (fun i => g (sample s c (offset s + i)))) as E.
  cbn [o_add RO real_ops] in E. rewrite E. unfold Rdiv. ring.
Qed.

Lemma mean_mul s c k f : mean_over_time s c (fun x => k * f x)%R = (k * mean_over_time s c f)%R.
Proof.
  unfold mean_over_time. rewrite !sum_over_time_sum. pose proof (sumz_mul_l RO RO_ring 0 (length s) k (fun i => f (sample s c (offset s + i)))) as E.
  cbn [o_mul RO real_ops] in E. rewrite E. unfold Rdiv. ring.
Qed.

Lemma mean_const s c k : 0 < length s -> mean_over_time s c (fun _ => k) = k.
Proof.
  intros H. assert (P : (0 < IZR (length s))%R) by now apply (IZR_lt 0).
  assert (E : forall m, 0 <= m -> sumz RO 0 m (fun _ => k) = (IZR m * k)%R).
  { intros m Hm. pattern m. apply count_ind; [rewrite sumz_nil by lia; change (o_zero RO) with 0%R; ring| |exact Hm]. intros j Hj IH. rewrite (sumz_snoc RO RO_ring) by lia.
    replace (j + 1 - 1) with j by lia. rewrite IH, plus_IZR. change (o_add RO) with Rplus. ring. }
  unfold mean_over_time. rewrite sum_over_time_sum, E by lia. field. lra.
Qed.

Lemma mean_nonneg s c f : 0 < length s -> (forall x, 0 <= f x)%R -> (0 <= mean_over_time s c f)%R.
Proof.
  intros H F. assert (P : (0 < IZR (length s))%R) by now apply (IZR_lt 0).
  unfold mean_over_time. apply Rmult_le_pos; [|left; now apply Rinv_0_lt_compat]. rewrite sum_over_time_sum. unfold sumz.
  induction (zseq 0 (length s)) as [|k l IH]; cbn; [lra|]. apply Rplus_le_le_0_compat; auto.
Qed.

(** ** Moments *)
Section Statistics.
Variables power modulo : R -> R -> R.
Variables cpower cmodulo : C -> C -> C.
Variables resolution undefined : R.
Notation O := (real_ops power modulo).
Notation N := (real_numbers cpower cmodulo).
Notation M := real_functions.

Lemma mean_of_row s c f : wf_signal s -> 0 <= c < count s -> mean_of O M (map f (rowv (channels s) c)) = mean_over_time s c f.
Proof.
  intros W Hc. unfold mean_of, mean_over_time. rewrite zlen_map. rewrite (zlen_rowv (channels s) c) by (auto; apply W). fold (length s).
  cbn [o_div real_ops f_int M real_functions]. f_equal. rewrite sum_over_map, (list_of_values (rowv (channels s) c)), sum_over_map.
  rewrite sum_over_time_sum. rewrite (zlen_rowv (channels s) c) by (auto; apply W). fold (length s).
  transitivity (sumz RO 0 (length s) (fun i => f (at_R (rowv (channels s) c) i))); [reflexivity|]. apply sumz_ext. intros k _. now rewrite sample_row.
Qed.

Lemma mean_row s c : wf_signal s -> 0 <= c < count s -> mean_of O M (rowv (channels s) c) = mean_over_time s c (fun x => x).
Proof. intros W Hc. rewrite <- (mean_of_row s c (fun x => x)) by auto. now rewrite map_id. Qed.

Lemma moment2_row s c : wf_signal s -> 0 <= c < count s -> moment2 O M (rowv (channels s) c) = central_mean s c (fun d => d * d)%R.
Proof. intros W Hc. unfold moment2. rewrite mean_row by auto. rewrite mean_of_row by auto. reflexivity. Qed.
Lemma moment3_row s c : wf_signal s -> 0 <= c < count s -> moment3 O M (rowv (channels s) c) = central_mean s c (fun d => d * d * d)%R.
Proof. intros W Hc. unfold moment3. rewrite mean_row by auto. rewrite mean_of_row by auto. reflexivity. Qed.
Lemma moment4_row s c : wf_signal s -> 0 <= c < count s -> moment4 O M (rowv (channels s) c) = central_mean s c (fun d => d * d * (d * d))%R.
Proof. intros W Hc. unfold moment4. rewrite mean_row by auto. rewrite mean_of_row by auto. reflexivity. Qed.

Lemma of_channels_ok (f : list R -> R) (g : Z -> R) s : (forall c, 0 <= c < count s -> f (rowv (channels s) c) = g c) ->
  values_are (of_channels f s) (count s) g.
Proof.
  intros H. unfold of_channels. split; [apply zlen_map|]. intros c Hc. rewrite zth_map, rowv_zth by exact Hc. cbn. now rewrite H.
Qed.

Notation mean s c := (mean_over_time s c (fun x => x)).
Notation var s c := (central_mean s c (fun d => d * d)%R).
Notation third s c := (central_mean s c (fun d => d * d * d)%R).
Notation fourth s c := (central_mean s c (fun d => d * d * (d * d))%R).
Notation varied s c := ((resolution * mean s c) * (resolution * mean s c) < var s c)%R.

Lemma statistics_ok s : wf_signal s ->
  values_are (signal_mean O M s) (count s) (fun c => mean s c) /\
  values_are (signal_variance O M s) (count s) (fun c => var s c) /\
  values_are (signal_standard_deviation O N M s) (count s) (fun c => sqrt (var s c)).
Proof.
  intros W. split; [|split]; apply of_channels_ok; intros c Hc.
  - now apply mean_row.
  - now apply moment2_row.
  - cbn [n_sqrt real_numbers]. f_equal. now apply moment2_row.
Qed.

Lemma varied_not_constant s c : wf_signal s -> 0 <= c < count s -> varied s c -> constant_values O M resolution (rowv (channels s) c) = false.
Proof.
  intros W Hc V. unfold constant_values. rewrite mean_row, moment2_row by auto. cbn [f_leb M real_functions]. apply leb_false. exact V.
Qed.

Lemma skewness_ok s c : wf_signal s -> 0 <= c < count s -> varied s c ->
  zth (signal_skewness O N M resolution undefined s) c = Some (third s c / (var s c * sqrt (var s c)))%R /\
  zth (signal_kurtosis O M resolution undefined s) c = Some (fourth s c / (var s c * var s c) - 3)%R.
Proof.
  intros W Hc V. unfold signal_skewness, signal_kurtosis, of_channels. rewrite !zth_map, rowv_zth by exact Hc. cbn [option_map].
  unfold skew, kurtosis_of. rewrite varied_not_constant by auto. rewrite moment2_row, moment3_row, moment4_row by auto. split; reflexivity.
Qed.

(** ** The variance *)

Lemma variance_square s c : 0 < length s -> var s c = (mean_over_time s c (fun x => x * x) - mean s c * mean s c)%R.
Proof.
  intros Hn. unfold central_mean. cbv zeta. set (m := mean s c).
  rewrite (mean_ext s c _ (fun x => x * x + ((- (2 * m)) * x + m * m))%R) by (intros; ring).
  rewrite (mean_add s c (fun x => x * x)%R). rewrite (mean_add s c (fun x => (- (2 * m)) * x)%R). rewrite mean_mul, mean_const by auto. fold m. ring.
Qed.

Lemma variance_nonneg s c : 0 < length s -> (0 <= var s c)%R.
Proof. intros Hn. unfold central_mean. cbv zeta. apply mean_nonneg; auto. intros x. apply Rle_0_sqr. Qed.

Lemma mean_square_mean s c : mean_square s c = mean_over_time s c (fun x => x * x)%R.
Proof. reflexivity. Qed.

Lemma level_variance s c l m v : wf_signal s -> 0 < length s -> zth (signal_level O N s) c = Some l -> zth (signal_mean O M s) c = Some m ->
  zth (signal_variance O M s) c = Some v -> (l * l = m * m + v)%R.
Proof.
  intros W Hn El Em Ev. destruct (statistics_ok s W) as ([Lm Vm] & [_ Vv] & _).
  assert (Hc : 0 <= c < count s). { rewrite <- Lm. eapply zth_range; eauto. }
  destruct (signal_level_ok power modulo cpower cmodulo s W Hn) as [_ Vl]. rewrite Vl in El by auto. rewrite Vm in Em by auto. rewrite Vv in Ev by auto.
  injection El as <-. injection Em as <-. injection Ev as <-. rewrite sqrt_sqrt.
  - rewrite variance_square, mean_square_mean by auto. ring.
  - rewrite mean_square_mean. apply mean_nonneg; auto. intros x. apply Rle_0_sqr.
Qed.

(** ** Affine functions *)

Lemma affine_mean r s a b c f : affine_image r s a b -> wf_signal s -> 0 <= c < count s ->
  mean_over_time r c f = mean_over_time s c (fun x => f (a * x + b)%R).
Proof.
  intros (W & Nc & B & E & V) Ws Hc. unfold begins, ends in *. assert (L : length r = length s) by lia.
  unfold mean_over_time. rewrite !sum_over_time_sum, L. f_equal. apply sumz_ext. intros k Hk. f_equal. unfold sample. rewrite B, V by lia.
  unfold at_time. replace (offset s + k - offset s) with k by lia. destruct (el_in (channels s) c k) as (y & ->); auto; try apply Ws; fold (length s); lia.
Qed.

Lemma affine_central r s a b c f : affine_image r s a b -> wf_signal s -> 0 < length s -> 0 <= c < count s ->
  mean r c = (a * mean s c + b)%R /\ central_mean r c f = central_mean s c (fun d => f (a * d)%R).
Proof.
  intros A W Hn Hc. assert (E : mean r c = (a * mean s c + b)%R).
  { rewrite (affine_mean r s a b) by auto. rewrite (mean_add s c (fun x => a * x)%R). now rewrite mean_mul, mean_const. }
  split; [exact E|]. unfold central_mean. cbv zeta. rewrite E. rewrite (affine_mean r s a b) by auto. apply mean_ext. intros x. f_equal. ring.
Qed.

Lemma central_mul s c k f : central_mean s c (fun d => k * f d)%R = (k * central_mean s c f)%R.
Proof. unfold central_mean. cbv zeta. apply mean_mul. Qed.

Lemma central_ext s c f g : (forall d, f d = g d) -> central_mean s c f = central_mean s c g.
Proof. intros H. unfold central_mean. cbv zeta. apply mean_ext. auto. Qed.

Lemma affine_statistics r s a b c m v : affine_image r s a b -> wf_signal s -> 0 < length s ->
  zth (signal_mean O M s) c = Some m -> zth (signal_variance O M s) c = Some v ->
  zth (signal_mean O M r) c = Some (a * m + b)%R /\ zth (signal_variance O M r) c = Some (a * a * v)%R /\
  zth (signal_standard_deviation O N M r) c = Some (Rabs a * sqrt v)%R.
Proof.
  intros A W Hn Em Ev. destruct (statistics_ok s W) as ([Lm Vm] & [_ Vv] & _).
  assert (Hc : 0 <= c < count s). { rewrite <- Lm. eapply zth_range; eauto. }
  destruct (statistics_ok r (proj1 A)) as ([_ Rm] & [_ Rv] & [_ Rs]). pose proof A as (_ & Nc & _). rewrite Nc in *.
  rewrite Vm in Em by auto. rewrite Vv in Ev by auto. injection Em as <-. injection Ev as <-.
  destruct (affine_central r s a b c (fun d => d * d)%R A W Hn Hc) as [E1 E2].
  assert (E3 : var r c = (a * a * var s c)%R).
  { rewrite E2. rewrite <- central_mul. apply central_ext. intros d. ring. }
  rewrite Rm, Rv, Rs by auto. rewrite E1, E3. repeat split. f_equal. rewrite sqrt_mult_alt by apply Rle_0_sqr. f_equal. apply sqrt_Rsqr_abs.
Qed.

Lemma affine_shape r s a b c k u : affine_image r s a b -> wf_signal s -> 0 < length s -> 0 <= c < count s -> a <> 0%R -> varied s c -> varied r c ->
  zth (signal_skewness O N M resolution undefined s) c = Some k -> zth (signal_kurtosis O M resolution undefined s) c = Some u ->
  zth (signal_skewness O N M resolution undefined r) c = Some (if Rlt_dec a 0 then - k else k)%R /\
  zth (signal_kurtosis O M resolution undefined r) c = Some u.
Proof.
  intros A W Hn Hc Ha Vs Vr Ek Eu. pose proof A as (Wr & Nc & _). destruct (skewness_ok s c W Hc Vs) as [S1 S2].
  destruct (skewness_ok r c Wr ltac:(lia) Vr) as [R1 R2]. rewrite S1 in Ek. rewrite S2 in Eu. injection Ek as <-. injection Eu as <-. rewrite R1, R2.
  assert (E : forall f, central_mean r c f = central_mean s c (fun d => f (a * d)%R)) by (intros f; apply (affine_central r s a b c f A W Hn Hc)).
  rewrite !E. rewrite (central_ext s c (fun d => a * d * (a * d))%R (fun d => a * a * (d * d))%R) by (intros; ring). rewrite central_mul.
  rewrite (central_ext s c (fun d => a * d * (a * d) * (a * d))%R (fun d => a * a * a * (d * d * d))%R) by (intros; ring). rewrite central_mul.
  rewrite (central_ext s c (fun d => a * d * (a * d) * (a * d * (a * d)))%R (fun d => a * a * a * a * (d * d * (d * d)))%R) by (intros; ring). rewrite central_mul.
  assert (P : (0 < var s c)%R). { eapply Rle_lt_trans; [|exact Vs]. apply Rle_0_sqr. } assert (P' : (0 < sqrt (var s c))%R) by now apply sqrt_lt_R0.
  split; f_equal; [|field; lra].
  rewrite sqrt_mult_alt by apply Rle_0_sqr. change (sqrt (a * a)) with (sqrt (Rsqr a)). rewrite sqrt_Rsqr_abs.
  destruct (Rlt_dec a 0) as [L|L]; [rewrite Rabs_left by auto|rewrite Rabs_right by lra]; field; lra.
Qed.

(** ** Kurtosis and skewness *)

Lemma pearson s c k u : wf_signal s -> 0 < length s -> 0 <= c < count s -> varied s c ->
  zth (signal_skewness O N M resolution undefined s) c = Some k -> zth (signal_kurtosis O M resolution undefined s) c = Some u -> (k * k - 2 <= u)%R.
Proof.
  intros W Hn Hc Vs Ek Eu. destruct (skewness_ok s c W Hc Vs) as [S1 S2]. rewrite S1 in Ek. rewrite S2 in Eu. injection Ek as <-. injection Eu as <-.
  set (v := var s c) in *. set (t := third s c). set (f := fourth s c). assert (P : (0 < v)%R). { eapply Rle_lt_trans; [|exact Vs]. apply Rle_0_sqr. }
  assert (P' : (0 < sqrt v)%R) by now apply sqrt_lt_R0. assert (Q : (sqrt v * sqrt v = v)%R) by (apply sqrt_sqrt; lra).
  (* the mean of (d * d - t / v * d - v) ^ 2 is not negative *)
  assert (Z0 : central_mean s c (fun d => d) = 0%R).
  { unfold central_mean. cbv zeta. rewrite (mean_ext s c _ (fun x => x + - mean s c)%R) by (intros; ring). rewrite (mean_add s c (fun x => x)). rewrite mean_const by auto. ring. }
  assert (Add : forall g h, central_mean s c (fun d => g d + h d)%R = (central_mean s c g + central_mean s c h)%R).
  { intros g h. unfold central_mean. cbv zeta. apply mean_add. }
  assert (Cst : forall y, central_mean s c (fun _ => y) = y). { intros y. unfold central_mean. cbv zeta. now apply mean_const. }
  assert (NN : (0 <= central_mean s c (fun d => (d * d - t / v * d - v) * (d * d - t / v * d - v)))%R).
  { unfold central_mean. cbv zeta. apply mean_nonneg; auto. intros x. apply Rle_0_sqr. }
  rewrite (central_ext s c _ (fun d => d * d * (d * d) + ((- (2 * (t / v))) * (d * d * d) + ((t / v * (t / v) - 2 * v) * (d * d) + (2 * (t / v) * v * d + v * v))))%R) in NN by (intros; ring).
  rewrite (Add (fun d => d * d * (d * d))%R), (Add (fun d => (- (2 * (t / v))) * (d * d * d))%R), (Add (fun d => (t / v * (t / v) - 2 * v) * (d * d))%R), (Add (fun d => 2 * (t / v) * v * d)%R) in NN.
  rewrite !central_mul, Cst, Z0 in NN. fold v t f in NN.
  assert (E : (f / (v * v) - 3 - (t / (v * sqrt v) * (t / (v * sqrt v)) - 2) = (f + (- (2 * (t / v)) * t + ((t / v * (t / v) - 2 * v) * v + (2 * (t / v) * v * 0 + v * v)))) / (v * v))%R).
  { replace (t / (v * sqrt v) * (t / (v * sqrt v)))%R with (t * t / (v * v * (sqrt v * sqrt v)))%R by (field; lra). rewrite Q. field. lra. }
  assert (0 <= f / (v * v) - 3 - (t / (v * sqrt v) * (t / (v * sqrt v)) - 2))%R; [|lra]. rewrite E. apply Rmult_le_pos; auto. left. apply Rinv_0_lt_compat. nra.
Qed.

(** ** All channels together *)

Lemma sum_concat (l : list (list R)) (f : R -> R) : sum_over O (concat l) f = sum_over O l (fun r => sum_over O r f).
Proof.
  induction l as [|r l IH]; [reflexivity|]. cbn [concat]. rewrite sum_over_app, IH. reflexivity.
Qed.

Lemma zlen_concat_rows (m : arr R) : wf m -> zlen (concat (rows m)) = nrows m * cols m.
Proof.
  intros [_ W]. unfold nrows. induction W as [|r l Hr W IH]; [reflexivity|]. cbn [concat]. rewrite zlen_app, zlen_cons, IH, Hr. ring.
Qed.

Lemma mean_of_all s f : wf_signal s -> 0 < length s -> 0 < count s ->
  mean_of O M (map f (concat (rows (channels s)))) = mean_over_channels s (fun c => mean_over_time s c f).
Proof.
  intros W Hn Hc. assert (P : (0 < IZR (length s))%R) by now apply (IZR_lt 0). assert (P' : (0 < IZR (count s))%R) by now apply (IZR_lt 0).
  unfold mean_of, mean_over_channels. cbn [o_div real_ops f_int M real_functions]. rewrite zlen_map, zlen_concat_rows by apply W. fold (count s) (length s).
  rewrite sum_over_map, sum_concat, rows_rowv, sum_over_map. fold (count s).
  change (fold_right _ _ (zseq 0 (count s))) with (sumz RO 0 (count s) (fun c => mean_over_time s c f)).
  transitivity (sumz RO 0 (count s) (fun c => IZR (length s) * mean_over_time s c f) / (IZR (count s * length s)))%R.
  { f_equal. transitivity (sumz RO 0 (count s) (fun c => sum_over O (rowv (channels s) c) f)); [reflexivity|]. apply sumz_ext. intros c Hx.
    rewrite <- mean_of_row by (auto; lia). unfold mean_of. rewrite sum_over_map, zlen_map, (zlen_rowv (channels s) c) by (auto; try apply W; unfold count in *; lia).
    cbn [o_div real_ops f_int M real_functions]. fold (length s). cbv beta. change (fun i : R => f i) with f. field. lra. }
  pose proof (sumz_mul_l RO RO_ring 0 (count s) (IZR (length s)) (fun c => mean_over_time s c f)) as E. cbn [o_mul RO real_ops] in E. rewrite E.
  rewrite mult_IZR. field. lra.
Qed.

Lemma channels_add s f g : mean_over_channels s (fun c => f c + g c)%R = (mean_over_channels s f + mean_over_channels s g)%R.
Proof.
  unfold mean_over_channels. change (fold_right _ _ (zseq 0 (count s))) with (sumz RO 0 (count s) (fun c => o_add RO (f c) (g c))) at 1.
  rewrite (sumz_add RO RO_ring). change (o_add RO) with Rplus. unfold Rdiv, sumz. cbn [o_add o_zero RO real_ops]. ring.
Qed.

Lemma channels_ext s f g : (forall c, f c = g c) -> mean_over_channels s f = mean_over_channels s g.
Proof. intros H. unfold mean_over_channels. f_equal. induction (zseq 0 (count s)) as [|k l IH]; cbn; [auto|]. now rewrite H, IH. Qed.

Lemma total_ok s : wf_signal s -> 0 < length s -> 0 < count s ->
  let total := mean_over_channels s (fun c => mean s c) in
  signal_total_mean O M s = total /\
  signal_total_variance O M s = (mean_over_channels s (fun c => var s c) + mean_over_channels s (fun c => (mean s c - total) * (mean s c - total)))%R /\
  signal_total_standard_deviation O N M s = sqrt (signal_total_variance O M s).
Proof.
  intros W Hn Hc total.
  assert (E : mean_of O M (concat (rows (channels s))) = total). { rewrite <- (map_id (concat _)). now apply (mean_of_all s (fun x => x)). }
  split; [exact E|]. split; [|reflexivity]. unfold signal_total_variance, of_all_samples, moment2. rewrite E. cbv zeta. rewrite mean_of_all by auto.
  rewrite <- channels_add. apply channels_ext. intros c. cbn [o_sub o_mul real_ops]. rewrite variance_square by auto.
  rewrite (mean_ext s c _ (fun x => x * x + ((- (2 * total)) * x + total * total))%R) by (intros; ring).
  rewrite (mean_add s c (fun x => x * x)%R). rewrite (mean_add s c (fun x => (- (2 * total)) * x)%R). rewrite mean_mul, mean_const by auto. ring.
Qed.

End Statistics.
