(** Levels in the time domain and in the frequency domain. *)

From Coq Require Import String ZArith List Bool Lia ZifyBool Reals Lra Ring_theory Field_theory Ring Field.
From Verif.Model Require Import Py Numpy Vector Functions Signal Spectrum Fft Fourier.
From Verif.Spec Require Import TimeSpec FrequencySpec RealSpec ConvolutionSpec ComplexSpec DftSpec FourierSpec.
From Verif.Proofs Require Import PyFacts NumpyFacts VectorFacts SumFacts ComplexFacts ConvolveFacts PlacedFacts DftFacts MethodFacts CircularFacts SpectrumModes SignalAlgebra FourierFacts RoundTripFacts FourierResults.
Import ListNotations.
Open Scope Z_scope.
Ltac Zify.zify_post_hook ::= idtac.

Section Levels.
Variables power modulo : R -> R -> R.
Variables cpower cmodulo : C -> C -> C.
Variable junk : Z -> Z -> R.
Variable cjunk : Z -> Z -> C.
Notation O := (real_ops power modulo).
Notation X := real_transforms.
Notation N := (real_numbers cpower cmodulo).
Notation transform s := (fourier_transform O X N junk cjunk s None).

Lemma sum_over_map {I J} (g : I -> J) (l : list I) (f : J -> R) : sum_over O (map g l) f = sum_over O l (fun i => f (g i)).
Proof. unfold sum_over. induction l as [|x l IH]; cbn [map fold_right]; [reflexivity|]. now rewrite <- IH. Qed.

Lemma sum_over_ext {I} (l : list I) (f g : I -> R) : (forall i, In i l -> f i = g i) -> sum_over O l f = sum_over O l g.
Proof. unfold sum_over. induction l as [|x l IH]; intros H; cbn [map fold_right]; [reflexivity|]. rewrite H by now left. rewrite IH; auto. intros i Hi. apply H. now right. Qed.

Lemma sum_over_app {I} (l m : list I) (f : I -> R) : sum_over O (l ++ m) f = (sum_over O l f + sum_over O m f)%R.
Proof. unfold sum_over. induction l as [|x l IH]; cbn in *; [ring|]. rewrite IH. ring. Qed.

Lemma sum_over_mul {I} (l : list I) (a : R) (f : I -> R) : sum_over O l (fun i => a * f i)%R = (a * sum_over O l f)%R.
Proof. unfold sum_over. induction l as [|x l IH]; cbn in *; [ring|]. rewrite IH. ring. Qed.

Lemma sum_over_nonneg {I} (l : list I) (f : I -> R) : (forall i, In i l -> 0 <= f i)%R -> (0 <= sum_over O l f)%R.
Proof.
  unfold sum_over. induction l as [|x l IH]; intros H; cbn; [lra|]. pose proof (H x (or_introl eq_refl)).
  assert (0 <= sum_over O l f)%R by (apply IH; intros i Hi; apply H; now right). unfold sum_over in *. cbn in *. lra.
Qed.

Lemma list_of_values (x : list R) : x = map (at_R x) (zseq 0 (zlen x)).
Proof.
  apply zth_ext_in; [rewrite zlen_map, zlen_seq; pose proof (zlen_nonneg x); lia|]. intros k Hk. rewrite zth_map, zth_seq.
  replace (_ && _) with true by lia. cbn. now apply zth_at_R.
Qed.

Lemma square_sum_ok (x : list R) : square_sum O x = sumz RO 0 (zlen x) (fun m => at_R x m * at_R x m)%R.
Proof. unfold square_sum. rewrite (list_of_values x) at 1. rewrite sum_over_map. reflexivity. Qed.

Lemma square_sum_nonneg (x : list R) : (0 <= square_sum O x)%R.
Proof. apply sum_over_nonneg. intros i _. cbn. nra. Qed.

Lemma length_pos n : 0 < n -> (0 < IZR n)%R.
Proof. intros H. now apply (IZR_lt 0). Qed.

(** ** The levels of a signal *)

Lemma mean_square_row s c : wf_signal s -> 0 <= c < count s -> mean_square s c = (square_sum O (rowv (channels s) c) / IZR (length s))%R.
Proof.
  intros W Hc. unfold mean_square. f_equal. rewrite square_sum_ok, sum_over_time_sum.
  replace (zlen (rowv (channels s) c)) with (length s) by (symmetry; apply zlen_rowv; [apply W|exact Hc]). apply sumz_ext. intros k _. now rewrite !sample_row by auto.
Qed.

Lemma signal_level_ok s : wf_signal s -> 0 < length s -> zlen (signal_level O N s) = count s /\
  forall c, 0 <= c < count s -> zth (signal_level O N s) c = Some (sqrt (mean_square s c)).
Proof.
  intros W Hn. unfold signal_level. split; [apply zlen_map|]. intros c Hc. rewrite zth_map, rowv_zth by exact Hc. cbn [option_map]. f_equal.
  rewrite mean_square_row by auto. symmetry. apply sqrt_div; [apply square_sum_nonneg|now apply length_pos].
Qed.

Lemma rows_rowv {A} (m : arr A) : rows m = map (rowv m) (zseq 0 (nrows m)).
Proof.
  pose proof (nrows_nonneg m). apply zth_ext_in; [rewrite zlen_map, zlen_seq; unfold nrows in *; lia|]. intros k Hk. rewrite zth_map, zth_seq.
  fold (nrows m) in Hk. replace (_ && _) with true by lia. cbn. rewrite rowv_zth; auto.
Qed.

Lemma square_sum_concat (l : list (list R)) : square_sum O (concat l) = sum_over O l (square_sum O).
Proof.
  induction l as [|r l IH]; [reflexivity|]. cbn [concat]. unfold square_sum at 1. rewrite sum_over_app. fold (square_sum O r). fold (square_sum O (concat l)).
  rewrite IH. reflexivity.
Qed.

Lemma total_level_ok s : wf_signal s -> 0 < length s -> 0 < count s ->
  signal_total_level O N s = sqrt (sumz RO 0 (count s) (mean_square s) / IZR (count s))%R.
Proof.
  intros W Hn Hc. unfold signal_total_level. rewrite square_sum_concat.
  cbn [o_div real_ops n_sqrt real_numbers n_int].
  rewrite <- sqrt_div; [|apply sum_over_nonneg; intros; apply square_sum_nonneg|apply length_pos; nia]. f_equal.
  rewrite rows_rowv, sum_over_map. fold (count s). change (sum_over O (zseq 0 (count s)) ?f) with (sumz RO 0 (count s) f).
  rewrite (sumz_ext RO _ _ _ (fun c => IZR (length s) * mean_square s c)%R).
  - change Rmult with (o_mul RO). rewrite (sumz_mul_l RO (real_ring _ _)). cbn. rewrite mult_IZR. field. split; apply n_not_0; auto.
  - intros c Hx. rewrite mean_square_row by (auto; lia). field. now apply n_not_0.
Qed.

(** ** The levels of a spectrum *)

Lemma energy_ok (f : Z -> R) h : 0 < h -> energy O N (map f (zseq 0 (h + 1))) = Ok (sumz RO 1 (h - 1) f * 2 + f 0%Z + f h)%R.
Proof.
  intros H. unfold energy, getitem. assert (L : zlen (map f (zseq 0 (h + 1))) = h + 1) by (rewrite zlen_map, zlen_seq; lia). rewrite L.
  cbn [Z.ltb Z.compare]. rewrite !zth_map, !zth_seq. replace (_ && _) with true by lia. replace (_ && _) with true by lia. cbn [option_map bind].
  replace (0 + (-1 + (h + 1))) with h by lia. change (0 + 0) with 0. cbn [o_add o_mul real_ops n_int real_numbers]. do 4 f_equal.
  replace (subseq (between 1 (-1)) (map f (zseq 0 (h + 1)))) with (map f (zseq 1 (h - 1))); [now rewrite sum_over_map|].
  destruct (sub_ok (map f (zseq 0 (h + 1))) (between 1 (-1)) 1 h) as (Ls & Vs).
  - rewrite L. bounds.
  - rewrite L. bounds.
  - apply zth_ext_in; [rewrite zlen_map, zlen_seq; lia|]. rewrite zlen_map, zlen_seq. intros k Hk. rewrite Vs, !zth_map, !zth_seq.
    replace (_ && _) with true by lia. replace (_ && _) with true by lia. cbn [option_map]. do 2 f_equal. lia.
Qed.

Lemma norm2_root n e : 0 < n -> norm2 (root n e) = 1%R.
Proof. intros Hn. unfold norm2, root, cis, re, im. cbn. pose proof (sin2_cos2 (2 * PI * IZR e / IZR n)) as H. unfold Rsqr in H. lra. Qed.

Lemma norm2_product z w : norm2 (Cmul z w) = (norm2 z * norm2 w)%R.
Proof. unfold norm2. cbn. ring. Qed.

Lemma modulus_square z : (modulus z * modulus z)%R = norm2 z.
Proof. apply sqrt_sqrt. unfold norm2. nra. Qed.

Lemma norm2_conj z : norm2 (Cconj z) = norm2 z.
Proof. unfold norm2. cbn. ring. Qed.

Lemma energy_of_transform s r overlap pad c : wf_signal s -> 0 < length s -> length s mod 2 = 0 -> sampling_rate s <> 0%R ->
  transform s overlap pad = Ok r -> 0 <= c < count s ->
  energy O N (map (fun z => modulus z * modulus z)%R (rowv (sp_channels r) c)) = Ok (IZR (length s) * square_sum O (rowv (channels s) c))%R.
Proof.
  intros W Hn Ev Hr E Hc. rewrite (transform_row power modulo cpower cmodulo junk cjunk s r overlap pad) by auto. rewrite map_map.
  pose proof (Z.div_mod (length s) 2 ltac:(lia)) as D. rewrite energy_ok by lia.
  assert (Lx : zlen (rowv (channels s) c) = length s) by (apply zlen_rowv; [apply W|exact Hc]). set (x := rowv (channels s) c) in *.
  set (f := fun k => norm2 (dft x k)).
  assert (V : forall k, (modulus (Cmul (dft x k) (root (length s) (- (k * offset s)))) * modulus (Cmul (dft x k) (root (length s) (- (k * offset s)))))%R = f k).
  { intros k. rewrite modulus_square, norm2_product, norm2_root by auto. unfold f. ring. }
  rewrite !V. rewrite (sumz_ext RO _ _ _ f) by (intros; apply V). f_equal. rewrite <- (half_sum (length s) Hn f Ev).
  - unfold f. rewrite parseval by auto. f_equal. rewrite square_sum_ok, Lx. reflexivity.
  - intros k Hk. unfold f. rewrite (symmetric_flip (length s)) by (now apply dft_symmetric). apply norm2_conj.
Qed.

Lemma squares_rows (r : spectrum C R) : squares O N r = map (fun c => map (fun z => modulus z * modulus z)%R (rowv (sp_channels r) c)) (zseq 0 (sp_count r)).
Proof. unfold squares. rewrite rows_rowv, map_map. reflexivity. Qed.

Lemma sequence_ok {A B} (l : list A) (f : A -> result B) (g : A -> B) : (forall x, In x l -> f x = Ok (g x)) -> sequence (map f l) = Ok (map g l).
Proof.
  induction l as [|x l IH]; intros H; cbn; [reflexivity|]. rewrite H by now left. cbn. rewrite IH by (intros; apply H; now right). reflexivity.
Qed.

Lemma in_zseq k lo n : In k (zseq lo n) -> lo <= k < lo + n.
Proof. unfold zseq. rewrite in_map_iff. intros (q & <- & H). apply in_seq in H. lia. Qed.

Lemma levels_agree s overlap pad : wf_signal s -> 0 < length s -> length s mod 2 = 0 -> sampling_rate s <> 0%R ->
  exists r, transform s overlap pad = Ok r /\ spectrum_level O N r = Ok (signal_level O N s) /\
    (0 < count s -> spectrum_total_level O N r = Ok (signal_total_level O N s)).
Proof.
  intros W Hn Ev Hr. destruct (transform_ok power modulo cpower cmodulo junk cjunk s overlap pad W Hn Hr) as (r & E & Wr & Nr & Lr & _).
  exists r. split; [exact E|]. pose proof (Z.div_mod (length s) 2 ltac:(lia)) as D. assert (Hp := length_pos _ Hn).
  assert (Sl : Z.max 1 ((sp_length r - 1) * 2) = length s) by lia.
  assert (Hs : (0 < sqrt (IZR (length s)))%R) by now apply sqrt_lt_R0.
  assert (Ss : (sqrt (IZR (length s)) * sqrt (IZR (length s)) = IZR (length s))%R) by (apply sqrt_sqrt; lra).
  split.
  - unfold spectrum_level. rewrite Sl, squares_rows, map_map, Nr. unfold signal_level. rewrite rows_rowv, map_map. fold (count s). apply sequence_ok.
    intros c Hc. apply in_zseq in Hc. rewrite (energy_of_transform s r overlap pad) by (auto; lia). cbn [bind]. f_equal.
    cbn [o_div real_ops n_sqrt real_numbers n_int]. rewrite sqrt_mult; [|lra|apply square_sum_nonneg]. rewrite <- Ss at 2. field. lra.
  - intros Hc. unfold spectrum_total_level. rewrite Sl, squares_rows, map_map, Nr. replace (count s =? 0) with false by lia.
    rewrite (sequence_ok _ _ (fun c => IZR (length s) * square_sum O (rowv (channels s) c))%R).
    2:{ intros c Hx. apply in_zseq in Hx. apply (energy_of_transform s r overlap pad); auto; lia. }
    cbn [bind]. f_equal. unfold signal_total_level. rewrite square_sum_concat, rows_rowv, !sum_over_map. fold (count s). rewrite sum_over_mul.
    cbn [o_div real_ops n_sqrt real_numbers n_int]. set (S := sum_over O (zseq 0 (count s)) _).
    assert (S0 : (0 <= S)%R) by (apply sum_over_nonneg; intros; apply square_sum_nonneg). assert (Hq := length_pos _ Hc).
    assert (Hs' : (0 < sqrt (IZR (count s)))%R) by now apply sqrt_lt_R0.
    rewrite mult_IZR, sqrt_mult by lra. rewrite sqrt_div by nra. rewrite sqrt_mult by lra. rewrite <- Ss at 2. field. lra.
Qed.

End Levels.
