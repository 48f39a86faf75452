(** The scaling factor of a window. *)

From Coq Require Import String ZArith List Bool Lia ZifyBool Reals Lra Ring_theory Field_theory Ring Field Permutation.
From Verif.Model Require Import Py Numpy Vector Functions Signal Spectrum Fft Fourier.
From Verif.Spec Require Import TimeSpec FrequencySpec RealSpec ConvolutionSpec ComplexSpec DftSpec FourierSpec BlockSpec.
From Verif.Proofs Require Import PyFacts NumpyFacts VectorFacts SumFacts ComplexFacts ConvolveFacts PlacedFacts DftFacts MethodFacts SliceFacts FourierFacts FourierResults LevelFacts BlockRanges BlockFacts.
Import ListNotations.
Open Scope Z_scope.
Ltac Zify.zify_post_hook ::= idtac.

Section Scaling.
Variables power modulo : R -> R -> R.
Variables cpower cmodulo : C -> C -> C.
Notation O := (real_ops power modulo).
Notation N := (real_numbers cpower cmodulo).
Notation sumR := (sumz RO).
Let RO_ring : commutative_ring RO := real_ring _ _.

Variable w : signal R.
Hypothesis Ww : wf_signal w.
Notation l := (length w).
Hypothesis Pl : 0 < l.

(** The samples of the channel *)
Definition w_at (c m : Z) : R := match el (channels w) c m with Some x => x | None => 0%R end.
Lemma w_at_out c m : ~ (0 <= m < l) -> w_at c m = 0%R.
Proof. intros H. unfold w_at. rewrite el_out; [reflexivity|apply Ww|]. unfold length in H. tauto. Qed.
Lemma window_w_at c m : 0 <= c < count w -> window_at w c m = w_at c m.
Proof. intros H. unfold window_at, w_at. replace (if count w =? 1 then 0 else c) with c by (destruct (count w =? 1) eqn:E; lia). reflexivity. Qed.

Lemma channel_sum_ok (x : list R) : channel_sum O x = sumR 0 (zlen x) (at_R x).
Proof. unfold channel_sum. rewrite (list_of_values x) at 1. rewrite (sum_over_map power modulo). reflexivity. Qed.

Lemma block_row b lo hi c : lower b l = lo -> upper b l = hi -> 0 <= c < count w ->
  exists r, zth (rows (block (channels w) everything b)) c = Some r /\ channel_sum O r = sumR 0 l (fun t => if (lo <=? t) && (t <? hi) then w_at c t else 0%R).
Proof.
  intros L U Hc. pose proof (nrows_nonneg (channels w)). destruct (block_cols (channels w) b lo hi (proj1 Ww) L U) as (Wb & Nb & Cb & Vb).
  pose proof (lower_range b l (Z.lt_le_incl _ _ Pl)). pose proof (upper_range b l (Z.lt_le_incl _ _ Pl)).
  set (m := block _ _ _) in *. clearbody m. unfold count in Hc.
  exists (rowv m c). split; [apply rowv_zth; lia|]. rewrite channel_sum_ok, zlen_rowv by (auto; lia). rewrite Cb.
  rewrite (sumz_ext RO 0 (hi - lo) _ (fun t => w_at c (t + lo))).
  - rewrite (sumz_shift RO 0 (hi - lo) lo (w_at c)). rewrite (sumz_ext RO (0 + lo) (hi - lo) _ (fun t => if (lo <=? t) && (t <? hi) then w_at c t else 0%R)).
    + apply (sumz_extend RO RO_ring); try lia. intros k Hk. replace (_ && _) with false by lia. reflexivity.
    + intros k Hk. replace (_ && _) with true by lia. reflexivity.
  - intros t Ht. unfold at_R. rewrite <- el_rowv by lia. rewrite Vb by lia. reflexivity.
Qed.

(** The sum of a window, that is shifted by [b] *)
Definition shifted_sum (c b : Z) : R := sumR 0 l (fun t => w_at c (t - b)).

Lemma row_sum c : 0 <= c < count w -> exists r, zth (rows (channels w)) c = Some r /\ channel_sum O r = shifted_sum c 0.
Proof.
  intros Hc. exists (rowv (channels w) c). split; [now apply rowv_zth|]. rewrite channel_sum_ok, zlen_rowv by (auto; apply Ww). unfold shifted_sum.
  apply sumz_ext. intros t _. rewrite Z.sub_0_r. unfold at_R, w_at. now rewrite el_rowv by auto.
Qed.

Lemma left_sum c b : 0 <= c < count w -> 0 < b < l ->
  exists r, zth (rows (block (channels w) everything (between 0 (l - b)))) c = Some r /\ channel_sum O r = shifted_sum c b.
Proof.
  intros Hc Hb. destruct (block_row (between 0 (l - b)) 0 (l - b) c) as (r & E & E2); auto; [apply lower_between; lia|apply upper_between; lia|].
  exists r. split; [exact E|]. rewrite E2. unfold shifted_sum.
  set (g := fun u => if (0 <=? u) && (u <? l - b) then w_at c u else 0%R).
  rewrite (sumz_ext RO 0 l (fun t => w_at c (t - b)) (fun t => g (t + - b))).
  - rewrite (sumz_shift RO 0 l (- b) g). unfold g. apply (sumz_support RO RO_ring); try lia.
    + intros k Hk. destruct (_ && _) eqn:E'; [lia|reflexivity].
    + intros k Hk. destruct (_ && _) eqn:E'; [lia|reflexivity].
  - intros t Ht. unfold g. change (t + - b) with (t - b). destruct (_ && _) eqn:E'; [reflexivity|]. apply w_at_out. lia.
Qed.

Lemma right_sum c b : 0 <= c < count w -> 0 < b < l ->
  exists r, zth (rows (block (channels w) everything (from b))) c = Some r /\ channel_sum O r = shifted_sum c (- b).
Proof.
  intros Hc Hb. destruct (block_row (from b) b l c) as (r & E & E2); auto; [apply lower_from; lia|apply upper_from; lia|].
  exists r. split; [exact E|]. rewrite E2. unfold shifted_sum.
  set (g := fun u => if (b <=? u) && (u <? l) then w_at c u else 0%R).
  rewrite (sumz_ext RO 0 l (fun t => w_at c (t - - b)) (fun t => g (t + b))).
  - rewrite (sumz_shift RO 0 l b g). unfold g. apply (sumz_support RO RO_ring); try lia.
    + intros k Hk. destruct (_ && _) eqn:E'; [lia|reflexivity].
    + intros k Hk. destruct (_ && _) eqn:E'; [lia|reflexivity].
  - intros t Ht. unfold g. replace (t - - b) with (t + b) by lia. destruct (_ && _) eqn:E'; [reflexivity|]. apply w_at_out. lia.
Qed.

Lemma zlen_block_rows b : zlen (rows (block (channels w) everything b)) = count w.
Proof. change (zlen (rows ?m)) with (nrows m). pose proof (nrows_nonneg (channels w)). rewrite nrows_block, lower_everything, upper_everything by auto. unfold count. lia. Qed.

Lemma added_ok shifts : (forall b, In b shifts -> 0 < b < l) -> forall (added : list R) A, zlen added = count w -> (forall c, 0 <= c < count w -> zth added c = Some (A c)) ->
  let r := fold_left (fun added shift =>
             map2 (o_add O)
               (map2 (o_add O) added (map (channel_sum O) (rows (block (channels w) everything (between 0 (l - shift))))))
               (map (channel_sum O) (rows (block (channels w) everything (from shift))))) shifts added in
  zlen r = count w /\ forall c, 0 <= c < count w -> zth r c = Some (A c + Rsum_list shifts (fun b => shifted_sum c b + shifted_sum c (- b)))%R.
Proof.
  induction shifts as [|b shifts IH]; intros H added A L V; cbn [fold_left].
  - split; [exact L|]. intros c Hc. rewrite V by auto. f_equal. cbn. ring.
  - cbv zeta in IH. cbv zeta.
    match goal with |- context [fold_left _ shifts ?x] => set (added1 := x) end.
    assert (L1 : zlen added1 = count w). { unfold added1. rewrite !zlen_map2, !zlen_map, !zlen_block_rows. lia. }
    assert (V1 : forall c, 0 <= c < count w -> zth added1 c = Some (A c + shifted_sum c b + shifted_sum c (- b))%R).
    { intros c Hc. unfold added1. rewrite !zth_map2, !zth_map, V by auto. pose proof (H b (or_introl eq_refl)) as Hb.
      destruct (left_sum c b Hc Hb) as (r1 & -> & E1). destruct (right_sum c b Hc Hb) as (r2 & -> & E2). cbn [option_map]. rewrite E1, E2. reflexivity. }
    destruct (IH (fun b' Hb => H b' (or_intror Hb)) added1 _ L1 V1) as (L' & V').
    split; [exact L'|]. intros c Hc. rewrite V' by auto. f_equal. cbn [Rsum_list fold_right]. fold (Rsum_list shifts (fun b => shifted_sum c b + shifted_sum c (- b))%R). ring.
Qed.

Lemma all_shifts step c : 0 < step <= l -> 0 <= c < count w ->
  (shifted_sum c 0 + Rsum_list (multiples step 1 l) (fun b => shifted_sum c b + shifted_sum c (- b)))%R
  = Rsum_list (zseq 0 l) (overlap_sum w c (overlapping_blocks l l step)).
Proof.
  intros Hs Hc. unfold overlap_sum. rewrite Rsum_swap.
  rewrite (Rsum_list_ext _ (fun b => Rsum_list (zseq 0 l) (fun a => window_at w c (a - b))) (shifted_sum c)).
  2: { intros b _. unfold shifted_sum. change (sumR 0 l ?f) with (Rsum_list (zseq 0 l) f). apply Rsum_list_ext. intros t _. now apply window_w_at. }
  assert (P : Permutation (0 :: multiples step 1 l ++ map Z.opp (multiples step 1 l)) (overlapping_blocks l l step)).
  { apply NoDup_Permutation.
    - constructor.
      + rewrite in_app_iff, in_map_iff. intros [H|(x & E & H)]; apply in_multiples in H; lia.
      + apply NoDup_app_intro; [apply NoDup_multiples; lia| |].
        * apply FinFun.Injective_map_NoDup; [|apply NoDup_multiples; lia]. intros a b H. lia.
        * intros x H1 H2. apply in_map_iff in H2. destruct H2 as (y & <- & H2). apply in_multiples in H1; [|lia]. apply in_multiples in H2; lia.
    - apply NoDup_overlapping.
    - intros x. rewrite in_overlapping. cbn [In]. rewrite in_app_iff, in_map_iff. split.
      + intros [<-|[H|(y & <- & H)]].
        * split; [apply Z.mod_0_l; lia|lia].
        * apply in_multiples in H; lia.
        * apply in_multiples in H; [|lia]. split; [|lia]. apply Z.mod_opp_l_z; lia.
      + intros [M H]. destruct (Z.lt_trichotomy x 0) as [L|[->|G]].
        * right. right. exists (- x). split; [lia|]. apply in_multiples; [lia|]. split; [apply Z.mod_opp_l_z; lia|].
          pose proof M as M'. apply Z.div_exact in M'; [|lia]. assert (x / step < 0) by nia. nia.
        * now left.
        * right. left. apply in_multiples; [lia|]. split; [exact M|]. apply Z.div_exact in M; [|lia]. assert (0 < x / step) by nia. nia. }
  rewrite <- (Rsum_permutation _ _ _ P). change (Rsum_list (0 :: ?m) ?f) with (f 0%Z + Rsum_list m f)%R. cbv beta. f_equal.
  rewrite Rsum_list_app, Rsum_list_add. f_equal. generalize (multiples step 1 l). intros m. unfold Rsum_list. induction m as [|b m IH]; cbn; [reflexivity|]. now rewrite IH.
Qed.

Lemma scaling_factor_ok step : 0 < step <= l ->
  exists f, scaling_factor O N w (NInt (l - step)) = Ok f /\ zlen f = count w /\
    forall c, 0 <= c < count w -> zth f c = Some (IZR l / Rsum_list (zseq 0 l) (overlap_sum w c (overlapping_blocks l l step)))%R.
Proof.
  intros Hs. unfold scaling_factor. rewrite index_int by lia. replace (l - step <? 0) with false by lia. cbn [bind].
  replace (l - (l - step)) with step by lia. replace (step =? 0) with false by lia.
  replace (range step l step) with (range (1 * step) l step) by (f_equal; lia). rewrite range_multiples by lia. cbn [bind].
  destruct (added_ok (multiples step 1 l)) with (added := map (channel_sum O) (rows (channels w))) (A := fun c => shifted_sum c 0) as (L & V).
  - intros b H. apply in_multiples in H; lia.
  - apply zlen_map.
  - intros c Hc. rewrite zth_map. destruct (row_sum c Hc) as (r & -> & E). cbn [option_map]. now rewrite E.
  - eexists. split; [reflexivity|]. cbv zeta in L, V. split; [now rewrite zlen_map|]. intros c Hc. rewrite zth_map, V by auto. cbn [option_map]. now rewrite all_shifts.
Qed.

End Scaling.
