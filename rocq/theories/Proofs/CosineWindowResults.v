(** The shapes of the windows that are sums of cosines, of the Gaussian and of the exponential window, and what is documented about them. *)

From Coq Require Import String ZArith QArith List Bool Lia ZifyBool Reals Lra Field.
From Verif.Model Require Import Py Numpy Vector Functions Signal Generators Windows CosineWindows.
From Verif.Spec Require Import TimeSpec RealSpec BlockSpec DftSpec GeneratorsSpec CosineWindowSpec.
From Verif.Proofs Require Import PyFacts NumpyFacts VectorFacts FadeFacts SliceFacts BlockRanges WindowMeasures WindowShapes CosineDecay.
Import ListNotations.
Open Scope Z_scope.

(** ** Sums over lists *)
Fixpoint weighted (k : Z) (l : list R) (f : Z -> R -> R) : R := match l with [] => 0 | x :: l => f k x + weighted (k + 1) l f end%R.

Lemma zseq_cons lo n : 0 < n -> zseq lo n = lo :: zseq (lo + 1) (n - 1).
Proof.
  intros H. unfold zseq. replace (Z.to_nat n) with (S (Z.to_nat (n - 1))) by lia. cbn [seq map]. f_equal; [lia|].
  rewrite <- seq_shift, map_map. apply map_ext. intros k. lia.
Qed.

Lemma Rsum_weighted l f : Rsum_list (zseq 0 (zlen l)) (fun k => f k (at_R l k)) = weighted 0 l f.
Proof.
  assert (G : forall lo, Rsum_list (zseq lo (zlen l)) (fun k => f k (at_R l (k - lo))) = weighted lo l f).
  { induction l as [|x l I]; intros lo; [reflexivity|]. pose proof (zlen_nonneg l). rewrite zlen_cons, zseq_cons by lia. cbn [Rsum_list fold_right weighted].
    replace (lo - lo) with 0 by lia. f_equal. rewrite <- I. replace (1 + zlen l - 1) with (zlen l) by lia.
    apply Rsum_list_ext. intros k K. apply in_zseq in K. f_equal. unfold at_R. rewrite zth_cons.
    destruct (Z.eqb_spec (k - lo) 0); [lia|]. now replace (k - lo - 1) with (k - (lo + 1)) by lia. }
  rewrite <- (G 0). apply Rsum_list_ext. intros k _. now rewrite Z.sub_0_r.
Qed.

Lemma weighted_map {X} (g : X -> R) d l k f : (forall k x, f k (x / d) = f k x / d)%R -> (weighted k (map (fun q => g q / d) l) f = weighted k (map g l) f / d)%R.
Proof. intros H. revert k. induction l as [|q l I]; intros k; cbn [map weighted]; [unfold Rdiv; ring|]. rewrite I, H. unfold Rdiv. ring. Qed.

(** ** The moments of the weights *)
Lemma moment_weighted a j : moment a j = weighted 0 a (fun k x => sign k * x * IZR k ^ (2 * j))%R.
Proof. exact (Rsum_weighted a (fun k x => sign k * x * IZR k ^ (2 * j))%R). Qed.

Ltac numbers := cbn [weighted map Z.add Pos.add Pos.succ sign Z.even fst snd Nat.mul Nat.add pow flat_top_coefficients nuttall_coefficients]; unfold sign, rational; cbn [Z.even fst snd].

Definition divisor (f : flat_top) : R := match flat_top_divisor f with Some d => rational d | None => 1%R end.
Lemma divisor_pos f : (0 < divisor f)%R.
Proof. unfold divisor, rational. destruct f; cbn [flat_top_divisor fst snd]; lra. Qed.
Lemma weights_flat_top f : weights (FlatTop f) = map (fun q => rational q / divisor f)%R (flat_top_coefficients f).
Proof. unfold weights, divisor. destruct (flat_top_divisor f); [reflexivity|]. apply map_ext. intros q. field. Qed.
Lemma moment_flat_top f j : (moment (weights (FlatTop f)) j = weighted 0 (map rational (flat_top_coefficients f)) (fun k x => sign k * x * IZR k ^ (2 * j)) / divisor f)%R.
Proof. rewrite moment_weighted, weights_flat_top. apply weighted_map. intros k x. unfold Rdiv. ring. Qed.
Lemma zero_moment f j : weighted 0 (map rational (flat_top_coefficients f)) (fun k x => sign k * x * IZR k ^ (2 * j))%R = 0%R -> moment (weights (FlatTop f)) j = 0%R.
Proof. intros H. rewrite moment_flat_top, H. unfold Rdiv. ring. Qed.
Lemma nonzero_moment f j : weighted 0 (map rational (flat_top_coefficients f)) (fun k x => sign k * x * IZR k ^ (2 * j))%R <> 0%R -> moment (weights (FlatTop f)) j <> 0%R.
Proof. intros H. rewrite moment_flat_top. apply Rmult_integral_contrapositive_currified; auto. apply Rinv_neq_0_compat. pose proof (divisor_pos f). lra. Qed.

Ltac flat_top_decay j := apply (decays_ok _ j); [intros i I; repeat (destruct i as [|i]; [|try lia]); try (exfalso; lia); apply zero_moment; numbers; lra | apply nonzero_moment; numbers; lra].
Ltac nuttall_decay j := apply (decays_ok _ j); [intros i I; repeat (destruct i as [|i]; [|try lia]); try (exfalso; lia); rewrite moment_weighted; unfold weights; numbers; lra | rewrite moment_weighted; unfold weights; numbers; lra].

Lemma HFT90D_decay : decays (sum_of_cosines (weights (FlatTop HFT90D))) (2 * 1 + 1). Proof. flat_top_decay 1%nat. Qed.
Lemma HFT116D_decay : decays (sum_of_cosines (weights (FlatTop HFT116D))) (2 * 1 + 1). Proof. flat_top_decay 1%nat. Qed.
Lemma HFT144D_decay : decays (sum_of_cosines (weights (FlatTop HFT144D))) (2 * 1 + 1). Proof. flat_top_decay 1%nat. Qed.
Lemma HFT196D_decay : decays (sum_of_cosines (weights (FlatTop HFT196D))) (2 * 1 + 1). Proof. flat_top_decay 1%nat. Qed.
Lemma HFT223D_decay : decays (sum_of_cosines (weights (FlatTop HFT223D))) (2 * 1 + 1). Proof. flat_top_decay 1%nat. Qed.
Lemma HFT248D_decay : decays (sum_of_cosines (weights (FlatTop HFT248D))) (2 * 1 + 1). Proof. flat_top_decay 1%nat. Qed.
Lemma NUTTALL3_decay : decays (sum_of_cosines (weights (Nuttall NUTTALL3))) (2 * 2 + 1). Proof. nuttall_decay 2%nat. Qed.
Lemma NUTTALL3A_decay : decays (sum_of_cosines (weights (Nuttall NUTTALL3A))) (2 * 1 + 1). Proof. nuttall_decay 1%nat. Qed.
Lemma NUTTALL3B_decay : decays (sum_of_cosines (weights (Nuttall NUTTALL3B))) (2 * 0 + 1). Proof. nuttall_decay 0%nat. Qed.
Lemma NUTTALL4_decay : decays (sum_of_cosines (weights (Nuttall NUTTALL4))) (2 * 3 + 1). Proof. nuttall_decay 3%nat. Qed.
Lemma NUTTALL4A_decay : decays (sum_of_cosines (weights (Nuttall NUTTALL4A))) (2 * 2 + 1). Proof. nuttall_decay 2%nat. Qed.
Lemma NUTTALL4B_decay : decays (sum_of_cosines (weights (Nuttall NUTTALL4B))) (2 * 1 + 1). Proof. nuttall_decay 1%nat. Qed.
Lemma NUTTALL4C_decay : decays (sum_of_cosines (weights (Nuttall NUTTALL4C))) (2 * 0 + 1). Proof. nuttall_decay 0%nat. Qed.

Lemma decay_ok c d : documented_decay c = Some d -> c <> FlatTop HFT169D -> decays (cosine_shape c) (Z.to_nat (d / 6)).
Proof.
  destruct c as [f|f|s|s]; cbn [documented_decay]; try discriminate; destruct f; intros D N; try discriminate; try (exfalso; now apply N); apply some_inv in D; subst d.
  - exact HFT90D_decay.
  - exact HFT116D_decay.
  - exact HFT144D_decay.
  - exact HFT196D_decay.
  - exact HFT223D_decay.
  - exact HFT248D_decay.
  - exact NUTTALL3_decay.
  - exact NUTTALL3A_decay.
  - exact NUTTALL3B_decay.
  - exact NUTTALL4_decay.
  - exact NUTTALL4A_decay.
  - exact NUTTALL4B_decay.
  - exact NUTTALL4C_decay.
Qed.

(** The functions that are optimized for a fast decay *)
Lemma fast_decay_ok : decays (cosine_shape (FlatTop SFT3F)) 3 /\ decays (cosine_shape (FlatTop SFT4F)) 5 /\ decays (cosine_shape (FlatTop SFT5F)) 7.
Proof.
  split; [|split].
  - change (decays (sum_of_cosines (weights (FlatTop SFT3F))) (2 * 1 + 1)). flat_top_decay 1%nat.
  - change (decays (sum_of_cosines (weights (FlatTop SFT4F))) (2 * 2 + 1)). flat_top_decay 2%nat.
  - change (decays (sum_of_cosines (weights (FlatTop SFT5F))) (2 * 3 + 1)). flat_top_decay 3%nat.
Qed.

Lemma HFT169D_ok : decays (cosine_shape (FlatTop HFT169D)) 1.
Proof. change (decays (sum_of_cosines (weights (FlatTop HFT169D))) (2 * 0 + 1)). flat_top_decay 0%nat. Qed.

Lemma HFT169D_refuted : documented_decay (FlatTop HFT169D) = Some 18 /\ decays (cosine_shape (FlatTop HFT169D)) 1 /\ ~ decays (cosine_shape (FlatTop HFT169D)) 3.
Proof. split; [reflexivity|]. split; [exact HFT169D_ok|]. intros D. pose proof (decays_unique _ _ _ HFT169D_ok D). lia. Qed.

(** ** The weights *)
Lemma terms_ok c n : documented_terms c = Some n -> zlen (weights c) = n.
Proof. destruct c as [f|f|s|s]; try discriminate; destruct f; intros [= <-]; reflexivity. Qed.

Lemma documented_shape c n : documented_terms c = Some n -> forall u, cosine_shape c u = sum_of_cosines (weights c) u.
Proof. destruct c; try discriminate; reflexivity. Qed.

Lemma rational_pos l : forallb (fun q => (0 <? fst q) && (0 <? snd q)) l = true -> forall q, In q l -> (0 < rational q)%R.
Proof.
  intros H q Q. rewrite forallb_forall in H. apply H in Q. apply andb_true_iff in Q as [A B]. apply Z.ltb_lt in A, B. unfold rational.
  apply Rmult_lt_0_compat; [now apply IZR_lt|]. apply Rinv_0_lt_compat. now apply IZR_lt.
Qed.

Lemma weights_pos c k a : zth (weights c) k = Some a -> (0 < a)%R.
Proof.
  destruct c as [f|f|s|s]; [rewrite weights_flat_top|unfold weights| |]; try (intros H; apply zth_range in H; change (zlen (weights _)) with 0 in H; lia); rewrite zth_map; intros H;
    destruct (zth _ k) as [q|] eqn:E; try discriminate; apply some_inv in H; subst a; apply zth_In in E.
  - apply Rmult_lt_0_compat; [|apply Rinv_0_lt_compat, divisor_pos]. refine (rational_pos _ _ _ E). now destruct f.
  - refine (rational_pos _ _ _ E). now destruct f.
Qed.

Lemma sum_weighted a : sum_of_cosines a 0 = weighted 0 a (fun _ x => x).
Proof.
  unfold sum_of_cosines. rewrite <- (Rsum_weighted a (fun _ x => x)). apply Rsum_list_ext. intros k _. rewrite Rmult_0_r, cos_0. ring.
Qed.

Lemma maximum_ok c : cosine_sum c -> (1 - / 100000 <= cosine_shape c 0 <= 1 + / 100000)%R.
Proof.
  destruct c as [f|f|s|s]; intros []; unfold cosine_shape; rewrite sum_weighted.
  - rewrite weights_flat_top, (weighted_map rational (divisor f) _ 0 (fun _ x => x)) by reflexivity. pose proof (divisor_pos f) as P.
    assert (Q : (divisor f * (1 - / 100000) <= weighted 0 (map rational (flat_top_coefficients f)) (fun _ x => x) <= divisor f * (1 + / 100000))%R).
    { unfold divisor, rational. destruct f; cbn [flat_top_divisor flat_top_coefficients map weighted fst snd]; lra. }
    set (W := weighted _ _ _) in *. split; apply (Rmult_le_reg_l (divisor f)); auto; replace (divisor f * (W / divisor f))%R with W by (field; lra); lra.
  - unfold weights, rational. destruct f; cbn [nuttall_coefficients map weighted fst snd]; lra.
Qed.

Lemma bound_ok c u : cosine_sum c -> (Rabs (cosine_shape c u) <= cosine_shape c 0)%R.
Proof.
  intros S. assert (E : forall u, cosine_shape c u = sum_of_cosines (weights c) u) by (destruct c; try destruct S; reflexivity). rewrite !E. unfold sum_of_cosines.
  apply sum_bound. intros k _. rewrite Rmult_0_r, cos_0, Rmult_1_r, Rabs_mult.
  assert (P : (0 <= at_R (weights c) k)%R). { unfold at_R. destruct (zth (weights c) k) eqn:Q; [|lra]. apply weights_pos in Q. lra. }
  rewrite (Rabs_right (at_R _ _)) by lra. rewrite <- (Rmult_1_r (at_R _ _)) at 2. apply Rmult_le_compat_l; auto. apply Rabs_le, COS_bound.
Qed.

(** ** The samples *)
Section Samples.
Variables power modulo : R -> R -> R.
Notation O := (real_ops power modulo).
Notation samples := (cosine_window_function O IZR PI cos exp (ln 10)).

Lemma scipy_length (f : Z -> R) M : 0 <= M -> zlen (scipy_window O f M) = M.
Proof. intros H. unfold scipy_window, ones. destruct (M <=? 1); [rewrite zlen_repeat; lia|]. rewrite zlen_map, zlen_seq. lia. Qed.

Lemma samples_length c M : 0 <= M -> zlen (samples c M) = M.
Proof.
  intros H. destruct c; cbn [cosine_window_function]; unfold general_cosine, gaussian, exponential_decay; [destruct flat_top_divisor; rewrite ?zlen_map| | |destruct (_ || _)]; try now apply scipy_length.
  unfold ones. rewrite zlen_repeat. lia.
Qed.

Lemma scipy_at (f : Z -> R) M k : 2 <= M -> 0 <= k < M -> zth (scipy_window O f M) k = Some (f k).
Proof. intros H K. unfold scipy_window. destruct (Z.leb_spec M 1); [lia|]. rewrite zth_map, zth_seq. replace (_ && _) with true by lia. reflexivity. Qed.

Lemma fold_sum (a : list (Z * Z)) l (g : Z -> R) (w : R) :
  fold_left (fun w k => match zth a k with Some q => w + rational q * g k | None => w end)%R l w = (w + Rsum_list l (fun k => at_R (map rational a) k * g k))%R.
Proof.
  revert w. induction l as [|k l I]; intros w; cbn [fold_left Rsum_list fold_right]; [ring|]. rewrite I. unfold at_R at 2. rewrite zth_map. destruct (zth a k); cbn [option_map]; ring_simplify; reflexivity || ring.
Qed.

Definition position (M k : Z) : R := (IZR k / IZR (M - 1) - 1 / 2)%R.

Lemma general_cosine_at a M k : 2 <= M -> 0 <= k < M -> zth (general_cosine O IZR PI cos a M) k = Some (sum_of_cosines (map rational a) (position M k)).
Proof.
  intros H K. unfold general_cosine. rewrite scipy_at by auto. f_equal. cbv zeta.
  change (fraction O IZR) with rational. cbn [real_ops o_add o_mul o_neg o_div o_zero].
  rewrite (fold_sum a _ (fun j => cos (IZR j * (- PI + IZR k * (2 * PI / IZR (M - 1))))%R)), Rplus_0_l. unfold sum_of_cosines. rewrite zlen_map.
  apply Rsum_list_ext. intros j _. f_equal. f_equal. unfold position. field. apply not_0_IZR. lia.
Qed.

Lemma samples_at c M k : sensible_window c -> 2 <= M -> 0 <= k < M -> zth (samples c M) k = Some (cosine_shape c (position M k)).
Proof.
  intros S H K. assert (P : (0 < IZR (M - 1))%R) by (apply IZR_lt; lia). assert (P0 : IZR (M - 1) <> 0%R) by lra.
  destruct c as [f|f|s|d]; cbn [cosine_window_function cosine_shape].
  - rewrite weights_flat_top. assert (Q : zth (general_cosine O IZR PI cos (flat_top_coefficients f) M) k = Some (sum_of_cosines (map rational (flat_top_coefficients f)) (position M k))) by now apply general_cosine_at.
    assert (D : sum_of_cosines (map (fun q => rational q / divisor f)%R (flat_top_coefficients f)) (position M k) = (sum_of_cosines (map rational (flat_top_coefficients f)) (position M k) / divisor f)%R).
    { unfold sum_of_cosines. rewrite (Rsum_weighted (map _ _) (fun j x => x * cos (2 * PI * IZR j * position M k))%R), (Rsum_weighted (map rational _) (fun j x => x * cos (2 * PI * IZR j * position M k))%R).
      apply weighted_map. intros. unfold Rdiv. ring. }
    rewrite D. unfold divisor. destruct (flat_top_divisor f) as [d|]; [rewrite zth_map, Q; reflexivity|]. rewrite Q. f_equal. field.
  - now apply general_cosine_at.
  - unfold gaussian. rewrite scipy_at by auto. f_equal. cbn [real_ops o_sub o_mul o_neg o_div ratio]. unfold ratio. cbn [real_ops o_div]. f_equal. unfold position. cbn in S. field. auto.
  - cbn [real_ops o_eqb o_zero o_mul o_neg o_div]. destruct (Z.eqb_spec M 1); [lia|]. cbn [orb]. destruct (Req_EM_T d 0) as [->|D].
    + unfold ones. rewrite zth_repeat. replace (_ && _) with true by lia. f_equal. cbn. unfold Rpower. replace (- 0 * Rabs (2 * position M k) / 20 * ln 10)%R with 0%R by (unfold Rdiv; ring). now rewrite exp_0.
    + unfold exponential_decay. rewrite scipy_at by auto. f_equal. unfold ratio. cbn [real_ops o_sub o_neg o_div o_abs]. unfold Rpower. f_equal.
      assert (L : (0 < ln 10)%R) by (rewrite <- ln_1; apply ln_increasing; lra).
      replace (IZR k - IZR (M - 1) / 2)%R with (IZR (M - 1) / 2 * (2 * position M k))%R by (unfold position; field; auto).
      rewrite Rabs_mult, (Rabs_right (IZR (M - 1) / 2)) by lra. field. repeat split; auto; lra.
Qed.

Lemma shape_even c u : cosine_shape c (- u) = cosine_shape c u.
Proof.
  assert (E : forall a, sum_of_cosines a (- u) = sum_of_cosines a u).
  { intros a. apply Rsum_list_ext. intros k _. f_equal. rewrite <- cos_neg. f_equal. ring. }
  destruct c; cbn [cosine_shape]; auto.
  - f_equal. f_equal. f_equal. unfold Rdiv. ring.
  - replace (2 * - u)%R with (- (2 * u))%R by ring. now rewrite Rabs_Ropp.
Qed.

Lemma one_sample c : zth (samples c 1) 0 = Some (match c with FlatTop f => 1 / divisor f | _ => 1 end)%R.
Proof. destruct c; cbn; try reflexivity. unfold divisor. destruct flat_top_divisor as [d|]; [reflexivity|]. change (Some 1%R = Some (1 / 1)%R). now replace (1 / 1)%R with 1%R by field. Qed.

Lemma samples_mirrored c M : sensible_window c -> 0 <= M -> mirrored (samples c M).
Proof.
  intros S H i. rewrite samples_length by auto. destruct (Z_lt_le_dec i 0); [rewrite !zth_out by (rewrite samples_length by auto; lia); auto|].
  destruct (Z_lt_le_dec i M); [|rewrite !zth_out by (rewrite samples_length by auto; lia); auto]. assert (M = 1 \/ 2 <= M) as [->|M2] by lia; [f_equal; lia|].
  rewrite !samples_at by (auto; lia). f_equal. rewrite <- shape_even. f_equal. unfold position. replace (M - 1 - i) with ((M - 1) - i) by lia. rewrite (minus_IZR (M - 1) i). field. apply not_0_IZR. lia.
Qed.

Lemma cosine_window_ok (junk : Z -> R) c rate length symmetric : sensible_window c -> 1 < length ->
  exists w, real_cosine_window power modulo junk c rate (NInt 0) length symmetric = Ok w /\ wf_signal w /\ count w = 1 /\ begins w = 0 /\ Signal.length w = length /\
    sampling_rate w = rate /\ labels w = [cosine_window_label c] /\
    forall t, 0 <= t < length -> at_time w 0 t = Some (cosine_shape c (IZR t / IZR (if symmetric then length - 1 else length) - 1 / 2)).
Proof.
  intros S H. destruct (window_ok O (samples c) (samples_length c) junk rate (cosine_window_label c) (NInt 0) length symmetric 0) as (w & Ew & Ww & Cw & Bw & En & Rw & Lw & _ & Q & _); try lia.
  { rewrite index_int by lia. reflexivity. }
  exists w. split; [exact Ew|]. do 3 (split; [auto|]). split; [unfold begins, ends in *; lia|]. do 2 (split; [auto|]).
  intros t Ht. rewrite (Q eq_refl t Ht). destruct symmetric; rewrite samples_at by (auto; lia); unfold position; [reflexivity|]. now replace (length + 1 - 1) with length by lia.
Qed.

Lemma exponential_levels_ok (junk : Z -> R) decay rate n : 0 < n ->
  exists w, real_cosine_window power modulo junk (Exponential decay) rate (NInt 0) (2 * n + 1) true = Ok w /\
    at_time w 0 0 = Some (Rpower 10 (- decay / 20)) /\ at_time w 0 n = Some 1%R /\ at_time w 0 (2 * n) = Some (Rpower 10 (- decay / 20)).
Proof.
  intros H. destruct (cosine_window_ok junk (Exponential decay) rate (2 * n + 1) true I ltac:(lia)) as (w & E & _ & _ & _ & _ & _ & _ & Q). exists w. split; [exact E|].
  cbn iota in Q. replace (2 * n + 1 - 1) with (2 * n) in Q by lia. assert (P : (0 < IZR n)%R) by (apply IZR_lt; lia).
  rewrite !Q by lia. rewrite mult_IZR. cbn [cosine_shape]. repeat split; f_equal.
  - f_equal. replace (2 * (0 / (2 * IZR n) - 1 / 2))%R with (-1)%R by (field; lra). rewrite Rabs_left by lra. field.
  - replace (2 * (IZR n / (2 * IZR n) - 1 / 2))%R with 0%R by (field; lra). rewrite Rabs_R0. unfold Rpower. replace (- decay * 0 / 20 * ln 10)%R with 0%R by (unfold Rdiv; ring). apply exp_0.
  - f_equal. replace (2 * (2 * IZR n / (2 * IZR n) - 1 / 2))%R with 1%R by (field; lra). rewrite Rabs_R1. field.
Qed.

(** The middle of a window with an odd number of samples *)
Lemma middle_value c n : sensible_window c -> 0 < n -> exists x, zth (samples c (2 * n + 1)) n = Some x /\ (1 - / 100000 <= x <= 1 + / 100000)%R.
Proof.
  intros S H. rewrite samples_at by (auto; lia). eexists. split; [reflexivity|]. replace (position (2 * n + 1) n) with 0%R.
  2: { unfold position. replace (2 * n + 1 - 1) with (2 * n) by lia. rewrite mult_IZR. field. apply not_0_IZR. lia. }
  destruct c as [f|f|s|d]; try now apply maximum_ok; cbn [cosine_shape].
  - cbn [cosine_shape]. replace (- (0 / (s / 2)) ^ 2 / 2)%R with 0%R by (unfold Rdiv; ring). rewrite exp_0. lra.
  - cbn [cosine_shape]. rewrite Rmult_0_r, Rabs_R0. unfold Rpower. replace (- d * 0 / 20 * ln 10)%R with 0%R by (unfold Rdiv; ring). rewrite exp_0. lra.
Qed.

Lemma middle_window_ok (junk : Z -> R) c rate n : sensible_window c -> 0 < n ->
  exists w x, real_cosine_window power modulo junk c rate (NInt 0) (2 * n + 1) true = Ok w /\ at_time w 0 n = Some x /\ (1 - / 100000 <= x <= 1 + / 100000)%R.
Proof.
  intros S H. destruct (cosine_window_ok junk c rate (2 * n + 1) true S ltac:(lia)) as (w & E & _ & _ & _ & _ & _ & _ & Q).
  destruct (middle_value c n S H) as (x & X & B). exists w, x. split; [exact E|]. split; [|exact B]. rewrite (Q n) by lia. rewrite samples_at in X by (auto; lia). exact X.
Qed.

Lemma one_sample_window (junk : Z -> R) rate : exists w x, real_cosine_window power modulo junk (FlatTop HFT70) rate (NInt 0) 1 true = Ok w /\ at_time w 0 0 = Some x /\ (x < 1 / 4)%R.
Proof.
  destruct (window_ok O (samples (FlatTop HFT70)) (samples_length _) junk rate (cosine_window_label (FlatTop HFT70 : cosine_window R)) (NInt 0) 1 true 0) as (w & Ew & _ & _ & _ & _ & _ & _ & _ & Q & _); try lia.
  { rewrite index_int by lia. reflexivity. }
  exists w, (1 / divisor HFT70)%R. split; [exact Ew|]. split; [rewrite (Q eq_refl 0) by lia; apply one_sample|]. pose proof (divisor_pos HFT70).
  apply (Rmult_lt_reg_r (divisor HFT70)); auto. replace (1 / divisor HFT70 * divisor HFT70)%R with 1%R by (field; lra). unfold divisor, rational. cbn. lra.
Qed.
End Samples.
