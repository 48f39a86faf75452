(** The shapes of the windows that NumPy computes, and the sums of their repetitions. *)

From Coq Require Import String ZArith QArith List Bool Lia ZifyBool Reals Lra Ring_theory Field_theory Ring Field Permutation.
From Verif.Model Require Import Py Numpy Vector Functions Signal Spectrum Fft Fourier Generators Windows.
From Verif.Spec Require Import TimeSpec FrequencySpec RealSpec ConvolutionSpec ComplexSpec DftSpec FourierSpec BlockSpec GeneratorsSpec WindowSpec.
From Verif.Proofs Require Import PyFacts NumpyFacts VectorFacts FadeFacts SumFacts ComplexFacts ConvolveFacts PlacedFacts DftFacts SliceFacts FourierFacts LevelFacts BlockRanges BlockFacts BlockScaling BlockResults WindowMeasures.
Import ListNotations.
Open Scope Z_scope.
Ltac Zify.zify_post_hook ::= idtac.

Section Shapes.
Variables power modulo : R -> R -> R.
Notation O := (real_ops power modulo).
Let RO_ring : commutative_ring RO := real_ring _ _.
Notation sumR := (sumz RO).
Notation samples := (window_function O IZR PI cos).

Lemma numpy_window_length (f : Z -> R) M : 0 <= M -> zlen (numpy_window O f M) = M.
Proof.
  intros H. unfold numpy_window. destruct (M <? 1) eqn:E; [change (zlen (@nil R)) with 0; lia|]. destruct (M =? 1) eqn:E1; [change (zlen [o_one O]) with 1; lia|].
  rewrite zlen_map, zlen_seq. lia.
Qed.

Lemma sized_ok c M : 0 <= M -> zlen (samples c M) = M.
Proof. intros H. destruct c; cbn [window_function]; try (apply numpy_window_length; exact H). unfold ones. rewrite zlen_repeat. lia. Qed.

Lemma numpy_window_at (f : Z -> R) M k : 2 <= M -> 0 <= k < M -> zth (numpy_window O f M) k = Some (f (1 - M + 2 * k)).
Proof. intros H Hk. unfold numpy_window. replace (M <? 1) with false by lia. replace (M =? 1) with false by lia. rewrite zth_map, zth_seq. replace (_ && _) with true by lia. reflexivity. Qed.

Lemma shape_1 c : zth (samples c 1) 0 = Some 1%R.
Proof. destruct c; reflexivity. Qed.

Lemma angle_ok M k : 2 <= M -> (PI * IZR (1 - M + 2 * k) / IZR (M - 1))%R = (2 * PI * (IZR k / IZR (M - 1)) - PI)%R.
Proof. intros H. replace (1 - M + 2 * k) with (2 * k - (M - 1)) by lia. rewrite minus_IZR, mult_IZR. field. apply not_0_IZR. lia. Qed.

Lemma cos_minus_PI x : cos (x - PI) = (- cos x)%R.
Proof. replace (x - PI)%R with (- (PI - x))%R by ring. rewrite cos_neg. apply Rtrigo_facts.cos_pi_minus. Qed.

Lemma shape_at c M k : 2 <= M -> 0 <= k < M -> zth (samples c M) k = Some (shape c (IZR k / IZR (M - 1))).
Proof.
  intros HM Hk. assert (N0 : (0 < IZR (M - 1))%R) by (apply IZR_lt; lia).
  destruct c; cbn [window_function shape].
  - unfold ones. rewrite zth_repeat. replace (_ && _) with true by lia. reflexivity.
  - unfold bartlett. rewrite numpy_window_at by auto. f_equal. cbn [o_add o_sub o_one o_div real_ops]. unfold ratio. cbn [o_div real_ops].
    assert (E : (IZR (1 - M + 2 * k) / IZR (M - 1) = 2 * (IZR k / IZR (M - 1)) - 1)%R).
    { replace (1 - M + 2 * k) with (2 * k - (M - 1)) by lia. rewrite minus_IZR, mult_IZR. field. lra. }
    rewrite <- E. destruct (1 - M + 2 * k <=? 0) eqn:S.
    + rewrite Rabs_left1; [ring|]. apply (Rmult_le_reg_r (IZR (M - 1))); auto. unfold Rdiv. rewrite Rmult_assoc, Rinv_l, Rmult_1_r, Rmult_0_l by lra. apply IZR_le. lia.
    + rewrite Rabs_pos_eq; [ring|]. apply (Rmult_le_reg_r (IZR (M - 1))); auto. unfold Rdiv. rewrite Rmult_assoc, Rinv_l, Rmult_1_r, Rmult_0_l by lra. apply IZR_le. lia.
  - unfold hanning. rewrite numpy_window_at by auto. f_equal. unfold ratio, angle. cbn [o_add o_mul o_div real_ops]. rewrite angle_ok, cos_minus_PI by auto. field.
  - unfold hamming. rewrite numpy_window_at by auto. f_equal. unfold ratio, angle. cbn [o_add o_mul o_div real_ops]. rewrite angle_ok, cos_minus_PI by auto. field.
  - unfold blackman. rewrite numpy_window_at by auto. f_equal. unfold ratio, angle, double_angle. cbn [o_add o_mul o_div real_ops].
    replace (2 * PI * IZR (1 - M + 2 * k) / IZR (M - 1))%R with (2 * (PI * IZR (1 - M + 2 * k) / IZR (M - 1)))%R by (field; lra).
    rewrite angle_ok, cos_minus_PI by auto. replace (2 * (2 * PI * (IZR k / IZR (M - 1)) - PI))%R with (4 * PI * (IZR k / IZR (M - 1)) - 2 * PI)%R by ring.
    replace (cos (4 * PI * (IZR k / IZR (M - 1)) - 2 * PI)) with (cos (4 * PI * (IZR k / IZR (M - 1)))); [field|].
    replace (4 * PI * (IZR k / IZR (M - 1)))%R with (4 * PI * (IZR k / IZR (M - 1)) - 2 * PI + 2 * PI)%R at 1 by ring. rewrite cos_plus, cos_2PI, sin_2PI. ring.
Qed.

Lemma cos_2PI_minus y : cos (2 * PI - y) = cos y.
Proof. rewrite cos_minus, cos_2PI, sin_2PI. ring. Qed.
Lemma cos_4PI_minus y : cos (4 * PI - y) = cos y.
Proof. replace (4 * PI - y)%R with (2 * PI - (y - 2 * PI))%R by ring. rewrite cos_2PI_minus, cos_minus, cos_2PI, sin_2PI. ring. Qed.

Lemma shape_mirror c x : shape c (1 - x) = shape c x.
Proof.
  destruct c; cbn [shape].
  - reflexivity.
  - replace (2 * (1 - x) - 1)%R with (- (2 * x - 1))%R by ring. now rewrite Rabs_Ropp.
  - replace (2 * PI * (1 - x))%R with (2 * PI - 2 * PI * x)%R by ring. now rewrite cos_2PI_minus.
  - replace (2 * PI * (1 - x))%R with (2 * PI - 2 * PI * x)%R by ring. now rewrite cos_2PI_minus.
  - replace (2 * PI * (1 - x))%R with (2 * PI - 2 * PI * x)%R by ring. replace (4 * PI * (1 - x))%R with (4 * PI - 4 * PI * x)%R by ring.
    now rewrite cos_2PI_minus, cos_4PI_minus.
Qed.

Lemma mirrored_ok c M : 0 <= M -> mirrored (samples c M).
Proof.
  intros HM i. rewrite sized_ok by auto. destruct (Z_lt_le_dec i 0) as [L|L]; [|destruct (Z_lt_le_dec i M) as [U|U]].
  - rewrite !zth_out by (rewrite sized_ok by auto; lia). reflexivity.
  - assert (M = 1 \/ 2 <= M) as [->|M2] by lia; [replace i with 0 by lia; reflexivity|]. rewrite !shape_at by lia. f_equal.
    rewrite <- shape_mirror. f_equal. replace (M - 1 - i) with ((M - 1) - i) by lia. rewrite (minus_IZR (M - 1)). field. apply not_0_IZR. lia.
  - rewrite !zth_out by (rewrite sized_ok by auto; lia). reflexivity.
Qed.

Lemma middle_ok c n : 0 <= n -> zth (samples c (2 * n + 1)) n = Some 1%R.
Proof.
  intros H. assert (n = 0 \/ 0 < n) as [->|P] by lia; [apply shape_1|]. rewrite shape_at by lia. f_equal.
  replace (IZR n / IZR (2 * n + 1 - 1))%R with (1/2)%R. 2: { replace (2 * n + 1 - 1) with (2 * n) by lia. rewrite mult_IZR. field. apply not_0_IZR. lia. }
  destruct c; cbn [shape]; replace (2 * PI * (1 / 2))%R with PI by field; replace (4 * PI * (1 / 2))%R with (2 * PI)%R by field; rewrite ?cos_PI, ?cos_2PI; try lra.
  replace (2 * (1 / 2) - 1)%R with 0%R by lra. rewrite Rabs_R0. lra.
Qed.

Lemma shape_range c x : (0 <= x <= 1 -> 0 <= shape c x <= 1)%R.
Proof.
  intros H. pose proof (COS_bound (2 * PI * x)) as B. destruct c; cbn [shape]; try lra.
  - unfold Rabs. destruct (Rcase_abs (2 * x - 1)); lra.
  - replace (4 * PI * x)%R with (2 * (2 * PI * x))%R by ring. rewrite cos_2a_cos. set (y := cos (2 * PI * x)) in *. nra.
Qed.

(** ** Windows without a plateau *)

Lemma range_ok (junk : Z -> R) c rate plateau length symmetric p s : 0 <= length -> index plateau length = Ok p -> 0 <= p <= length ->
  real_window power modulo junk c rate plateau length symmetric = Ok s -> forall t x, at_time s 0 t = Some x -> (0 <= x <= 1)%R.
Proof.
  intros N E P Es t x Hx.
  destruct (window_ok O (samples c) (sized_ok c) junk rate (window_label c) plateau length symmetric p N E P) as (s' & E' & Ws & Cs & Bs & En & _ & _ & _ & Q0 & Q1).
  unfold make_window in Es. rewrite E' in Es. apply ok_inv in Es. subst s'.
  assert (T : 0 <= t < length). { unfold at_time in Hx. apply el_range in Hx; [|apply Ws]. unfold begins, ends in *. unfold Signal.length in En. lia. }
  assert (S : forall M k, zth (samples c M) k = Some x -> 0 <= M -> (0 <= x <= 1)%R).
  { intros M k Hk HM. pose proof (zth_range _ _ _ Hk) as K. rewrite sized_ok in K by auto. assert (M = 1 \/ 2 <= M) as [->|M2] by lia.
    - replace k with 0 in Hk by lia. rewrite shape_1 in Hk. injection Hk as <-. lra.
    - rewrite shape_at in Hk by lia. injection Hk as <-. apply shape_range. assert (0 < IZR (M - 1))%R by (apply IZR_lt; lia).
      split; apply (Rmult_le_reg_r (IZR (M - 1))); auto; unfold Rdiv; rewrite Rmult_assoc, Rinv_l, Rmult_1_r by lra; rewrite ?Rmult_0_l, ?Rmult_1_l; apply IZR_le; lia. }
  destruct (Z.eq_dec p 0) as [Z0|Z0].
  - rewrite (Q0 Z0 t T) in Hx. apply S in Hx; auto. destruct symmetric; lia.
  - destruct (Q1 ltac:(lia)) as (f & F1 & F2 & G1 & G2 & G3). cbv zeta in *. destruct (Z_lt_le_dec t f) as [L|L]; [|destruct (Z_lt_le_dec t (length - f)) as [U|U]].
    + rewrite G1 in Hx by lia. apply S in Hx; auto. destruct symmetric; lia.
    + rewrite G2 in Hx by lia. injection Hx as <-. cbn. lra.
    + rewrite G3 in Hx by lia. apply S in Hx; auto. destruct symmetric; lia.
Qed.

Lemma periodic_window_ok (junk : Z -> R) c rate length : 0 < length ->
  exists w, real_window power modulo junk c rate (NInt 0) length false = Ok w /\ wf_signal w /\ count w = 1 /\ begins w = 0 /\ Signal.length w = length /\
    sampling_rate w = rate /\ labels w = [window_label c] /\
    forall t, 0 <= t < length -> at_time w 0 t = Some (shape c (IZR t / IZR length)).
Proof.
  intros H. destruct (window_ok O (samples c) (sized_ok c) junk rate (window_label c) (NInt 0) length false 0) as (w & Ew & Ww & Cw & Bw & En & Rw & Lw & _ & Q & _); try lia.
  { rewrite index_int by lia. reflexivity. }
  exists w. split; [exact Ew|]. do 3 (split; [auto|]). split; [unfold begins, ends in *; lia|]. do 2 (split; [auto|]).
  intros t Ht. rewrite (Q eq_refl t Ht), shape_at by lia. do 3 f_equal. f_equal. lia.
Qed.

Lemma symmetric_window_ok (junk : Z -> R) c rate length : 1 < length ->
  exists w, real_window power modulo junk c rate (NInt 0) length true = Ok w /\ wf_signal w /\ count w = 1 /\ begins w = 0 /\ Signal.length w = length /\
    sampling_rate w = rate /\ labels w = [window_label c] /\
    forall t, 0 <= t < length -> at_time w 0 t = Some (shape c (IZR t / IZR (length - 1))).
Proof.
  intros H. destruct (window_ok O (samples c) (sized_ok c) junk rate (window_label c) (NInt 0) length true 0) as (w & Ew & Ww & Cw & Bw & En & Rw & Lw & _ & Q & _); try lia.
  { rewrite index_int by lia. reflexivity. }
  exists w. split; [exact Ew|]. do 3 (split; [auto|]). split; [unfold begins, ends in *; lia|]. do 2 (split; [auto|]).
  intros t Ht. rewrite (Q eq_refl t Ht), shape_at by lia. reflexivity.
Qed.

Lemma window_at_time w n : wf_signal w -> count w = 1 -> begins w = 0 -> window_at w 0 n = match at_time w 0 n with Some x => x | None => 0%R end.
Proof. intros _ C B. unfold window_at, at_time, begins in *. rewrite C, B, Z.sub_0_r. reflexivity. Qed.

(** ** The sum of the repetitions *)

(** Exactly one time of each block of [step] times is in the residue class. *)
Lemma residue_sum (f : Z -> R) step m t : 0 < step -> 0 <= m ->
  overlapped f (m * step) step t = sumR 0 m (fun j => f (t mod step + j * step)).
Proof.
  intros Hs Hm. unfold overlapped. change (Rsum_list (zseq 0 ?l) ?g) with (sumR 0 l g). pose proof (Z.mod_pos_bound t step Hs) as B.
  apply (natlike_ind (fun m => sumR 0 (m * step) (fun n => if (n - t) mod step =? 0 then f n else 0%R) = sumR 0 m (fun j => f (t mod step + j * step)))); [reflexivity| |exact Hm].
  clear m Hm. intros m Hm IH. replace (Z.succ m * step) with (m * step + step) by lia. rewrite (sumz_app RO RO_ring) by nia. rewrite IH.
  replace (Z.succ m) with (m + 1) by lia. rewrite (sumz_app RO RO_ring 0 m 1) by lia. rewrite sumz_one by auto. f_equal.
  assert (Other : forall k, 0 + m * step <= k < 0 + m * step + step -> k <> m * step + t mod step -> (if (k - t) mod step =? 0 then f k else 0%R) = 0%R).
  { intros k Hk N. destruct ((k - t) mod step =? 0) eqn:E; [exfalso|reflexivity]. apply Z.eqb_eq in E. rewrite Zminus_mod in E.
    set (r := t mod step) in *. assert (Ek : k mod step = k - m * step) by (symmetry; apply Zmod_unique with (q := m); lia). rewrite Ek in E.
    assert (k - m * step - r < 0 \/ 0 < k - m * step - r) as [Q|Q] by lia.
    - assert ((k - m * step - r) mod step = k - m * step - r + step) by (symmetry; apply Zmod_unique with (q := -1); lia). lia.
    - rewrite Z.mod_small in E by lia. lia. }
  rewrite (sumz_single RO RO_ring (0 + m * step) step (m * step + t mod step) _ ltac:(lia) Other).
  rewrite Z.add_0_l. replace ((m * step + t mod step - t) mod step =? 0) with true.
  - f_equal. lia.
  - symmetry. apply Z.eqb_eq. rewrite (Z_div_mod_eq_full t step) at 2. replace (m * step + t mod step - (step * (t / step) + t mod step)) with ((m - t / step) * step) by lia.
    apply Z.mod_mul. lia.
Qed.

Lemma cos_sum e step m r : 0 < step -> 0 < m -> e mod m <> 0 ->
  sumR 0 m (fun j => cos (2 * PI * IZR e * (IZR (r + j * step) / IZR (m * step)))) = 0%R.
Proof.
  intros Hs Hm He. set (l := m * step). assert (Hl : 0 < l) by (unfold l; nia).
  assert (S : sumz CO 0 m (fun j => root l (e * (r + j * step))) = C_of_R 0).
  { rewrite (sumz_ext CO 0 m _ (fun j => o_mul CO (root l (e * r)) (root m (e * j)))).
    - rewrite (sumz_mul_l CO CO_ring). rewrite (root_sum m Hm). replace (e mod m =? 0) with false by lia. apply C_ext; cbn; ring.
    - intros j _. replace (e * (r + j * step)) with (e * r + e * j * step) by ring. rewrite (root_add l Hl). change (o_mul CO) with Cmul. f_equal. unfold root. f_equal. unfold l.
      rewrite !mult_IZR. field. split; apply not_0_IZR; lia. }
  apply (f_equal re) in S. change (re (C_of_R 0)) with 0%R in S. rewrite <- S. clear S.
  unfold sumz. generalize (zseq 0 m). intros k. induction k as [|j k IH]; [reflexivity|]. cbn [map fold_right sum_over] in *.
  unfold sum_over in *. cbn [fold_right map] in *. rewrite IH. cbn. f_equal. unfold root, cis. cbn. f_equal. rewrite mult_IZR. unfold Rdiv. ring.
Qed.

Lemma mean_sum c step m t : 0 < step -> enough c m -> overlapped (fun n => shape c (IZR n / IZR (m * step))) (m * step) step t = (IZR m * mean_value c)%R.
Proof.
  intros Hs En. assert (Hm : 0 < m) by (destruct c; cbn in En; lia). rewrite residue_sum by lia. set (r := t mod step).
  assert (Const : forall d, sumR 0 m (fun _ => d) = (IZR m * d)%R).
  { intros d. apply (natlike_ind (fun m => sumR 0 m (fun _ => d) = (IZR m * d)%R)); [change (0 = 0 * d)%R; ring| |lia]. intros k Hk IH. replace (Z.succ k) with (k + 1) by lia.
    rewrite (sumz_app RO RO_ring) by lia. rewrite IH, sumz_one, plus_IZR by auto. cbn [o_add RO real_ops]. ring. }
  assert (Lin : forall (f : Z -> R) a b, sumR 0 m (fun j => a + b * f j)%R = (IZR m * a + b * sumR 0 m f)%R).
  { intros f a b. change Rplus with (o_add RO) at 1. rewrite (sumz_add RO RO_ring), Const. change Rmult with (o_mul RO) at 2. rewrite (sumz_mul_l RO RO_ring). reflexivity. }
  assert (C1 : 2 <= m -> sumR 0 m (fun j => cos (2 * PI * (IZR (r + j * step) / IZR (m * step)))) = 0%R).
  { intros H2. rewrite <- (cos_sum 1 step m r) by (auto; rewrite Z.mod_small; lia). apply sumz_ext. intros j _. f_equal. ring. }
  assert (C2 : 3 <= m -> sumR 0 m (fun j => cos (4 * PI * (IZR (r + j * step) / IZR (m * step)))) = 0%R).
  { intros H3. rewrite <- (cos_sum 2 step m r) by (auto; rewrite Z.mod_small; lia). apply sumz_ext. intros j _. f_equal. ring. }
  destruct c; cbn [enough] in En; cbn [shape mean_value].
  - apply Const.
  - (* pairs of values at the distance of half a window *)
    destruct En as [M2 Ev]. set (h := m / 2). assert (Hh : m = h + h) by (unfold h; pose proof (Z.div_mod m 2 ltac:(lia)); lia). assert (0 < h) by lia.
    pose proof (Z.mod_pos_bound t step Hs) as Br. fold r in Br.
    assert (L0 : (0 < IZR (m * step))%R) by (apply IZR_lt; nia).
    set (f := fun j => (1 - Rabs (2 * (IZR (r + j * step) / IZR (m * step)) - 1))%R). change (sumR 0 m f = (IZR m * (1/2))%R).
    rewrite Hh at 1. rewrite (sumz_app RO RO_ring) by lia. rewrite Z.add_0_l. replace h with (0 + h) at 2 by lia. rewrite <- (sumz_shift RO 0 h h f). rewrite <- (sumz_add RO RO_ring).
    rewrite (sumz_ext RO 0 h _ (fun _ => 1%R)).
    + assert (Ch : sumR 0 h (fun _ => 1%R) = IZR h).
      { apply (natlike_ind (fun h => sumR 0 h (fun _ => 1%R) = IZR h)); [reflexivity| |lia]. intros k Hk IH. replace (Z.succ k) with (k + 1) by lia.
        rewrite (sumz_app RO RO_ring) by lia. rewrite IH, sumz_one, plus_IZR by auto. cbn [o_add RO real_ops]. ring. }
      rewrite Ch. rewrite Hh, plus_IZR. field.
    + intros j Hj. cbn [o_add RO real_ops]. unfold f.
      assert (E : (2 * (IZR (r + (j + h) * step) / IZR (m * step)) = 2 * (IZR (r + j * step) / IZR (m * step)) + 1)%R).
      { replace (r + (j + h) * step) with ((r + j * step) + h * step) by ring. rewrite (plus_IZR (r + j * step)). rewrite Hh, !mult_IZR, !plus_IZR. field. split; [apply not_0_IZR; lia|]. rewrite <- plus_IZR. apply not_0_IZR. lia. }
      rewrite E. assert (B : (0 <= 2 * (IZR (r + j * step) / IZR (m * step)) <= 1)%R).
      { split; apply (Rmult_le_reg_r (IZR (m * step))); auto; unfold Rdiv; rewrite !Rmult_assoc, Rinv_l, Rmult_1_r by lra;
        rewrite ?Rmult_0_l, ?Rmult_1_l, <- ?mult_IZR; apply IZR_le; nia. }
      set (u := (2 * (IZR (r + j * step) / IZR (m * step)))%R) in *. rewrite Rabs_left1 by lra. rewrite Rabs_pos_eq by lra. ring.
  - rewrite (sumz_ext RO 0 m _ (fun j => 1/2 + (- (1/2)) * cos (2 * PI * (IZR (r + j * step) / IZR (m * step))))%R) by (intros; field). rewrite Lin, C1 by lia. ring.
  - rewrite (sumz_ext RO 0 m _ (fun j => 54/100 + (- (46/100)) * cos (2 * PI * (IZR (r + j * step) / IZR (m * step))))%R) by (intros; field). rewrite Lin, C1 by lia. ring.
  - change Rplus with (o_add RO) at 1. rewrite (sumz_add RO RO_ring).
    rewrite (sumz_ext RO 0 m (fun j => 42/100 - 50/100 * _)%R (fun j => 42/100 + (- (50/100)) * cos (2 * PI * (IZR (r + j * step) / IZR (m * step))))%R) by (intros; field).
    rewrite Lin, C1 by lia. change Rmult with (o_mul RO) at 3. rewrite (sumz_mul_l RO RO_ring). rewrite C2 by lia. cbn. field.
Qed.

Lemma constant_overlap_ok (junk : Z -> R) c rate step m w : 0 < step -> enough c m ->
  real_window power modulo junk c rate (NInt 0) (m * step) false = Ok w -> constant_overlap_add w step (IZR m * mean_value c)%R.
Proof.
  intros Hs En E. assert (Hm : 0 < m) by (destruct c; cbn in En; lia).
  destruct (periodic_window_ok junk c rate (m * step)) as (w' & E' & Ww & Cw & Bw & Lw & _ & _ & V); [nia|]. rewrite E in E'. apply ok_inv in E'. subst w'.
  intros c' t Hc. replace c' with 0 by lia. rewrite <- (mean_sum c step m t Hs En). unfold overlapped. rewrite Lw. apply Rsum_list_ext. intros n Hn. apply in_zseq in Hn.
  destruct (_ =? 0); [|reflexivity]. rewrite window_at_time by auto. rewrite V by lia. reflexivity.
Qed.

(** ** get_window and the default transformation *)

Lemma default_window_ok (junk : Z -> R) overlap rate length : 0 < length ->
  real_get_window power modulo junk (WLength length) overlap false rate = real_window power modulo junk (if is_zero overlap then RectangularWindow else HannWindow) rate (NInt 0) length false.
Proof. intros _. cbn [get_window]. destruct (is_zero overlap); reflexivity. Qed.

Lemma half_index length : 0 < length -> length mod 2 = 0 -> index (NFloat (1 # 2)) length = Ok (length / 2).
Proof.
  intros H M. rewrite index_float by auto. cbv zeta. assert (E : py_round ((1 # 2) * inject_Z length) = length / 2).
  { pose proof (py_round_near ((1 # 2) * inject_Z length)) as [A B]. set (z := py_round _) in *. pose proof (Z.div_mod length 2 ltac:(lia)).
    assert (D : (2 * ((1 # 2) * inject_Z length) == inject_Z length)%Q) by (rewrite Qmult_assoc; change (2 * (1 # 2))%Q with (2 # 2)%Q; unfold Qeq; cbn [Qnum Qden Qmult inject_Z]; lia).
    rewrite D in A, B. rewrite <- Zle_Qle in A, B. lia. }
  rewrite E. pose proof (Z.div_pos length 2). replace (length / 2 <? 0) with false by lia. reflexivity.
Qed.

End Shapes.
