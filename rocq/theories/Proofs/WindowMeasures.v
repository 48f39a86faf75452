(** The measures of windows: the scaling factor, the flatness and the correlation of overlapping repetitions. *)

From Coq Require Import String ZArith List Bool Lia ZifyBool Reals Lra Ring_theory Field_theory Ring Field Permutation.
From Verif.Model Require Import Py Numpy Vector Functions Signal Fft Fourier Generators Windows.
From Verif.Spec Require Import TimeSpec RealSpec ConvolutionSpec ComplexSpec DftSpec FourierSpec BlockSpec WindowSpec.
From Verif.Proofs Require Import PyFacts NumpyFacts VectorFacts FadeFacts SumFacts ComplexFacts ConvolveFacts PlacedFacts DftFacts SliceFacts FourierFacts LevelFacts BlockRanges BlockFacts BlockScaling.
Import ListNotations.
Open Scope Z_scope.
Ltac Zify.zify_post_hook ::= idtac.

Section Measures.
Variables power modulo : R -> R -> R.
Variable junk : Z -> R.
Notation O := (real_ops power modulo).
Let RO_ring : commutative_ring RO := real_ring _ _.
Notation sumR := (sumz RO).

(** ** The sum of the repetitions *)

Section Overlapping.
Variable x : list R.
Notation l := (zlen x).

(** A signal with this channel *)
Definition as_signal : signal R := Signal (Arr [x] l) 0%R 0 [EmptyString].
Lemma as_signal_wf : wf_signal as_signal.
Proof. split; [split; [cbn; apply zlen_nonneg|repeat constructor]|reflexivity]. Qed.
Lemma as_signal_at n : window_at as_signal 0 n = at_R x n.
Proof. unfold window_at, at_R, el. cbn. unfold row. cbn. reflexivity. Qed.

Lemma at_out n : ~ (0 <= n < l) -> at_R x n = 0%R.
Proof. intros H. unfold at_R. rewrite zth_out; auto. Qed.
Lemma at_in n : 0 <= n < l -> zth x n = Some (at_R x n).
Proof. intros H. unfold at_R. destruct (zth_in x n H) as [y ->]. reflexivity. Qed.

Lemma upper_negative i n : 0 < i <= n -> upper (between 0 (- i)) n = n - i.
Proof. intros H. unfold_bounds. zcases. Qed.

Lemma add_shift o F i : 0 < i < l -> zlen o = l -> (forall t, 0 <= t < l -> zth o t = Some (F t)) ->
  exists o', (o <- vadd O o (between 0 (- i)) (subseq (from i) x) ;; vadd O o (from i) (subseq (between 0 (- i)) x)) = Ok o' /\ zlen o' = l /\
    forall t, 0 <= t < l -> zth o' t = Some (F t + at_R x (t + i) + at_R x (t - i))%R.
Proof.
  intros Hi L V. unfold vadd.
  assert (L0 : lower (between 0 (- i)) l = 0) by (apply lower_between; lia).
  assert (U0 : upper (between 0 (- i)) l = l - i) by (apply upper_negative; lia).
  assert (Sf : zlen (subseq (from i) x) = l - i) by (rewrite zlen_from; lia).
  assert (Sb : zlen (subseq (between 0 (- i)) x) = l - i) by (rewrite zlen_subseq, L0, U0; lia).
  assert (So : zlen (subseq (between 0 (- i)) o) = l - i) by (rewrite zlen_subseq, L, L0, U0; lia).
  destruct (vmap2_ok (o_add O) (subseq (between 0 (- i)) o) (subseq (from i) x)) as (s1 & -> & L1 & V1); [lia|]. cbn [bind].
  destruct (vset_ok o (between 0 (- i)) s1 0 (l - i)) as (o1 & -> & Lo1 & Vo1); [now rewrite L|now rewrite L|lia|]. cbn [bind].
  destruct (vmap2_ok (o_add O) (subseq (from i) o1) (subseq (between 0 (- i)) x)) as (s2 & -> & L2 & V2); [rewrite zlen_from; lia|]. cbn [bind].
  destruct (vset_from o1 i s2) as (o2 & -> & Lo2 & Vo2); [lia|rewrite L2, zlen_from; lia|].
  exists o2. split; [reflexivity|]. split; [lia|].
  assert (W1 : forall t, 0 <= t < l -> zth o1 t = Some (F t + at_R x (t + i))%R).
  { intros t Ht. rewrite Vo1. destruct ((0 <=? t) && (t <? l - i)) eqn:E.
    - rewrite Z.sub_0_r, V1, zth_subseq, zth_from, L, L0, U0 by lia. replace ((0 <=? t) && (t <? l - i - 0)) with true by lia. replace (_ && _) with true by lia.
      rewrite Z.add_0_r, V, at_in by lia. reflexivity.
    - rewrite V, (at_out (t + i)) by lia. f_equal. ring. }
  intros t Ht. rewrite Vo2. destruct ((i <=? t) && (t <? zlen o1)) eqn:E.
  - rewrite V2, zth_from, zth_subseq, L0, U0 by lia. replace ((0 <=? t - i) && (t - i <? zlen o1 - i)) with true by lia. replace (_ && _) with true by lia.
    rewrite W1 by lia. rewrite Z.add_0_r, (at_in (t - i)) by lia. cbn [o_add real_ops]. do 3 f_equal; try f_equal; try lia.
  - rewrite W1, (at_out (t - i)) by lia. f_equal. ring.
Qed.

Lemma add_shifts shifts : (forall b, In b shifts -> 0 < b < l) -> forall o F, zlen o = l -> (forall t, 0 <= t < l -> zth o t = Some (F t)) ->
  exists o', for_each shifts (fun o i => o <- vadd O o (between 0 (- i)) (subseq (from i) x) ;; vadd O o (from i) (subseq (between 0 (- i)) x)) o = Ok o' /\ zlen o' = l /\
    forall t, 0 <= t < l -> zth o' t = Some (F t + Rsum_list shifts (fun b => at_R x (t - b) + at_R x (t - - b)))%R.
Proof.
  induction shifts as [|i shifts IH]; intros H o F L V.
  - exists o. split; [reflexivity|]. split; [exact L|]. intros t Ht. rewrite V by auto. f_equal. cbn. ring.
  - destruct (add_shift o F i (H i (or_introl eq_refl)) L V) as (o1 & E1 & L1 & V1).
    destruct (IH (fun b Hb => H b (or_intror Hb)) o1 _ L1 V1) as (o2 & E2 & L2 & V2). exists o2. cbn [for_each]. rewrite E1. cbn [bind].
    split; [exact E2|]. split; [exact L2|]. intros t Ht. rewrite V2 by auto. f_equal. cbn [Rsum_list fold_right].
    fold (Rsum_list shifts (fun b => at_R x (t - b) + at_R x (t - - b))%R). replace (t - - i) with (t + i) by lia. ring.
Qed.

(** All shifts, also in [all_shifts] *)
Lemma shifts_permutation step : 0 < step <= l ->
  Permutation (0 :: multiples step 1 l ++ map Z.opp (multiples step 1 l)) (overlapping_blocks l l step).
Proof.
  intros Hs. apply NoDup_Permutation.
  - constructor.
    + rewrite in_app_iff, in_map_iff. intros [H|(y & E & H)]; apply in_multiples in H; lia.
    + apply NoDup_app_intro; [apply NoDup_multiples; lia| |].
      * apply FinFun.Injective_map_NoDup; [|apply NoDup_multiples; lia]. intros a b H. lia.
      * intros y H1 H2. apply in_map_iff in H2. destruct H2 as (z & <- & H2). apply in_multiples in H1; [|lia]. apply in_multiples in H2; lia.
  - apply NoDup_overlapping.
  - intros y. rewrite in_overlapping. cbn [In]. rewrite in_app_iff, in_map_iff. split.
    + intros [<-|[H|(z & <- & H)]].
      * split; [apply Z.mod_0_l; lia|lia].
      * apply in_multiples in H; lia.
      * apply in_multiples in H; [|lia]. split; [|lia]. apply Z.mod_opp_l_z; lia.
    + intros [M H]. destruct (Z.lt_trichotomy y 0) as [L|[->|G]].
      * right. right. exists (- y). split; [lia|]. apply in_multiples; [lia|]. split; [apply Z.mod_opp_l_z; lia|].
        pose proof M as M'. apply Z.div_exact in M'; [|lia]. assert (y / step < 0) by nia. nia.
      * now left.
      * right. left. apply in_multiples; [lia|]. split; [exact M|]. apply Z.div_exact in M; [|lia]. assert (0 < y / step) by nia. nia.
Qed.

Lemma overlapping_ok step : 0 < step <= l ->
  exists o, overlapping O junk x l step = Ok o /\ zlen o = l /\ forall t, 0 <= t < l -> zth o t = Some (overlapped (at_R x) l step t).
Proof.
  intros Hs. unfold overlapping. destruct (vector_ok junk l) as (v & -> & Lv); [lia|]. cbn [bind]. rewrite vset_everything by lia. cbn [bind].
  replace (range step l step) with (range (1 * step) l step) by (f_equal; lia). rewrite range_multiples by lia. cbn [bind].
  destruct (add_shifts (multiples step 1 l)) with (o := x) (F := at_R x) as (o & E & Lo & Vo); auto.
  - intros b H. apply in_multiples in H; lia.
  - intros t Ht. apply at_in. exact Ht.
  - exists o. split; [exact E|]. split; [exact Lo|]. intros t Ht. rewrite Vo by auto. f_equal. unfold overlapped.
    transitivity (overlap_sum as_signal 0 (overlapping_blocks l l step) t).
    + unfold overlap_sum. rewrite <- (Rsum_permutation _ _ _ (shifts_permutation step Hs)).
      change (Rsum_list (0 :: ?m) ?f) with (f 0%Z + Rsum_list m f)%R. cbv beta. rewrite as_signal_at, Z.sub_0_r. f_equal.
      rewrite Rsum_list_app, Rsum_list_add. f_equal.
      generalize (multiples step 1 l). intros m. unfold Rsum_list. induction m as [|b m IH]; cbn [map fold_right]; [reflexivity|]. now rewrite IH, as_signal_at.
    + rewrite (overlap_all as_signal 0 l l step t) by (auto using as_signal_wf; lia). apply Rsum_list_ext. intros n _. now rewrite as_signal_at.
Qed.

Lemma overlapped_mod step t : 0 < step -> overlapped (at_R x) l step t = overlapped (at_R x) l step (t mod step).
Proof.
  intros Hs. unfold overlapped. apply Rsum_list_ext. intros n _. replace ((n - t mod step) mod step) with ((n - t) mod step); [reflexivity|].
  rewrite (Zminus_mod n (t mod step)), Zmod_mod, <- Zminus_mod. reflexivity.
Qed.

(** ** Minimum and maximum *)

Lemma extreme_ok (better : R -> R -> bool) (le : R -> R -> Prop) : (forall a, le a a) -> (forall a b c, le a b -> le b c -> le a c) ->
  (forall y m, if better y m then le y m else le m y) -> forall x0 v,
  exists a, 0 <= a < zlen (x0 :: v) /\ zth (x0 :: v) a = Some (fold_left (fun m y => if better y m then y else m) v x0) /\
    forall t y, zth (x0 :: v) t = Some y -> le (fold_left (fun m y => if better y m then y else m) v x0) y.
Proof.
  intros Refl Trans B x0 v.
  assert (G : forall v m0, let m := fold_left (fun m y => if better y m then y else m) v m0 in (m = m0 \/ In m v) /\ le m m0 /\ forall y, In y v -> le m y).
  { clear v x0. induction v as [|y v IH]; intros m0; cbn [fold_left]; [split; [auto|]; split; [auto|intros y []]|].
    pose proof (B y m0) as By. destruct (better y m0); cbv zeta in *.
    - destruct (IH y) as (J1 & J2 & J3). split; [cbn; intuition auto|]. split; [eauto|]. intros z [<-|Hz]; auto.
    - destruct (IH m0) as (J1 & J2 & J3). split; [cbn; intuition auto|]. split; [auto|]. intros z [<-|Hz]; [eauto|auto]. }
  destruct (G v x0) as (G1 & G2 & G3). cbv zeta in *. set (m := fold_left _ _ _) in *.
  assert (I : In m (x0 :: v)) by (destruct G1 as [->|H]; [left; auto|right; auto]). apply In_zth in I. destruct I as (a & I). exists a.
  split; [eapply zth_range; exact I|]. split; [exact I|]. intros t y H. apply zth_In in H. destruct H as [<-|H]; auto.
Qed.

Lemma min_ok v : 0 < zlen v -> exists m a, py_min less v = Ok m /\ 0 <= a < zlen v /\ zth v a = Some m /\ forall t y, zth v t = Some y -> (m <= y)%R.
Proof.
  destruct v as [|x0 v]; [intros Hv; discriminate Hv|]. intros _.
  destruct (extreme_ok less Rle) with (x0 := x0) (v := v) as (a & H1 & H2 & H3); [intros; lra|intros; lra| |].
  - intros y m. unfold less. destruct (Rlt_dec y m); lra.
  - do 2 eexists. split; [reflexivity|]. split; [exact H1|]. split; [exact H2|]. exact H3.
Qed.

Lemma max_ok v : 0 < zlen v -> exists m a, py_max less v = Ok m /\ 0 <= a < zlen v /\ zth v a = Some m /\ forall t y, zth v t = Some y -> (y <= m)%R.
Proof.
  destruct v as [|x0 v]; [intros Hv; discriminate Hv|]. intros _.
  destruct (extreme_ok (fun y m => less m y) (fun a b => b <= a)%R) with (x0 := x0) (v := v) as (a & H1 & H2 & H3); [intros; lra|intros; lra| |].
  - intros y m. unfold less. destruct (Rlt_dec m y); lra.
  - do 2 eexists. split; [reflexivity|]. split; [exact H1|]. split; [exact H2|]. exact H3.
Qed.

Lemma flatness_ok overlap step : index overlap l = Ok (l - step) -> 0 < step <= l ->
  exists f, flatness O less junk x l overlap = Ok f /\ is_flatness (overlapped (at_R x) l step) f.
Proof.
  intros E Hs. unfold flatness. rewrite E. cbn [bind]. replace (l - step =? l) with false by lia.
  destruct (overlapping_ok step Hs) as (o & Eo & Lo & Vo).
  assert (V : (if l - step =? 0 then Ok x else overlapping O junk x l (l - (l - step))) = Ok o).
  { replace (l - (l - step)) with step by lia. destruct (l - step =? 0) eqn:Z0; [|exact Eo]. replace step with l in Eo by lia. rewrite <- Eo.
    unfold overlapping. destruct (vector_ok junk l) as (v & -> & Lv); [lia|]. cbn [bind]. rewrite vset_everything by lia. cbn [bind].
    replace (range l l l) with (range (1 * l) l l) by (f_equal; lia). rewrite range_multiples by lia. cbn [bind].
    replace (multiples l 1 l) with (@nil Z); [reflexivity|]. destruct (multiples l 1 l) as [|b m] eqn:Q; [reflexivity|].
    assert (I : In b (multiples l 1 l)) by (rewrite Q; left; auto). apply in_multiples in I; lia. }
  rewrite V. cbn [bind]. destruct (min_ok o) as (mi & a & -> & Ha & Za & Mi); [lia|]. destruct (max_ok o) as (ma & b & -> & Hb & Zb & Ma); [lia|]. cbn [bind].
  eexists. split; [reflexivity|]. rewrite Vo in Za, Zb by lia. injection Za as <-. injection Zb as <-.
  exists a, b. split; [reflexivity|]. intros t. pose proof (Z.mod_pos_bound t step ltac:(lia)).
  rewrite (overlapped_mod step t) by lia. split; [eapply Mi|eapply Ma]; apply Vo; lia.
Qed.

(** ** Correlation *)

Lemma sum_squares_nonneg (f : Z -> R) lo n : (0 <= sumR lo n (fun k => f k * f k))%R.
Proof.
  unfold sumz. generalize (zseq lo n). intros k. induction k as [|a k IH]; cbn; [lra|]. pose proof (Rle_0_sqr (f a)) as Q. unfold Rsqr in Q. cbn in IH. lra.
Qed.

Lemma correlation_bound step : 0 <= step -> (- correlation (at_R x) l 0 <= correlation (at_R x) l step <= correlation (at_R x) l 0)%R.
Proof.
  intros Hs. unfold correlation. change (Rsum_list (zseq 0 l) ?f) with (sumR 0 l f). pose proof (zlen_nonneg x).
  set (e := sumR 0 l (fun n => at_R x n * at_R x (n + 0))%R). set (c := sumR 0 l (fun n => at_R x n * at_R x (n + step))%R).
  assert (Ee : e = sumR 0 l (fun n => at_R x n * at_R x n)%R) by (apply sumz_ext; intros n _; now rewrite Z.add_0_r).
  set (s := sumR 0 l (fun n => at_R x (n + step) * at_R x (n + step))%R).
  assert (Le : (s <= e)%R).
  { set (g := fun n => (at_R x n * at_R x n)%R). assert (Es : s = sumR step l g). { unfold s. exact (sumz_shift RO 0 l step g). }
    assert (G : forall n, ~ (0 <= n < l) -> g n = 0%R) by (intros n Hn; unfold g; rewrite at_out by auto; ring).
    assert (P : (0 <= sumR 0 (Z.min step l) g)%R) by apply sum_squares_nonneg.
    assert (D : e = (sumR 0 (Z.min step l) g + s)%R); [|lra]. rewrite Ee, Es. change (sumR 0 l (fun n => at_R x n * at_R x n)%R) with (sumR 0 l g).
    replace l with (Z.min step l + (l - Z.min step l)) at 1 by lia. rewrite (sumz_app RO RO_ring) by lia. cbn [o_add RO real_ops]. f_equal.
    rewrite Z.add_0_l. set (q := Z.min step l). replace l with ((l - q) + q) at 2 by lia. rewrite (sumz_app RO RO_ring step) by lia.
    rewrite (sumz_zero RO RO_ring (step + (l - q))) by (intros k Hk; apply G; lia). destruct (Z_le_gt_dec step l).
    - replace q with step by lia. cbn [o_add o_zero RO real_ops]. symmetry. apply Rplus_0_r.
    - replace (l - q) with 0 by lia. rewrite !sumz_nil by lia. cbn [o_add o_zero RO real_ops]. symmetry. apply Rplus_0_r. }
  assert (Pos : (0 <= e + s - 2 * c)%R /\ (0 <= e + s + 2 * c)%R).
  { pose proof (sum_squares_nonneg (fun n => at_R x n - at_R x (n + step))%R 0 l) as P1. pose proof (sum_squares_nonneg (fun n => at_R x n + at_R x (n + step))%R 0 l) as P2.
    assert (E1 : sumR 0 l (fun n => (at_R x n - at_R x (n + step)) * (at_R x n - at_R x (n + step)))%R = (e + s - 2 * c)%R).
    { rewrite Ee. unfold s, c. rewrite (sumz_ext RO 0 l _ (fun n => at_R x n * at_R x n + at_R x (n + step) * at_R x (n + step) + (-2) * (at_R x n * at_R x (n + step)))%R) by (intros; ring).
      change Rplus with (o_add RO) at 1. rewrite (sumz_add RO RO_ring). change Rplus with (o_add RO) at 2. rewrite (sumz_add RO RO_ring).
      change Rmult with (o_mul RO) at 3. rewrite (sumz_mul_l RO RO_ring). cbn [o_add o_mul RO real_ops]. ring. }
    assert (E2 : sumR 0 l (fun n => (at_R x n + at_R x (n + step)) * (at_R x n + at_R x (n + step)))%R = (e + s + 2 * c)%R).
    { rewrite Ee. unfold s, c. rewrite (sumz_ext RO 0 l _ (fun n => at_R x n * at_R x n + at_R x (n + step) * at_R x (n + step) + 2 * (at_R x n * at_R x (n + step)))%R) by (intros; ring).
      change Rplus with (o_add RO) at 1. rewrite (sumz_add RO RO_ring). change Rplus with (o_add RO) at 2. rewrite (sumz_add RO RO_ring).
      change Rmult with (o_mul RO) at 3. rewrite (sumz_mul_l RO RO_ring). cbn [o_add o_mul RO real_ops]. ring. }
    cbv beta in P1, P2. rewrite E1 in P1. rewrite E2 in P2. auto. }
  lra.
Qed.

Lemma products_ok step : 0 <= step <= l ->
  exists p, vmap2 (o_mul O) (subseq (between 0 (l - step)) x) (subseq (from (l - (l - step))) x) = Ok p /\ channel_sum O p = correlation (at_R x) l step.
Proof.
  intros Hs. replace (l - (l - step)) with step by lia.
  destruct (vmap2_ok (o_mul O) (subseq (between 0 (l - step)) x) (subseq (from step) x)) as (p & -> & L & V); [rewrite zlen_between, zlen_from; lia|].
  exists p. split; [reflexivity|]. rewrite channel_sum_ok. rewrite zlen_between in L by lia. unfold correlation. change (Rsum_list (zseq 0 l) ?f) with (sumR 0 l f).
  rewrite (sumz_ext RO 0 (zlen p) _ (fun n => at_R x n * at_R x (n + step))%R).
  - apply (sumz_extend RO RO_ring); try lia. intros k Hk. destruct (Z_lt_le_dec k 0); [rewrite (at_out k) by lia|rewrite (at_out (k + step)) by lia]; cbn; ring.
  - intros n Hn. unfold at_R at 1. rewrite V, zth_between, zth_from by lia. replace ((0 <=? n) && (n <? l - step - 0)) with true by lia. replace (_ && _) with true by lia.
    rewrite Z.add_0_r, !at_in by lia. reflexivity.
Qed.

Lemma squares_ok : channel_sum O (map (fun y => o_mul O y y) x) = correlation (at_R x) l 0.
Proof.
  rewrite channel_sum_ok, zlen_map. unfold correlation. change (Rsum_list (zseq 0 l) ?f) with (sumR 0 l f). apply sumz_ext. intros n Hn. rewrite Z.add_0_r.
  unfold at_R at 1. rewrite zth_map, at_in by lia. reflexivity.
Qed.

End Overlapping.

Lemma at_squares (x : list R) n : at_R (map (fun y => o_mul O y y) x) n = (at_R x n * at_R x n)%R.
Proof. unfold at_R. rewrite zth_map. destruct (zth x n); cbn; [reflexivity|ring]. Qed.

(** ** The methods of the class *)

Section Window.
Variable w : signal R.
Hypothesis Ww : wf_signal w.
Hypothesis One : count w = 1.
Notation l := (length w).

Lemma first_channel_ok : rows (channels w) = [first_channel w] /\ zlen (first_channel w) = l /\ forall n, at_R (first_channel w) n = window_at w 0 n.
Proof.
  unfold first_channel, window_at, count, length, nrows, el in *. destruct Ww as [[_ Wr] _]. destruct (channels w) as [rs n]. cbn [rows cols] in *.
  destruct rs as [|r [|r' rs]]; [discriminate| |rewrite !zlen_cons in One; pose proof (zlen_nonneg rs); lia].
  split; [reflexivity|]. split; [now apply Forall_inv in Wr|]. intros m. rewrite One. reflexivity.
Qed.

Lemma amplitude_flatness_ok overlap step : index overlap l = Ok (l - step) -> 0 < step <= l ->
  exists f, amplitude_flatness O less junk w overlap = Ok f /\ is_flatness (overlapped (window_at w 0) l step) f.
Proof.
  intros E Hs. destruct first_channel_ok as (_ & L & V). unfold amplitude_flatness. rewrite <- L in *.
  destruct (flatness_ok (first_channel w) overlap step E Hs) as (f & Ef & a & b & Q & B). exists f. split; [exact Ef|].
  assert (Ov : forall t, overlapped (window_at w 0) (zlen (first_channel w)) step t = overlapped (at_R (first_channel w)) (zlen (first_channel w)) step t).
  { intros t. apply Rsum_list_ext. intros n _. now rewrite V. }
  exists a, b. rewrite !Ov. split; [exact Q|]. intros t. rewrite Ov. apply B.
Qed.

Lemma power_flatness_ok overlap step : index overlap l = Ok (l - step) -> 0 < step <= l ->
  exists f, power_flatness O less junk w overlap = Ok f /\ is_flatness (overlapped (fun n => window_at w 0 n * window_at w 0 n)%R l step) f.
Proof.
  intros E Hs. destruct first_channel_ok as (_ & L & V). unfold power_flatness. set (x := map _ _). assert (Lx : zlen x = l) by (unfold x; now rewrite zlen_map).
  rewrite <- Lx in *. destruct (flatness_ok x overlap step E Hs) as (f & Ef & a & b & Q & B). exists f. split; [exact Ef|].
  assert (Ov : forall t, overlapped (fun n => window_at w 0 n * window_at w 0 n)%R (zlen x) step t = overlapped (at_R x) (zlen x) step t).
  { intros t. apply Rsum_list_ext. intros n _. unfold x. rewrite at_squares, V. reflexivity. }
  exists a, b. rewrite !Ov. split; [exact Q|]. intros t. rewrite Ov. apply B.
Qed.

Lemma full_flatness overlap : index overlap l = Ok l -> amplitude_flatness O less junk w overlap = Ok 1%R /\ power_flatness O less junk w overlap = Ok 1%R.
Proof. intros E. unfold amplitude_flatness, power_flatness, flatness. rewrite E. cbn [bind]. rewrite Z.eqb_refl. auto. Qed.

(** The flatness is 1 for a constant sum, and only for a constant sum *)
Lemma flat_constant S f : is_flatness S f -> (forall t, 0 <= S t)%R -> (exists t, 0 < S t)%R -> f = 1%R <-> exists d, forall t, S t = d.
Proof.
  intros (a & b & -> & B) P (t0 & T). assert (Pb : (0 < S b)%R) by (pose proof (B t0); lra). split.
  - intros E. exists (S b). intros t. assert (S a = S b). { apply (Rmult_eq_reg_r (/ S b)); [|apply Rinv_neq_0_compat; lra]. fold (S a / S b)%R. rewrite E. field. lra. }
    pose proof (B t). lra.
  - intros (d & D). rewrite (D a), <- (D b). field. lra.
Qed.

Lemma overlap_correlation_ok overlap step : index overlap l = Ok (l - step) -> 0 <= step <= l -> correlation (window_at w 0) l 0 <> 0%R ->
  exists f, overlap_correlation O w overlap = Ok f /\ f = (correlation (window_at w 0) l step / correlation (window_at w 0) l 0)%R /\ (-1 <= f <= 1)%R.
Proof.
  intros E Hs NZ. destruct first_channel_ok as (_ & L & V). unfold overlap_correlation. rewrite E. cbn [bind]. rewrite <- L in *.
  assert (Co : forall s, correlation (window_at w 0) (zlen (first_channel w)) s = correlation (at_R (first_channel w)) (zlen (first_channel w)) s).
  { intros s. apply Rsum_list_ext. intros n _. now rewrite !V. }
  rewrite !Co in *. destruct (products_ok (first_channel w) step Hs) as (p & -> & Ep). cbn [bind]. rewrite Ep, squares_ok.
  set (e := correlation _ _ 0) in *. cbn [o_eqb o_zero o_div real_ops]. destruct (Req_EM_T e 0) as [Z0|_]; [contradiction|].
  eexists. split; [reflexivity|]. split; [reflexivity|]. pose proof (correlation_bound (first_channel w) step (proj1 Hs)) as B. fold e in B.
  assert (P : (0 < e)%R). { assert (0 <= e)%R; [|lra]. unfold e, correlation. change (Rsum_list (zseq 0 ?l) ?f) with (sumR 0 l f).
    rewrite (sumz_ext RO 0 _ _ (fun n => at_R (first_channel w) n * at_R (first_channel w) n)%R) by (intros; now rewrite Z.add_0_r). apply sum_squares_nonneg. }
  split; apply (Rmult_le_reg_r e); auto; unfold Rdiv; rewrite Rmult_assoc, Rinv_l by lra; lra.
Qed.

Lemma zero_correlation overlap step : index overlap l = Ok (l - step) -> 0 <= step <= l -> correlation (window_at w 0) l 0 = 0%R ->
  overlap_correlation O w overlap = Ok 1%R.
Proof.
  intros E Hs Z0. destruct first_channel_ok as (_ & L & V). unfold overlap_correlation. rewrite E. cbn [bind]. rewrite <- L in *.
  destruct (products_ok (first_channel w) step Hs) as (p & -> & Ep). cbn [bind]. rewrite squares_ok.
  replace (correlation (at_R (first_channel w)) (zlen (first_channel w)) 0) with 0%R.
  - cbn [o_eqb o_zero real_ops]. destruct (Req_EM_T 0 0) as [_|N]; [reflexivity|now elim N].
  - rewrite <- Z0. apply Rsum_list_ext. intros n _. now rewrite !V.
Qed.

(** The scaling factor is that of [sumpf_internal.scaling_factor] *)
Lemma block_one (r : list R) n b : rows (block (Arr [r] n) everything b) = [subseq b r].
Proof. unfold block. cbn. reflexivity. Qed.

Lemma ok_inv {A} (a b : A) : Ok a = Ok b -> a = b. Proof. now intros [= ->]. Qed.
Lemma some_inv {A} (a b : A) : Some a = Some b -> a = b. Proof. now intros [= ->]. Qed.

Lemma window_scaling_factor_ok overlap step : index overlap l = Ok (l - step) -> 0 < step <= l ->
  window_scaling_factor O IZR w overlap = Ok (/ mean_overlap w 0 step)%R.
Proof.
  intros E Hs. destruct first_channel_ok as (Rw & L & V).
  assert (Pl : 0 < l) by lia.
  destruct (scaling_factor_ok power modulo (fun a _ => a) (fun a _ => a) w Ww Pl step Hs) as (f & Ef & Lf & Vf).
  unfold scaling_factor in Ef. rewrite index_int in Ef by lia. replace (l - step <? 0) with false in Ef by lia. cbn [bind] in Ef.
  unfold window_scaling_factor. rewrite E. cbn [bind]. replace (l - (l - step)) with step in * by lia. replace (step =? 0) with false in * by lia.
  destruct (range step l step) as [shifts|e]; [|discriminate]. cbn [bind] in *. apply ok_inv in Ef.
  specialize (Vf 0 ltac:(lia)). rewrite <- Ef, zth_map in Vf. clear Ef Lf f.
  assert (G : forall a, fold_left (fun added shift => map2 (o_add O) (map2 (o_add O) added (map (channel_sum O) (rows (block (channels w) everything (between 0 (l - shift))))))
       (map (channel_sum O) (rows (block (channels w) everything (from shift))))) shifts [a]
    = [fold_left (fun added shift => o_add O (o_add O added (channel_sum O (subseq (between 0 (l - shift)) (first_channel w)))) (channel_sum O (subseq (from shift) (first_channel w)))) shifts a]).
  { generalize shifts. intros sh. induction sh as [|b sh IH]; intros a; [reflexivity|]. cbn [fold_left]. rewrite <- IH. f_equal.
    destruct (channels w) as [rs n]. cbn [rows] in Rw. rewrite Rw, !block_one. reflexivity. }
  rewrite Rw in Vf. cbn [map] in Vf.
  rewrite G in Vf. change (zth [?y] 0) with (Some y) in Vf. cbn [option_map] in Vf. apply some_inv in Vf.
  f_equal. cbn [o_div real_ops n_int real_numbers] in *. rewrite Vf. unfold mean_overlap.
  pose proof (n_not_0 l Pl). set (S := Rsum_list _ _). unfold Rdiv. rewrite Rinv_mult, Rinv_inv. ring.
Qed.

Lemma full_scaling overlap : index overlap l = Ok l -> window_scaling_factor O IZR w overlap = Ok 0%R.
Proof. intros E. unfold window_scaling_factor. rewrite E. cbn [bind]. replace (l - l) with 0 by lia. reflexivity. Qed.

End Window.
End Measures.
