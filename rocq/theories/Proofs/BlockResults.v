(** The Fourier transform in blocks. *)

From Coq Require Import String ZArith List Bool Lia ZifyBool Reals Lra Ring_theory Field_theory Ring Field Permutation.
From Verif.Model Require Import Py Numpy Vector Functions Signal Spectrum Fft Fourier.
From Verif.Spec Require Import TimeSpec FrequencySpec RealSpec ConvolutionSpec ComplexSpec DftSpec FourierSpec BlockSpec.
From Verif.Proofs Require Import PyFacts NumpyFacts VectorFacts SumFacts ComplexFacts ConvolveFacts PlacedFacts DftFacts MethodFacts CircularFacts SpectrumModes SignalAlgebra SignalHelpers SliceFacts FourierFacts FourierResults LevelFacts BlockRanges BlockFacts BlockScaling.
Import ListNotations.
Open Scope Z_scope.
Ltac Zify.zify_post_hook ::= idtac.

Section Results.
Variables power modulo : R -> R -> R.
Variables cpower cmodulo : C -> C -> C.
Variable junk : Z -> Z -> R.
Variable cjunk : Z -> Z -> C.
Notation O := (real_ops power modulo).
Notation X := real_transforms.
Notation N := (real_numbers cpower cmodulo).
Notation sumC := (sumz CO).

Section Transform.
Variables s w : signal R.
Variable overlap : num.
Variable step : Z.
Hypothesis Ws : wf_signal s.
Hypothesis Ww : wf_signal w.
Hypothesis Ps : 0 < count s.
Hypothesis Pw : 0 < count w.
Notation n := (length s).
Notation l := (length w).
Hypothesis Overlap : index overlap l = Ok (l - step).
Hypothesis Hstep : 0 < step <= l.
Notation rows' := (Z.max (count s) (count w)).
Notation len := (l / 2 + 1).
Hypothesis Compatible : count s = count w \/ count s = 1 \/ count w = 1.
Hypothesis Rate : sampling_rate w = sampling_rate s.
Hypothesis Rate0 : sampling_rate s <> 0%R.
Let Pl : 0 < l. Proof. lia. Qed.

Notation contribution := (contribution s w).

Lemma contribution_time i c k : contribution i c k
  = sumC 0 n (fun t => Cmul (C_of_R (operand_sample s c (offset s + t) * window_at w c (t - i))%R) (cis (- (2 * PI * (IZR k / IZR l) * IZR (offset s + t)))%R)).
Proof.
  unfold BlockFacts.contribution, windowed_at, x_at. pose proof (n_nonneg s Ws).
  set (g := fun t => Cmul (C_of_R (operand_sample s c (offset s + t) * window_at w c (t - i))%R) (cis (- (2 * PI * (IZR k / IZR l) * IZR (offset s + t)))%R)).
  rewrite (sumz_ext CO 0 l _ (fun m => g (m + i))).
  - rewrite (sumz_shift CO 0 l i g). apply (sumz_support CO CO_ring); try lia.
    + intros t Ht. unfold g. rewrite (w_out w Ww) by lia. rewrite Rmult_0_r. apply C_ext; cbn; ring.
    + intros t Ht. unfold g. fold (x_at s c t). rewrite (x_out s Ws) by lia. rewrite Rmult_0_l. apply C_ext; cbn; ring.
  - intros m _. unfold g. f_equal.
    + f_equal. f_equal; [f_equal; lia|f_equal; lia].
    + unfold root. f_equal. replace (offset s + (m + i)) with (offset s + i + m) by lia. rewrite opp_IZR, mult_IZR. pose proof (n_not_0 l Pl). field. auto.
Qed.

Lemma contributions_time bl c k f : Cmul (Csum_list bl (fun i => contribution i c k)) (C_of_R f)
  = weighted_fourier_sum s c (fun t => overlap_sum w c bl (t - begins s) * f)%R (IZR k / IZR l).
Proof.
  unfold weighted_fourier_sum. rewrite Csum_over_time_sum. induction bl as [|i bl IH].
  - cbn [Csum_list fold_right]. transitivity (C_of_R 0); [apply C_ext; cbn; ring|]. symmetry. apply (sumz_zero CO CO_ring). intros t _. unfold overlap_sum. cbn [Rsum_list fold_right].
    rewrite Rmult_0_l, Rmult_0_r. apply C_ext; cbn; ring.
  - change (Csum_list (i :: bl) (fun i => contribution i c k)) with (Cadd (contribution i c k) (Csum_list bl (fun i => contribution i c k))).
    assert (D : forall a b z, Cmul (Cadd a b) z = Cadd (Cmul a z) (Cmul b z)) by (intros; apply C_ext; cbn; ring). rewrite D, IH, contribution_time.
    change (Cmul (sumC ?a ?b ?f) ?z) with (o_mul CO (sumC a b f) z). rewrite <- (sumz_mul_r CO CO_ring). change Cadd with (o_add CO). rewrite <- (sumz_add CO CO_ring). apply sumz_ext. intros t _.
    unfold overlap_sum, begins. cbn [Rsum_list fold_right]. replace (offset s + t - offset s) with t by lia. cbn [o_mul o_add CO complex_ops].
    fold (Rsum_list bl (fun b => window_at w c (t - b))).
    generalize (Rsum_list bl (fun b => window_at w c (t - b))) (window_at w c (t - i)) (operand_sample s c (offset s + t)) (cis (- (2 * PI * (IZR k / IZR l) * IZR (offset s + t)))).
    intros. apply C_ext; cbn; ring.
Qed.

(** The body of a loop is windowing and adding *)
Lemma body_ok (window_block : arr R -> Z -> result (arr R)) i :
  (forall m, wf m -> nrows m = rows' -> cols m = l -> exists r, window_block m i = Ok r /\ is_block s w r i) ->
  forall m ch F, wf m -> nrows m = rows' -> cols m = l -> has ch rows' len F ->
  exists m' ch', (windowed <- window_block m i ;;
                  channels <- add_block O X N windowed len (sampling_rate w / IZR l)%R (offset s + i) (sampling_rate s) ch ;; Ok (windowed, channels)) = Ok (m', ch') /\
    wf m' /\ nrows m' = rows' /\ cols m' = l /\ has ch' rows' len (fun c k => Cadd (F c k) (contribution i c k)).
Proof.
  intros B m ch F W Nm Cm Hc. destruct (B m W Nm Cm) as (m1 & -> & H1). cbn [bind].
  destruct (add_block_ok power modulo cpower cmodulo s w Pw Pl Compatible Rate Rate0 m1 i ch F H1 Hc) as (r & -> & Hr). cbn [bind].
  exists m1, r. destruct H1 as (W1 & N1 & C1 & _). auto.
Qed.

Definition blocks (pad : bool) : list Z := if pad then computed_blocks l n step else inner_blocks l n step.

Lemma has_ext {A} (m : arr A) r c F G : has m r c F -> (forall i j, 0 <= i < r -> 0 <= j < c -> F i j = G i j) -> has m r c G.
Proof. intros (W & Nm & Cm & V) H. split; [auto|]. split; [auto|]. split; [auto|]. intros i j Hi Hj. rewrite V, H by auto. reflexivity. Qed.

Lemma mean_overlap_channel c : mean_overlap w (if count w =? 1 then 0 else c) step = mean_overlap w c step.
Proof.
  unfold mean_overlap, overlap_sum. f_equal. apply Rsum_list_ext. intros t _. apply Rsum_list_ext. intros b _. unfold window_at. destruct (count w =? 1); reflexivity.
Qed.

Lemma block_wise_ok pad : (forall c, 0 <= c < count w -> mean_overlap w c step <> 0%R) ->
  exists m, block_wise_fourier_transform O X N junk cjunk s w overlap pad = Ok (m, (sampling_rate s / IZR l)%R) /\
    has m rows' len (fun c k => weighted_fourier_sum s c (fun t => overlap_sum w c (blocks pad) (t - begins s) / mean_overlap w c step)%R (IZR k / IZR l)).
Proof.
  intros Mean. unfold block_wise_fourier_transform. cbv zeta. pose proof (n_nonneg s Ws) as Hn. pose proof (len_pos w Pl) as PL.
  replace (count s =? 0) with false by lia. replace (count w =? 0) with false by lia. replace (l =? 0) with false by lia. cbn [orb].
  rewrite Overlap. cbn [bind]. replace (l - (l - step)) with step by lia.
  destruct (allocate_ok cjunk rows' len) as (ch0 & -> & W0 & N0 & C0' & _) || destruct (allocate_ok cjunk rows' len) as (ch0 & -> & W0 & N0 & C0'); try lia. cbn [bind].
  destruct (fill_cols_ok ch0 everything (o_zero (c_ops N)) 0 len) as (ch1 & -> & W1 & N1 & C1' & V1); auto; [rewrite C0'; apply upper_everything; lia|]. cbn [bind].
  destruct (allocate_ok junk rows' l) as (m0 & -> & Wm0 & Nm0 & Cm0); try lia. cbn [bind].
  assert (H0 : has ch1 rows' len (fun _ _ => C0)).
  { split; [auto|]. split; [lia|]. split; [lia|]. intros c k Hc Hk. rewrite V1 by lia. replace (_ && _) with true by lia. reflexivity. }
  cbn [o_div real_ops n_int real_numbers] in *.
  (* the blocks, that begin before the signal *)
  match goal with |- context [bind (if pad then ?a else Ok ?b) _] => set (first := if pad then a else Ok b) end.
  assert (First : exists m ch, first = Ok (m, ch) /\ wf m /\ nrows m = rows' /\ cols m = l /\
     has ch rows' len (fun c k => Csum_list (if pad then negative_multiples l step else []) (fun i => contribution i c k))).
  { unfold first. clear first. destruct pad.
    - rewrite range_negative by lia. cbn [bind].
      match goal with |- context [for_each _ ?body _] => destruct (blocks_ok s w body (negative_multiples l step)) with (m := m0) (ch := ch1) (F := fun _ _ : Z => C0)
        as (m' & ch' & E & Wm' & Nm' & Cm' & H'); auto end.
      + intros i Hi m ch F Wm Nm Cm Hc. apply in_negative in Hi; [|lia].
        pose proof (body_ok (fun windowed i => let l' := Z.min (l + i) n in
             windowed <- set_block windowed everything (between 0 (- i)) (scalar (o_zero O)) ;;
             windowed <- set_block windowed everything (from (l' - i)) (scalar (o_zero O)) ;;
             ufunc2_into (o_mul O) (block (Signal.channels s) everything (between 0 l'))
                         (block (Signal.channels w) everything (between (- i) (l' - i)))
                         windowed everything (between (- i) (l' - i))) i) as B. cbv zeta in B.
        destruct (B) with (m := m) (ch := ch) (F := F) as (m2 & ch2 & E2 & R2); auto.
        * intros m'' Wm'' Nm'' Cm''. apply (first_block power modulo s w); auto. lia.
        * exists m2, ch2. split; [|exact R2]. rewrite <- E2.
          destruct (set_block m everything (between 0 (- i)) (scalar (o_zero O))) as [m3|e]; cbn [bind]; [|reflexivity].
          destruct (set_block m3 everything _ (scalar (o_zero O))) as [m4|e]; cbn [bind]; reflexivity.
      + exists m', ch'. split; [exact E|]. do 3 (split; [auto|]). eapply has_ext; [exact H'|]. intros. apply C_ext; cbn; ring.
    - exists m0, ch1. split; [reflexivity|]. do 3 (split; [auto|]). exact H0. }
  destruct First as (m1 & c1 & -> & Wm1 & Nm1 & Cm1 & H1). cbn [bind].
  (* the blocks inside of the signal *)
  replace (range 0 (n - l + 1) step) with (Ok (multiples step 0 (n - l + 1))) by (rewrite <- range_multiples by lia; f_equal; lia). cbn [bind].
  match goal with |- context [for_each (multiples step 0 (n - l + 1)) ?body _] => destruct (blocks_ok s w body (multiples step 0 (n - l + 1))) with (m := m1) (ch := c1)
        (F := fun c k => Csum_list (if pad then negative_multiples l step else []) (fun i => contribution i c k)) as (m2 & c2 & E2 & Wm2 & Nm2 & Cm2 & H2); auto end.
  { intros i Hi m ch F Wm Nm Cm Hc. apply in_multiples in Hi; [|lia].
    apply (body_ok (fun windowed i => ufunc2_into (o_mul O) (block (Signal.channels s) everything (between i (l + i))) (Signal.channels w) windowed everything everything) i); auto.
    intros m'' Wm'' Nm'' Cm''. apply (inner_block power modulo s w); auto. lia. }
  rewrite E2. clear E2. cbn [bind].
  (* the blocks, that end after the signal *)
  destruct (last_multiples step (n - l + 1)) as (q & Hq & Eq & Bq); [lia|]. rewrite Eq.
  match goal with |- context [bind (if pad then ?a else Ok ?b) _] => set (final := if pad then a else Ok b) end.
  assert (Final : exists m ch, final = Ok (m, ch) /\ wf m /\ nrows m = rows' /\ cols m = l /\
     has ch rows' len (fun c k => Csum_list (blocks pad) (fun i => contribution i c k))).
  { unfold final. clear final. destruct pad.
    - rewrite range_multiples by lia. cbn [bind].
      match goal with |- context [for_each _ ?body _] => destruct (blocks_ok s w body (multiples step q n)) with (m := m2) (ch := c2)
        (F := fun c k => Cadd (Csum_list (negative_multiples l step) (fun i => contribution i c k)) (Csum_list (multiples step 0 (n - l + 1)) (fun i => contribution i c k)))
        as (m' & ch' & E & Wm' & Nm' & Cm' & H'); auto end.
      + intros i Hi m ch F Wm Nm Cm Hc. apply in_multiples in Hi; [|lia]. assert (step <= q * step) by nia.
        pose proof (body_ok (fun windowed i => let k := n - i in
             windowed <- set_block windowed everything (from k) (scalar (o_zero O)) ;;
             ufunc2_into (o_mul O) (block (Signal.channels s) everything (from i))
                         (block (Signal.channels w) everything (between 0 k))
                         windowed everything (between 0 k)) i) as B. cbv zeta in B.
        destruct (B) with (m := m) (ch := ch) (F := F) as (m3 & ch3 & E3 & R3); auto.
        * intros m'' Wm'' Nm'' Cm''. apply (last_block power modulo s w); auto; try lia. destruct (0 <? n - l + 1) eqn:Q; lia.
        * exists m3, ch3. split; [|exact R3]. rewrite <- E3.
          destruct (set_block m everything (from (n - i)) (scalar (o_zero O))) as [m4|e]; cbn [bind]; reflexivity.
      + exists m', ch'. split; [exact E|]. do 3 (split; [auto|]). eapply has_ext; [exact H'|]. intros c k _ _. cbv beta. unfold blocks.
        rewrite <- (Csum_permutation _ _ _ (padded_permutation l n step q Hstep Hn Hq Bq)). rewrite !Csum_list_app.
        generalize (Csum_list (multiples step q n) (fun i => contribution i c k)). intros. apply C_ext; cbn; ring.
    - exists m2, c2. split; [reflexivity|]. do 3 (split; [auto|]). eapply has_ext; [exact H2|]. intros c k _ _. cbv beta. unfold blocks.
      rewrite <- (Csum_permutation _ _ _ (inner_permutation l n step ltac:(lia))). generalize (Csum_list (multiples step 0 (n - l + 1)) (fun i => contribution i c k)).
      intros. apply C_ext; cbn; ring. }
  destruct Final as (m3 & c3 & -> & Wm3 & Nm3 & Cm3 & (Wc3 & Nc3 & Cc3 & V3)). cbn [bind snd].
  destruct (scaling_factor_ok power modulo cpower cmodulo w Ww Pl step Hstep) as (f & -> & Lf & Vf). cbn [bind].
  set (F := Arr _ 1). assert (WF : wf F). { split; [cbn; lia|]. unfold F. cbn [rows cols]. apply Forall_map. apply Forall_forall. reflexivity. }
  assert (NF : nrows F = count w). { unfold F, nrows. cbn [rows]. now rewrite zlen_map. }
  assert (NN : 0 <= nrows c3) by apply nrows_nonneg.
  destruct (ufunc2_into_ok (o_mul (c_ops N)) c3 F c3 everything everything) as (r & -> & Wr & Nr & Cr & Vr); auto;
    rewrite ?lower_everything, ?upper_everything by lia; try lia. cbn [bind].
  exists r. rewrite Rate. split; [reflexivity|]. split; [auto|]. split; [lia|]. split; [lia|]. intros c k Hc Hk.
  rewrite Vr, !lower_everything, !upper_everything by lia. replace (_ && _) with true by lia. rewrite !Z.sub_0_r, !one_index by lia. rewrite V3 by lia.
  rewrite NF. change (cols F) with 1. change (1 =? 1) with true. cbv iota. unfold F, el. cbn [rows]. rewrite zth_map.
  set (cw := if count w =? 1 then 0 else c). assert (Hcw : 0 <= cw < count w) by (unfold cw; destruct (count w =? 1) eqn:Q; lia).
  rewrite Vf by auto. cbn [option_map]. change (zth [?x] 0) with (Some x). cbn [o_mul c_ops real_numbers complex_ops c_make o_zero real_ops]. f_equal.
  change (?x, 0%R) with (C_of_R x). rewrite contributions_time. specialize (Mean cw Hcw).
  replace (mean_overlap w c step) with (mean_overlap w cw step) by (apply mean_overlap_channel). unfold mean_overlap in *.
  set (added := Rsum_list _ _) in *. clearbody added. pose proof (n_not_0 l Pl) as L0.
  assert (A0 : added <> 0%R). { intros ->. apply Mean. unfold Rdiv. ring. }
  unfold weighted_fourier_sum. rewrite !Csum_over_time_sum. apply sumz_ext. intros t _. f_equal. f_equal. field. auto.
Qed.

(** ** The spectrum *)

Lemma labels_result (m : arr C) : nrows m = rows' -> sanitize_labels (Some (labels s)) (nrows m) = labels s ++ zrepeat EmptyString (rows' - count s).
Proof.
  intros ->. destruct Ws as [W L]. unfold sanitize_labels. fold (count s) in L. rewrite L. destruct (count s <? rows') eqn:E; [reflexivity|].
  replace (rows' <? count s) with false by lia. replace (rows' - count s) with 0 by lia. cbn. now rewrite app_nil_r.
Qed.

Lemma block_transform_ok pad : (forall c, 0 <= c < count w -> mean_overlap w c step <> 0%R) ->
  exists r, fourier_transform O X N junk cjunk s (Some w) overlap pad = Ok r /\ wf_spectrum r /\ sp_count r = rows' /\ sp_length r = len /\
    resolution r = (sampling_rate s / IZR l)%R /\ sp_labels r = labels s ++ zrepeat EmptyString (rows' - count s) /\
    forall c k, 0 <= c < rows' -> 0 <= k <= l / 2 ->
      bin r c k = Some (weighted_fourier_sum s c (fun t => overlap_sum w c (blocks pad) (t - begins s) / mean_overlap w c step)%R (IZR k / IZR l)).
Proof.
  intros Mean. unfold fourier_transform. destruct (block_wise_ok pad Mean) as (m & -> & Wm & Nm & Cm & Vm). cbn [bind fst snd].
  eexists. split; [reflexivity|]. unfold mk_spectrum. rewrite labels_result by auto.
  split; [split; auto; cbn [sp_channels sp_labels]|].
  - rewrite Nm, zlen_app, zlen_repeat. destruct Ws as [_ L]. fold (count s) in L. rewrite L. lia.
  - do 4 (split; [auto|]). intros c k Hc Hk. unfold bin. cbn [sp_channels]. apply Vm; lia.
Qed.

(** ** Windows with constant overlap *)

Lemma weighted_ext f g c fr : (forall t, begins s <= t < ends s -> f t = g t) -> weighted_fourier_sum s c f fr = weighted_fourier_sum s c g fr.
Proof.
  intros H. unfold weighted_fourier_sum. rewrite !Csum_over_time_sum. apply sumz_ext. intros t Ht. rewrite H; [reflexivity|]. unfold begins, ends. lia.
Qed.

Lemma constant_overlap c t m d : constant_overlap_add w step d -> 0 <= c < rows' -> 0 <= t < m -> overlap_sum w c (overlapping_blocks l m step) t = d.
Proof.
  intros H Hc Ht. rewrite (overlap_all w c l m step t) by (auto; lia). set (cw := if count w =? 1 then 0 else c).
  assert (Hcw : 0 <= cw < count w) by (unfold cw; destruct (count w =? 1) eqn:Q; lia). rewrite <- (H cw t Hcw). apply Rsum_list_ext. intros u _.
  destruct (_ =? 0); [|reflexivity]. unfold window_at, cw. destruct (count w =? 1); reflexivity.
Qed.

Lemma constant_mean d c : constant_overlap_add w step d -> 0 <= c < rows' -> mean_overlap w c step = d.
Proof.
  intros H Hc. unfold mean_overlap. rewrite (Rsum_list_ext _ _ (fun _ => d)).
  - assert (E : forall m, 0 <= m -> Rsum_list (zseq 0 m) (fun _ => d) = (IZR m * d)%R).
    { apply (count_ind (fun m => Rsum_list (zseq 0 m) (fun _ => d) = (IZR m * d)%R)); [change (0 = 0 * d)%R; ring|]. intros m Hm IH.
      change (Rsum_list (zseq 0 (m + 1)) (fun _ => d)) with (sumz RO 0 (m + 1) (fun _ => d)). rewrite (sumz_snoc RO (real_ring _ _)) by lia.
      replace (m + 1 - 1) with m by lia. change (sumz RO 0 m (fun _ => d)) with (Rsum_list (zseq 0 m) (fun _ => d)). rewrite IH, plus_IZR. cbn. ring. }
    rewrite E by lia. pose proof (n_not_0 l Pl). field. auto.
  - intros t Ht. apply in_zseq in Ht. apply constant_overlap; auto.
Qed.

Lemma constant_transform_ok d : constant_overlap_add w step d -> d <> 0%R -> l <= n ->
  exists r, fourier_transform O X N junk cjunk s (Some w) overlap true = Ok r /\ wf_spectrum r /\ sp_count r = rows' /\ sp_length r = len /\
    resolution r = (sampling_rate s / IZR l)%R /\ sp_labels r = labels s ++ zrepeat EmptyString (rows' - count s) /\
    forall c k, 0 <= c < rows' -> 0 <= k <= l / 2 -> bin r c k = Some (fourier_sum s (if count s =? 1 then 0 else c) (IZR k / IZR l)).
Proof.
  intros H D L. destruct (block_transform_ok true) as (r & E & W & Cr & Lr & Rr & Br & V).
  - intros c Hc. rewrite (constant_mean d) by (auto; lia). exact D.
  - exists r. do 6 (split; [auto|]). intros c k Hc Hk. rewrite V by auto. f_equal.
    rewrite (weighted_ext _ (fun _ => 1%R)).
    + unfold weighted_fourier_sum, fourier_sum. rewrite !Csum_over_time_sum. apply sumz_ext. intros t _. rewrite Rmult_1_r. reflexivity.
    + intros t Ht. rewrite (constant_mean d) by auto. unfold blocks, computed_blocks.
      replace (filter _ (overlapping_blocks l n step)) with (overlapping_blocks l n step).
      * rewrite (constant_overlap c (t - begins s) n d) by (auto; unfold begins, ends in *; lia). field. auto.
      * symmetry. generalize (overlapping_blocks l n step). intros bl. induction bl as [|b bl IH]; [reflexivity|]. cbn [filter]. replace (_ || _) with true by lia. now rewrite IH.
Qed.

End Transform.
End Results.
