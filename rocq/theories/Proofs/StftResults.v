(** The short time Fourier transform of signals and its inverse. *)

From Coq Require Import String ZArith QArith List Bool Lia ZifyBool Reals Lra Field.
From Verif.Model Require Import Py Numpy Vector Functions Signal Spectrum Fft Fourier Cube Spectrogram Windows Sweeps Stft.
From Verif.Spec Require Import TimeSpec RealSpec ConvolutionSpec ComplexSpec DftSpec FourierSpec BlockSpec SpectrogramSpec SweepSpec StftSpec.
From Verif.Proofs Require Import PyFacts NumpyFacts SignalAlgebra VectorFacts FadeFacts SumFacts ComplexFacts PlacedFacts MergeOrder DftFacts FourierFacts LevelFacts RoundTripFacts SweepFacts TableFacts BlockScaling WindowMeasures CubeFacts StftFacts.
From Verif.Model Require Import Cube.
Import ListNotations.
Open Scope Z_scope.
Ltac Zify.zify_post_hook ::= idtac.

Lemma sequence_ok {B} (l : list (result B)) (F : Z -> B) : (forall i y, zth l i = Some y -> y = Ok (F i)) -> sequence l = Ok (map F (zseq 0 (zlen l))).
Proof.
  intros H. replace l with (map (fun i => Ok (F i)) (zseq 0 (zlen l))) at 1; [apply sequence_map_ok; auto|].
  apply zth_ext_in; [rewrite zlen_map, zlen_seq; pose proof (zlen_nonneg l); lia|]. intros i Hi. rewrite zlen_map, zlen_seq in Hi.
  rewrite zth_map_zseq. replace (_ && _) with true by lia. destruct (zth_in l i) as [y E]; [lia|]. rewrite E. rewrite (H i y E). reflexivity.
Qed.

Lemma with_windows_ok {A B C} (f : B -> list A -> result C) l ws (F : Z -> C) : 0 < zlen ws -> zlen ws = 1 \/ zlen l <= zlen ws ->
  (forall c x v, zth l c = Some x -> zth ws (if zlen ws =? 1 then 0 else c) = Some v -> f x v = Ok (F c)) ->
  with_windows f l ws = Ok (map F (zseq 0 (zlen l))).
Proof.
  intros P D H. unfold with_windows. destruct ws as [|v [|v' ws]].
  - change (zlen (@nil (list A))) with 0 in P. lia.
  - rewrite <- (zlen_map (fun c => f c v)). apply sequence_ok. intros i y E. rewrite zth_map in E. destruct (zth l i) as [x|] eqn:Ex; [|discriminate].
    apply some_inv in E. subst y. now apply (H i x v Ex).
  - set (ws' := v :: v' :: ws) in *. assert (L : zlen ws' =? 1 = false) by (unfold ws'; rewrite !zlen_cons; pose proof (zlen_nonneg ws); lia).
    assert (E : zlen (map2 f l ws') = zlen l) by (rewrite zlen_map2; lia). rewrite <- E. apply sequence_ok. intros i y Ey. rewrite zth_map2 in Ey.
    destruct (zth l i) as [x|] eqn:Ex; [|discriminate]. destruct (zth ws' i) as [u|] eqn:Eu; [|discriminate]. apply some_inv in Ey. subst y.
    apply (H i x u Ex). now rewrite L.
Qed.

Ltac whole := try (rewrite ?lower_everything, ?upper_everything by lia; lia).

Section Results.
Variables power modulo : R -> R -> R.
Variables cpower cmodulo : C -> C -> C.
Variable junk : Z -> Z -> R.
Variable cjunk : Z -> Z -> Z -> C.
Notation O := (real_ops power modulo).
Notation N := (real_numbers cpower cmodulo).
Notation stft := (short_time_fourier_transform O real_transforms N cjunk).
Notation istft := (inverse_short_time_fourier_transform O real_transforms N R_leb junk).

Section Transform.
Variables s w : signal R.
Variable overlap : num.
Variable step : Z.
Variable pad : bool.
Hypothesis Ws : wf_signal s.
Hypothesis Ww : wf_signal w.
Hypothesis Cs : 0 < count s.
Hypothesis Cw : 0 < count w.
Hypothesis Hc : count w = 1 \/ count s <= count w.
Hypothesis Ho : index overlap (length w) = Ok (length w - step).
Hypothesis Hs : 0 < step <= length w.
Hypothesis Hl : length w <= length s.

Notation n := (length w).
Notation q := (segment_count s w step pad).
Definition wrow (c : Z) : list R := rowv (channels w) (if count w =? 1 then 0 else c).
Definition seg (c m : Z) : list R := segment (wrow c) step (rowv (channels s) c) pad m.

Lemma zlen_wrow c : 0 <= c < count s -> zlen (wrow c) = n.
Proof. intros H. unfold wrow. apply zlen_rowv; [apply Ww|]. fold (count w). destruct (count w =? 1) eqn:E; lia. Qed.

Lemma at_wrow c j : 0 <= c < count s -> at_R (wrow c) j = window_at w c j.
Proof. intros H. unfold at_R, window_at, wrow. rewrite el_rowv; [reflexivity|]. fold (count w). destruct (count w =? 1) eqn:E; lia. Qed.

Lemma segments_ok c : 0 <= c < count s -> segments (wrow c) step (zlen (rowv (channels s) c)) pad = q.
Proof.
  intros H. unfold segments, segment_count. rewrite zlen_wrow by auto. rewrite zlen_rowv by (auto; apply Ws). reflexivity.
Qed.

Lemma q_positive : 0 < q.
Proof.
  rewrite <- (segments_ok 0) by lia. apply segments_positive; rewrite ?zlen_wrow by lia; [lia|]. rewrite zlen_rowv; [exact Hl|apply Ws|exact (conj (Z.le_refl 0) Cs)].
Qed.

Lemma zlen_seg c m : 0 <= c < count s -> zlen (seg c m) = n.
Proof. intros H. unfold seg. rewrite zlen_segment; rewrite zlen_wrow; auto. Qed.

Lemma channels_ok : with_windows (fun c v => scipy_stft O real_transforms N c v (n - step) pad) (rows (channels s)) (rows (channels w))
  = Ok (map (fun c => map (fun m => rfft (seg c m)) (zseq 0 q)) (zseq 0 (count s))).
Proof.
  apply with_windows_ok; auto. intros c x v Ex Ev.
  assert (H : 0 <= c < count s) by (apply zth_range in Ex; exact Ex).
  replace x with (rowv (channels s) c) by (unfold rowv; now rewrite Ex). replace v with (wrow c) by (unfold wrow, rowv, count, nrows; now rewrite Ev).
  rewrite <- (zlen_wrow c) by auto. rewrite stft_ok by (rewrite ?zlen_wrow by auto; try lia; rewrite zlen_rowv; auto; apply Ws).
  rewrite segments_ok by auto. reflexivity.
Qed.

Definition spectrums : cube C := stacked (map (fun c => map (fun m => rfft (seg c m)) (zseq 0 q)) (zseq 0 (count s))) (n / 2 + 1) q.

Lemma spectrums_cell c k m : cell spectrums c k m =
  if inside (count s) (n / 2 + 1) q c k m then Some (dft (seg c m) k) else None.
Proof.
  unfold spectrums, stacked. cbn [cell]. rewrite zth_map_zseq, !Z.add_0_l. destruct (inside _ _ _ _ _ _) eqn:I; unfold inside in I.
  - replace ((0 <=? c) && (c <? count s)) with true by lia. rewrite zth_map_zseq. replace ((0 <=? m) && (m <? q)) with true by lia.
    rewrite Z.add_0_l. apply (zth_rfft n); first [apply zlen_seg; lia|lia].
  - destruct ((0 <=? c) && (c <? count s)) eqn:E1; [|reflexivity]. rewrite zth_map_zseq. destruct ((0 <=? m) && (m <? q)) eqn:E2; [|reflexivity].
    rewrite Z.add_0_l. apply zth_out. rewrite zlen_rfft, zlen_seg by lia. lia.
Qed.

Lemma spectrums_wf : wf_cube spectrums.
Proof.
  assert (0 <= n / 2) by (apply Z.div_pos; lia). pose proof q_positive. assert (L : zlen (map (fun c => map (fun m => rfft (seg c m)) (zseq 0 q)) (zseq 0 (count s))) = count s).
  { rewrite zlen_map, zlen_seq. lia. } unfold spectrums, stacked. rewrite L.
  apply wf_by_cells; try lia; intros i j k; intros; pose proof (spectrums_cell i j k) as Cl; unfold spectrums, stacked in Cl; cbn [cell] in Cl; rewrite Cl.
  - replace (inside _ _ _ _ _ _) with true by (ranges; lia). eauto.
  - replace (inside _ _ _ _ _ _) with false by (ranges; lia). reflexivity.
Qed.

(** ** The remainder of the offset *)

Definition rounded : Z := py_round (inject_Z (offset s) / inject_Z step).
Definition remainder : Z := offset s - rounded * step.

(** The factor for the bin [k] of a window with [n] samples.  The group delay is [(n - 1) / (n // 2)] times the remainder. *)
Definition delay_factor (l rem k : Z) : C := cis (- (2 * PI * (IZR k * IZR (l - 1) / IZR (l / 2)) / IZR l * IZR rem)).

Hypothesis Hr : sampling_rate s <> 0%R.

Lemma stft_compensation_ok rem : 2 <= n ->
  zlen (stft_compensation O N n (sampling_rate s / IZR n)%R rem (sampling_rate s)) = n / 2 + 1 /\
  forall k, 0 <= k <= n / 2 -> zth (stft_compensation O N n (sampling_rate s / IZR n)%R rem (sampling_rate s)) k = Some (delay_factor n rem k).
Proof.
  intros H2. assert (Hh : 1 <= n / 2) by (apply (Z.div_le_mono 2 n 2); lia). unfold stft_compensation. split.
  - rewrite zlen_map. unfold linspace. rewrite zlen_map, zlen_seq. lia.
  - intros k Hk. rewrite zth_map. unfold linspace. rewrite zth_map_zseq. replace (_ && _) with true by lia. cbn [option_map]. f_equal. rewrite Z.add_0_l.
    replace (0 <? n / 2 + 1 - 1) with true by lia.
    assert (D : IZR (n / 2 + 1 - 1) <> 0%R). { intros D. apply (eq_IZR _ 0) in D. lia. }
    assert (Dn : IZR n <> 0%R) by (apply n_not_0; lia).
    set (f := (IZR k * (IZR (n - 1) * (sampling_rate s / IZR n)) / IZR (n / 2 + 1 - 1))%R).
    match goal with |- c_exp N (o_mul (c_ops N) ?z _) = _ => assert (E : z = (f, 0%R)) end.
    { unfold f. destruct ((1 <? n / 2 + 1) && (k =? n / 2 + 1 - 1)) eqn:E1.
      - replace k with (n / 2 + 1 - 1) by lia. cbn. apply C_ext; cbn; field. auto.
      - cbn. apply C_ext; unfold Cdiv, Cinv, Cmul, Cadd, norm2, re, im; cbn; field; auto. }
    rewrite E. cbn [o_mul o_div real_ops real_numbers c_ops c_make c_exp n_int n_pi o_zero complex_ops].
    match goal with |- Cexp ?z = _ => replace z with (0, f * (-2 * PI * (IZR rem / sampling_rate s)))%R by (apply C_ext; unfold Cmul, re, im; cbn; ring) end.
    rewrite Cexp_imaginary. unfold delay_factor. f_equal. unfold f. replace (n / 2 + 1 - 1) with (n / 2) in * by lia. field. repeat split; auto.
Qed.

Definition factor (k : Z) : C := if remainder =? 0 then C1 else delay_factor n remainder k.

Lemma frame_ok : (remainder <> 0 -> 2 <= n) ->
  exists r, stft s w overlap pad = Ok r /\ stft_frame r s w step pad /\ sg_begins r = rounded /\
    forall c k m, 0 <= c < count s -> 0 <= k <= n / 2 -> 0 <= m < q -> cell (sg_channels r) c k m = Some (Cmul (dft (seg c m) k) (factor k)).
Proof.
  intros H2. unfold short_time_fourier_transform. rewrite Ho. cbn [bind]. replace (n - (n - step)) with step by lia. rewrite channels_ok. cbn [bind].
  assert (L : (match map (fun c => map (fun m => rfft (seg c m)) (zseq 0 q)) (zseq 0 (count s)) with l :: _ => zlen l | [] => 0 end) = q).
  { rewrite (zseq_cons 0 (count s)) by lia. cbn [map]. rewrite zlen_map, zlen_seq. pose proof q_positive. lia. }
  rewrite L. fold spectrums. pose proof spectrums_wf as W. pose proof W as (D0 & D1 & D2 & _). pose proof q_positive as Q.
  assert (E0 : dim0 spectrums = count s) by (unfold spectrums, stacked; cbn [dim0]; rewrite zlen_map, zlen_seq; lia).
  assert (E1 : dim1 spectrums = n / 2 + 1) by reflexivity. assert (E2 : dim2 spectrums = q) by reflexivity.
  destruct (allocate3_ok cjunk (dim0 spectrums) (dim1 spectrums) (dim2 spectrums)) as (m0 & -> & W0 & A0 & A1 & A2); auto. cbn [bind].
  destruct (set3_ok m0 everything everything everything spectrums 0 (dim0 m0) 0 (dim1 m0) 0 (dim2 m0)) as (m1 & -> & W1 & B0 & B1 & B2 & V1); auto; whole.
  cbn [bind].
  fold rounded. fold remainder. change (o_div O (sampling_rate s) (n_int N n)) with (sampling_rate s / IZR n)%R.
  assert (C1' : forall c k m, 0 <= c < count s -> 0 <= k <= n / 2 -> 0 <= m < q -> cell m1 c k m = Some (dft (seg c m) k)).
  { intros c k m H H' H''. rewrite V1. replace (inr _ _ c && inr _ _ k && inr _ _ m) with true by (ranges; lia).
    assert (S : forall a x, 0 <= x < a -> stretch a (x - 0) = x) by (intros; ranges; zcases). rewrite !S by lia.
    rewrite spectrums_cell. replace (inside _ _ _ _ _ _) with true by (ranges; lia). reflexivity. }
  assert (R : exists m2, (if remainder =? 0 then Ok m1 else
       for_each (zseq 0 (dim0 m1)) (fun result c =>
         t <- layer result c ;;
         t <- ufunc3_view (o_mul (c_ops N)) (transpose Axes021 t) (cube_of (Arr [stft_compensation O N n (sampling_rate s / IZR n)%R remainder (sampling_rate s)]
                (zlen (stft_compensation O N n (sampling_rate s / IZR n)%R remainder (sampling_rate s))))) Axes021 t everything everything everything ;;
         set3 result (between c (c + 1)) everything everything t) m1) = Ok m2 /\ wf_cube m2 /\ dim0 m2 = count s /\ dim1 m2 = n / 2 + 1 /\ dim2 m2 = q /\
     forall c k m, 0 <= c < count s -> 0 <= k <= n / 2 -> 0 <= m < q -> cell m2 c k m = Some (Cmul (dft (seg c m) k) (factor k))).
  { unfold factor. destruct (remainder =? 0) eqn:E.
    - exists m1. split; [reflexivity|]. split; [auto|]. split; [lia|]. split; [lia|]. split; [lia|]. intros c k m H H' H''. rewrite C1' by auto. f_equal. 
      apply C_ext; cbn; ring.
    - destruct (stft_compensation_ok remainder (H2 ltac:(lia))) as [Lc Vc]. set (comp := stft_compensation _ _ _ _ _ _) in *.
      assert (Wc : wf (Arr [comp] (zlen comp))) by (split; cbn; [lia|repeat constructor]).
      destruct (cube_of_ok (Arr [comp] (zlen comp)) Wc) as (Wq & Q0 & Q1 & Q2 & Qc). cbn [cols] in Q2. change (nrows (Arr [comp] (zlen comp))) with 1 in Q1.
      match goal with |- context [for_each _ ?f m1] => destruct (for_each_seq (fun c m => wf_cube m /\ dim0 m = count s /\ dim1 m = n / 2 + 1 /\ dim2 m = q /\
        forall i k t, 0 <= i < count s -> 0 <= k <= n / 2 -> 0 <= t < q -> cell m i k t = if i <? c then both Cmul (cell m1 i k t) (zth comp k) else cell m1 i k t)
        f (dim0 m1) 0 m1) as (m2 & E2' & W2 & F0 & F1 & F2 & V2) end; [lia| | |].
      + split; [auto|]. split; [lia|]. split; [lia|]. split; [lia|]. intros i k t Hi _ _. replace (i <? 0) with false by lia. reflexivity.
      + intros c m Hm (Wm & L0 & L1 & L2 & Vm). rewrite Z.add_0_l in Hm.
        destruct (layer_ok m c Wm ltac:(lia)) as (t & -> & Wt & T0 & T1 & T2 & Vt). cbn [bind].
        destruct (ufunc3_view_ok (o_mul (c_ops N)) (transpose Axes021 t) (cube_of (Arr [comp] (zlen comp))) Axes021 t everything everything everything 0 1 0 q 0 (n / 2 + 1))
          as (u & -> & Wu & U0 & U1 & U2 & Vu); auto; cbn [ax0 ax1 ax2 transpose dim0 dim1 dim2]; whole; [exact (transpose_ok Axes021 t Wt)|]. cbn [bind].
        destruct (set3_ok m (between c (c + 1)) everything everything u c (c + 1) 0 (n / 2 + 1) 0 q) as (m' & -> & Wm' & M0 & M1 & M2 & Vm'); auto;
          try (apply lower_between; lia); try (apply upper_between; lia); whole.
        exists m'. split; [reflexivity|]. split; [auto|]. split; [lia|]. split; [lia|]. split; [lia|]. intros i k p Hi Hk Hp. rewrite Vm'.
        assert (S : forall a x, 0 <= x < a -> stretch a (x - 0) = x) by (intros; ranges; zcases).
        destruct (Z.eqb_spec i c) as [->|Hic].
        * replace (inr c (c + 1) c && _ && _) with true by (ranges; lia). replace (c <? c + 1) with true by lia. rewrite !S by lia.
          rewrite U0, T0. change (stretch 1 (c - c)) with 0. rewrite Vu. cbn [ax0 ax1 ax2 transpose dim0 dim1 dim2 cell].
          replace (inr _ _ 0 && _ && _) with true by (ranges; lia). rewrite Q0, Q1, Q2, T0, T1, T2. rewrite !S by lia.
          change (stretch 1 (0 - 0)) with 0. replace (stretch 1 (p - 0)) with 0 by reflexivity. rewrite Vt, Z.eqb_refl, Vm by lia. rewrite Z.ltb_irrefl.
          rewrite Qc. change (0 =? 0) with true. cbv iota. unfold both. unfold el. cbn [rows]. rewrite zth_cons. change (0 =? 0) with true. cbv iota. rewrite (S (zlen comp) k) by lia. reflexivity.
        * replace (inr c (c + 1) i) with false by (ranges; lia). cbn [andb]. rewrite Vm by auto. replace (i <? c + 1) with (i <? c) by lia. reflexivity.
      + exists m2. split; [exact E2'|]. split; [auto|]. split; [lia|]. split; [lia|]. split; [lia|]. intros c k m H H' H''. rewrite V2 by auto.
        replace (c <? 0 + dim0 m1) with true by lia. rewrite C1', Vc by lia. reflexivity. }
  destruct R as (m2 & E & W2 & F0 & F1 & F2 & V2). cbv zeta. cbv zeta in E. rewrite E. cbn [bind]. eexists. split; [reflexivity|].
  assert (La : sanitize_labels (Some (labels s)) (dim0 m2) = labels s) by (apply sanitize_same; rewrite F0; apply Ws).
  split; [|split; [reflexivity|exact V2]]. unfold stft_frame, wf_spectrogram, sg_count, sg_frequencies, sg_length. cbn [sg_channels sg_resolution sg_rate sg_labels mk_spectrogram].
  rewrite La, F0. split; [split; [exact W2|apply Ws]|]. repeat (split; [solve [auto]|]). auto.
Qed.

(** ** Offsets that are multiples of the step *)

Hypothesis Hb : begins s mod step = 0.

Lemma rounded_exact : rounded = begins s / step /\ remainder = 0.
Proof.
  assert (E : begins s = begins s / step * step) by (pose proof (Z.div_mod (begins s) step ltac:(lia)); lia).
  assert (Q : rounded = begins s / step).
  { unfold rounded. set (z := py_round _). pose proof (SliceFacts.py_round_near (inject_Z (offset s) / inject_Z step)) as [L U]. fold z in L, U.
    assert (V : (inject_Z (offset s) / inject_Z step == inject_Z (begins s / step))%Q).
    { change (offset s) with (begins s). rewrite E at 1. rewrite inject_Z_mult. field. intros H. unfold Qeq in H. cbn in H. lia. }
    rewrite V in L, U. change 2%Q with (inject_Z 2) in L, U. rewrite <- inject_Z_mult in L, U. rewrite <- Zle_Qle in L, U. lia. }
  split; [exact Q|]. unfold remainder. rewrite Q. change (offset s) with (begins s). lia.
Qed.

Lemma total_window c : 0 <= c < count s -> total (wrow c) = window_sum w c.
Proof.
  intros H. unfold total, window_sum. rewrite zlen_wrow by auto. change (Rsum_list (zseq 0 n) ?f) with (sumz RO 0 n f). apply sumz_ext. intros j _. now apply at_wrow.
Qed.

Lemma sample_at c i : 0 <= c < count s -> at_R (rowv (channels s) c) i = sample s c (begins s + i).
Proof. intros H. symmetry. now apply sample_row. Qed.

Lemma margin_lead c : 0 <= c < count s -> margin (wrow c) pad = lead w pad.
Proof. intros H. unfold margin, lead. now rewrite zlen_wrow. Qed.

Lemma seg_spectrum c m k : 0 <= c < count s ->
  dft (seg c m) k = Cmul (C_of_R (/ Rabs (window_sum w c))) (segment_spectrum s w c (begins s + m * step - lead w pad) k).
Proof.
  intros H. rewrite (dft_sum n) by (auto using zlen_seg; lia). unfold segment_spectrum. match goal with |- _ = Cmul _ (Csum n ?f) => change (Csum n f) with (sumz CO 0 n f) end. change Cmul with (o_mul CO). rewrite <- (sumz_mul_l CO CO_ring).
  apply sumz_ext. intros j _. unfold seg. rewrite at_segment by (rewrite zlen_wrow; auto). unfold scale. rewrite total_window, at_wrow, sample_at, margin_lead by auto.
  replace (begins s + (m * step + j - lead w pad)) with (begins s + m * step - lead w pad + j) by lia. apply C_ext; cbn; ring.
Qed.

Lemma transform_ok : exists r, stft s w overlap pad = Ok r /\ stft_frame r s w step pad /\ sg_begins r = begins s / step /\
  forall c k t, 0 <= c < count s -> 0 <= k <= n / 2 -> sg_begins r <= t < sg_ends r ->
    sg_at r c k t = Some (Cmul (C_of_R (/ Rabs (window_sum w c))) (segment_spectrum s w c (t * step - lead w pad) k)).
Proof.
  destruct rounded_exact as [Q Z0]. destruct frame_ok as (r & E & F & B & V); [lia|]. exists r. split; [exact E|]. split; [exact F|]. split; [lia|].
  intros c k t H Hk Ht. pose proof F as (_ & _ & _ & L & _). unfold sg_ends in Ht. unfold sg_begins in *. rewrite L in Ht.
  unfold sg_at. rewrite V by lia. f_equal. unfold factor. rewrite Z0. change (0 =? 0) with true. cbv iota. rewrite seg_spectrum by auto.
  assert (D : begins s = begins s / step * step) by (pose proof (Z.div_mod (begins s) step ltac:(lia)); lia).
  replace (begins s + (t - sg_offset r) * step - lead w pad) with (t * step - lead w pad) by (rewrite B, Q; lia). apply C_ext; cbn; ring.
Qed.

(** ** The inverse *)

Lemma flat_map_some {B} (g : Z -> option B) (h : Z -> B) l : (forall x, In x l -> g x = Some (h x)) ->
  flat_map (fun x => match g x with Some y => [y] | None => [] end) l = map h l.
Proof. intros H. induction l as [|x l IH]; [reflexivity|]. cbn [flat_map map]. rewrite (H x) by now left. rewrite IH by (intros; apply H; now right). reflexivity. Qed.

Lemma segments_of_ok (m : cube C) : dim0 m = count s -> dim1 m = n / 2 + 1 -> dim2 m = q ->
  (forall c k t, 0 <= c < count s -> 0 <= k <= n / 2 -> 0 <= t < q -> cell m c k t = Some (dft (seg c t) k)) ->
  segments_of m = map (fun c => map (fun t => rfft (seg c t)) (zseq 0 q)) (zseq 0 (count s)).
Proof.
  intros D0 D1 D2 V. unfold segments_of. rewrite D0, D1, D2. apply map_ext_in. intros c Hc'. apply LevelFacts.in_zseq in Hc'.
  apply map_ext_in. intros t Ht. apply LevelFacts.in_zseq in Ht. rewrite (flat_map_some _ (dft (seg c t))).
  - unfold rfft. rewrite zlen_seg by lia. reflexivity.
  - intros k Hk. apply LevelFacts.in_zseq in Hk. apply V; lia.
Qed.

Notation size := (n + (q - 1) * step - 2 * lead w pad).

Lemma energy_ok c i : 0 <= c < count s -> norm (wrow c) step q (i + lead w pad) = window_energy s w step pad c (begins s + i).
Proof.
  intros H. unfold norm, window_energy. change (Rsum_list (zseq (begins s / step) q) ?f) with (sumz RO (begins s / step) q f).
  replace (begins s / step) with (0 + begins s / step) by lia. rewrite <- (sumz_shift RO). apply sumz_ext. intros m _. rewrite !at_wrow by auto.
  assert (D : begins s = begins s / step * step) by (pose proof (Z.div_mod (begins s) step ltac:(lia)); lia).
  replace (begins s + i - ((m + begins s / step) * step - lead w pad)) with (i + lead w pad - m * step) by lia. reflexivity.
Qed.

Lemma added_ok c i : 0 <= c < count s -> (0 < window_sum w c)%R ->
  added (wrow c) step (seg c) q (i + lead w pad) = (sample s c (begins s + i) * window_energy s w step pad c (begins s + i))%R.
Proof.
  intros H P. rewrite <- energy_ok by auto. unfold added, norm. change Rmult with (o_mul RO). rewrite <- (sumz_mul_l RO (real_ring _ _)). apply sumz_ext. intros m _.
  unfold seg. rewrite at_segment by (rewrite zlen_wrow; auto). unfold scale. rewrite total_window, margin_lead, sample_at by auto.
  replace (m * step + (i + lead w pad - m * step) - lead w pad) with i by lia. rewrite Rabs_pos_eq by lra. cbn. field. lra.
Qed.

Lemma inverse_ok : (pad = true -> 2 <= n) -> (forall c, 0 <= c < count s -> (0 < window_sum w c)%R) ->
  exists g r, stft s w overlap pad = Ok g /\ istft g w overlap pad = Ok r /\ wf_signal r /\ count r = count s /\ labels r = labels s /\
    sampling_rate r = sampling_rate s /\ begins r = begins s /\ length r = size /\
    forall c t, 0 <= c < count s -> begins s <= t < begins s + size -> (sample s c t <> 0 -> 1 / 10000000000 < window_energy s w step pad c t)%R ->
      at_time r c t = Some (sample s c t).
Proof.
  intros P S. destruct rounded_exact as [Q Z0]. destruct frame_ok as (g & E & F & B & V); [lia|]. exists g. pose proof F as (Wg & G0 & G1 & G2 & _ & Gr & Gl).
  pose proof q_positive as Hq. assert (Hp : 0 <= size).
  { unfold lead. destruct pad; [|nia]. pose proof (Z.mul_div_le n 2 ltac:(lia)). nia. }
  assert (Sg : segments_of (sg_channels g) = map (fun c => map (fun t => rfft (seg c t)) (zseq 0 q)) (zseq 0 (count s))).
  { apply segments_of_ok; auto. intros c k t H Hk Ht. rewrite V by auto. f_equal. unfold factor. rewrite Z0. change (0 =? 0) with true. cbv iota. apply C_ext; cbn; ring. }
  assert (I : forall c, 0 <= c < count s -> exists y, scipy_istft O real_transforms N R_leb (n / 2 + 1) (map (fun t => rfft (seg c t)) (zseq 0 q)) (wrow c) n (n - step) pad = Ok y /\
     zlen y = size /\ forall i, 0 <= i < size -> zth y i = Some (sample s c (begins s + i) * window_energy s w step pad c (begins s + i) / safe (window_energy s w step pad c (begins s + i)))%R).
  { intros c H. destruct (istft_ok power modulo cpower cmodulo (wrow c) step ltac:(rewrite zlen_wrow; auto) (seg c) q Hq ltac:(intros; rewrite zlen_wrow by auto; now apply zlen_seg) pad) as (y & Ey & Ly & Vy);
      [rewrite zlen_wrow; auto|]. rewrite zlen_wrow, margin_lead in * by auto. exists y. split; [exact Ey|]. split; [exact Ly|]. intros i Hi. rewrite Vy by auto.
    rewrite added_ok, energy_ok by auto. reflexivity. }
  (* a function that gives the channels *)
  set (Y := fun c => match scipy_istft O real_transforms N R_leb (n / 2 + 1) (map (fun t => rfft (seg c t)) (zseq 0 q)) (wrow c) n (n - step) pad with Ok y => y | Err _ => [] end).
  assert (IY : forall c, 0 <= c < count s -> zlen (Y c) = size /\ forall i, 0 <= i < size -> zth (Y c) i = Some (sample s c (begins s + i) * window_energy s w step pad c (begins s + i) / safe (window_energy s w step pad c (begins s + i)))%R).
  { intros c H. destruct (I c H) as (y & Ey & Ly & Vy). unfold Y. rewrite Ey. auto. }
  assert (L : zlen (map (fun c => map (fun t => rfft (seg c t)) (zseq 0 q)) (zseq 0 (count s))) = count s) by (rewrite zlen_map, zlen_seq; lia).
  unfold inverse_short_time_fourier_transform. rewrite Ho. cbn [bind]. rewrite Sg, G1. replace (n - (n - step)) with step by lia.
  rewrite (with_windows_ok _ _ _ Y); [|auto|rewrite L; auto|].
  2:{ intros c x v Ex Ev. rewrite zth_map_zseq in Ex. destruct ((0 <=? c) && (c <? count s)) eqn:R; [|discriminate]. apply some_inv in Ex. subst x. rewrite Z.add_0_l.
      replace v with (wrow c) by (unfold wrow, rowv, count, nrows; now rewrite Ev). unfold Y. destruct (I c ltac:(lia)) as (y & Ey & _). now rewrite Ey. }
  cbn [bind]. rewrite L.
  assert (Lc : (match map Y (zseq 0 (count s)) with l :: _ => zlen l | [] => 0 end) = size).
  { rewrite (zseq_cons 0 (count s)) by lia. cbn [map]. apply IY. lia. }
  rewrite Lc. rewrite !zlen_map, !zlen_seq. replace (Z.max 0 (count s)) with (count s) by lia.
  destruct (allocate_ok junk (count s) size) as (m & Em & Wm & Nm & Cm); [lia|auto|]. rewrite Em. cbn [bind].
  assert (Wy : wf (Arr (map Y (zseq 0 (count s))) size)).
  { split; [exact Hp|]. cbn [rows cols]. apply Forall_map. apply Forall_forall. intros c Hc'. apply LevelFacts.in_zseq in Hc'. apply IY. lia. }
  assert (Ny : nrows (Arr (map Y (zseq 0 (count s))) size) = count s) by (unfold nrows; cbn [rows]; rewrite zlen_map, zlen_seq; lia).
  rewrite set_all_ok by (auto; rewrite ?Ny; auto). cbn [bind]. eexists. split; [exact E|]. split; [reflexivity|].
  assert (D : begins s = begins s / step * step) by (pose proof (Z.div_mod (begins s) step ltac:(lia)); lia).
  assert (Bs : sg_offset g * step = begins s) by (unfold sg_begins in B; rewrite B, Q; lia).
  split; [now apply mk_signal_wf|]. split; [exact Ny|]. split; [cbn [labels mk_signal]; rewrite Ny, Gl; apply sanitize_same; apply Ws|].
  split; [cbn [sampling_rate mk_signal]; rewrite Gr; cbn; field; apply n_not_0; lia|]. split; [exact Bs|]. split; [reflexivity|].
  intros c t H Ht Hen. unfold at_time. cbn [channels offset mk_signal]. rewrite Bs. unfold el. cbn [rows]. rewrite zth_map_zseq. replace (_ && _) with true by lia.
  rewrite Z.add_0_l. destruct (IY c H) as [_ Vy]. rewrite Vy by lia. replace (begins s + (t - begins s)) with t by lia. f_equal.
  destruct (Req_dec (sample s c t) 0) as [Ez|Ez]; [rewrite Ez; unfold Rdiv; ring|]. specialize (Hen Ez). unfold safe, R_leb. destruct (Rle_dec _ _); [lra|]. field. lra.
Qed.

(** A window with one sample *)
Lemma inverse_single : n = 1 -> pad = true ->
  exists g r, stft s w overlap pad = Ok g /\ istft g w overlap pad = Ok r /\ count r = count s /\ length r = 0.
Proof.
  intros H1 P. destruct rounded_exact as [Q Z0]. destruct frame_ok as (g & E & F & B & V); [lia|]. exists g. pose proof F as (Wg & G0 & G1 & G2 & _).
  pose proof q_positive as Hq.
  assert (Sg : segments_of (sg_channels g) = map (fun c => map (fun t => rfft (seg c t)) (zseq 0 q)) (zseq 0 (count s))).
  { apply segments_of_ok; auto. intros c k t H Hk Ht. rewrite V by auto. f_equal. unfold factor. rewrite Z0. change (0 =? 0) with true. cbv iota. apply C_ext; cbn; ring. }
  assert (L : zlen (map (fun c => map (fun t => rfft (seg c t)) (zseq 0 q)) (zseq 0 (count s))) = count s) by (rewrite zlen_map, zlen_seq; lia).
  unfold inverse_short_time_fourier_transform. rewrite Ho. cbn [bind]. rewrite Sg, G1. replace (n - (n - step)) with step by lia.
  rewrite (with_windows_ok _ _ _ (fun _ => [])); [|auto|rewrite L; auto|].
  2:{ intros c x v Ex Ev. rewrite zth_map_zseq in Ex. destruct ((0 <=? c) && (c <? count s)) eqn:R; [|discriminate]. apply some_inv in Ex. subst x. rewrite Z.add_0_l.
      replace v with (wrow c) by (unfold wrow, rowv, count, nrows; now rewrite Ev). rewrite P. rewrite <- (zlen_wrow c) by lia.
      apply istft_single; intros; rewrite ?zlen_wrow by lia; auto; first [apply zlen_seg; lia|rewrite <- P; exact Hq]. }
  cbn [bind]. rewrite L. rewrite (zseq_cons 0 (count s)) by lia. cbn [map]. change (zlen (@nil R)) with 0.
  set (l := [] :: map (fun _ => []) (zseq (0 + 1) (count s - 1))).
  assert (Ll : zlen l = count s) by (unfold l; rewrite zlen_cons, zlen_map, zlen_seq; lia). rewrite Ll.
  destruct (allocate_ok junk (count s) 0) as (m & Em & Wm & Nm & Cm); [lia|lia|]. rewrite Em. cbn [bind].
  assert (Wy : wf (Arr l 0)).
  { split; [cbn; lia|]. cbn [rows cols]. unfold l. constructor; [reflexivity|]. apply Forall_map. apply Forall_forall. reflexivity. }
  rewrite set_all_ok by (auto; unfold nrows at 1; cbn [rows]; lia). cbn [bind]. eexists. split; [exact E|]. split; [reflexivity|]. split; [exact Ll|reflexivity].
Qed.

End Transform.
End Results.
