(** The level versus the time. *)

From Coq Require Import String ZArith List Bool Lia ZifyBool Reals Lra Ring_theory Field_theory Ring Field.
From Verif.Model Require Import Py Numpy Vector Functions Signal Spectrum Fft Fourier Convolution Sweeps Levels.
From Verif.Spec Require Import TimeSpec RealSpec ConvolutionSpec ComplexSpec DftSpec FourierSpec SweepSpec HarmonicSpec LevelSpec.
From Verif.Proofs Require Import PyFacts NumpyFacts VectorFacts SumFacts ComplexFacts ConvolveFacts PlacedFacts MergeOrder DftFacts MethodFacts FourierFacts RoundTripFacts FourierResults LevelFacts SweepFacts HarmonicFacts SignalAlgebra SignalHelpers CoverageFacts.
Import ListNotations.
Open Scope Z_scope.
Ltac Zify.zify_post_hook ::= idtac.

Section Levels.
Variables power modulo : R -> R -> R.
Variables cpower cmodulo : C -> C -> C.
Variable junk : Z -> Z -> R.
Variable vjunk : Z -> R.
Notation O := (real_ops power modulo).
Notation N := (real_numbers cpower cmodulo).
Notation M := real_functions.
Let O_ring : commutative_ring O := real_ring _ _.
Notation levels := (level_vs_time O N M junk vjunk).

(** ** The window *)

Definition corner (hf : R) (h : Z) : R := if Req_EM_T (IZR h - hf) 0 then 1%R else (IZR h - hf)%R.
(** The weight, which the code assigns to a sample with the distance [d] *)
Definition weight (hf : R) (h d : Z) : R := if Z.abs d <? h then 1%R else if Z.abs d =? h then corner hf h else 0%R.

Lemma val_repeat (x : R) n k : val O (zrepeat x n) k = if (0 <=? k) && (k <? n) then x else 0%R.
Proof. unfold val. rewrite zth_repeat. destruct (_ && _); reflexivity. Qed.

Lemma window_ok w hf h : 0 < h -> exists win, averaging_window O M w hf h = Ok win /\ zlen win = 1 + 2 * h /\
  forall j, val O win j = (weight hf h (j - h) / w)%R.
Proof.
  intros Hh. unfold averaging_window. cbn [o_eqb real_ops f_int M o_sub o_zero o_one o_div]. unfold weight, corner. destruct (Req_EM_T (IZR h - hf) 0) as [E|E].
  - eexists. split; [reflexivity|]. split; [rewrite zlen_repeat; lia|]. intros j. rewrite val_repeat.
    destruct ((0 <=? j) && (j <? 1 + 2 * h)) eqn:I.
    + destruct (Z.abs (j - h) <? h) eqn:I1; auto. replace (Z.abs (j - h) =? h) with true by lia. auto.
    + replace (Z.abs (j - h) <? h) with false by lia. replace (Z.abs (j - h) =? h) with false by lia. unfold Rdiv. ring.
  - set (z := zrepeat (1 / w)%R (1 + 2 * h)). assert (Lz : zlen z = 1 + 2 * h) by (unfold z; rewrite zlen_repeat; lia).
    destruct (vput_ok z 0 ((IZR h - hf) / w)%R) as (v & E1 & L1 & V1); [lia|]. rewrite E1. cbn [bind].
    assert (Eput : vput v (-1) ((IZR h - hf) / w)%R = vput v (zlen v - 1) ((IZR h - hf) / w)%R).
    { unfold vput. replace (-1 <? 0) with true by lia. replace (zlen v - 1 <? 0) with false by lia. now replace (-1 + zlen v) with (zlen v - 1) by lia. }
    rewrite Eput. destruct (vput_ok v (zlen v - 1) ((IZR h - hf) / w)%R) as (u & E2 & L2 & V2); [lia|]. rewrite E2. eexists. split; [reflexivity|].
    split; [lia|]. intros j. unfold val. rewrite V2, V1. rewrite L1, Lz. change (match (if j =? 0 then _ else zth z j) with Some x => x | None => _ end)
      with (match (if j =? 0 then Some ((IZR h - hf) / w)%R else zth z j) with Some x => x | None => 0%R end).
    destruct (j =? 1 + 2 * h - 1) eqn:I1.
    { replace (Z.abs (j - h) <? h) with false by lia. now replace (Z.abs (j - h) =? h) with true by lia. }
    destruct (j =? 0) eqn:I2.
    { replace (Z.abs (j - h) <? h) with false by lia. now replace (Z.abs (j - h) =? h) with true by lia. }
    unfold z. rewrite zth_repeat. destruct ((0 <=? j) && (j <? 1 + 2 * h)) eqn:I.
    + now replace (Z.abs (j - h) <? h) with true by lia.
    + replace (Z.abs (j - h) <? h) with false by lia. replace (Z.abs (j - h) =? h) with false by lia. unfold Rdiv. cbn. ring.
Qed.

(** ** The convolution with the window *)

(** The sum of the weighted squares around the sample number [i] *)
Definition weighted (x : list R) (hf : R) (h i : Z) : R := sumz RO 0 (zlen x) (fun k => at_R x k * at_R x k * weight hf h (k - i))%R.

Lemma weight_opp hf h d : weight hf h (- d) = weight hf h d.
Proof. unfold weight. now rewrite Z.abs_opp. Qed.

Lemma val_square (x : list R) k : val O (map (fun y => o_mul O y y) x) k = (at_R x k * at_R x k)%R.
Proof. unfold val, at_R. rewrite zth_map. destruct (zth x k); cbn; ring. Qed.

Lemma lin_weighted (x win : list R) w hf h i : (forall j, val O win j = weight hf h (j - h) / w)%R ->
  lin O (map (fun y => o_mul O y y) x) win (i + h) = (weighted x hf h i / w)%R.
Proof.
  intros V. unfold lin, weighted. rewrite zlen_map. unfold Rdiv. change (sumz O) with (sumz RO). change Rmult with (o_mul RO) at 1.
  rewrite <- (sumz_mul_r RO RO_ring). apply sumz_ext. intros k _. rewrite val_square, V. rewrite <- weight_opp. cbn. unfold Rdiv.
  replace (- (i + h - k - h)) with (k - i) by lia. ring.
Qed.

Lemma convolved_ok (x win : list R) w hf h : 0 < h -> 1 + h < zlen x -> zlen win = 1 + 2 * h -> (forall j, val O win j = weight hf h (j - h) / w)%R ->
  exists c, convolve O (map (fun y => o_mul O y y) x) win Same = Ok c /\ zlen c = Z.max (zlen x) (1 + 2 * h) /\
    forall i, 0 <= i < zlen x -> zth c (i + if zlen win <? zlen x then 0 else (zlen win + 1 - zlen x) / 2) = Some (weighted x hf h i / w)%R.
Proof.
  intros Hh Hx Lw V. destruct (convolve_ok O O_ring (map (fun y => o_mul O y y) x) win Same) as (c & E & L & Vc); try (rewrite ?zlen_map; lia).
  rewrite zlen_map, Lw in L, Vc. cbn [mode_length mode_start] in L, Vc. exists c. split; [exact E|]. split; [exact L|]. intros i Hi.
  assert (D : 0 <= i + (if zlen win <? zlen x then 0 else (zlen win + 1 - zlen x) / 2) < zlen c /\
    i + (if zlen win <? zlen x then 0 else (zlen win + 1 - zlen x) / 2) + (Z.min (zlen x) (1 + 2 * h) - 1) / 2 = i + h).
  { rewrite L, Lw. destruct (1 + 2 * h <? zlen x) eqn:C.
    - replace (Z.min (zlen x) (1 + 2 * h) - 1) with (h * 2) by lia. rewrite Z_div_mult by lia. lia.
    - replace (Z.min (zlen x) (1 + 2 * h)) with (zlen x) by lia. pose proof (Z.div_mod (1 + 2 * h + 1 - zlen x) 2 ltac:(lia)).
      pose proof (Z.mod_pos_bound (1 + 2 * h + 1 - zlen x) 2 ltac:(lia)). pose proof (Z.div_mod (zlen x - 1) 2 ltac:(lia)).
      pose proof (Z.mod_pos_bound (zlen x - 1) 2 ltac:(lia)). lia. }
  destruct D as [D1 D2]. rewrite Vc by exact D1. rewrite D2. f_equal. now apply lin_weighted.
Qed.

(** ** The correction *)

Definition effective (hf : R) (h n i : Z) : R := Rmin (IZR n) (1 + hf + IZR (Z.min i (n - 1 - i)))%R.

Lemma zth_effective hf h k : 0 <= k < h -> zth (effective_window_lengths O M hf h) k = Some (1 + hf + IZR k)%R.
Proof.
  intros K. unfold effective_window_lengths. cbn [o_add o_one real_ops f_int M]. rewrite (linspace_nth power modulo _ _ 1 h k); auto.
  - f_equal. ring.
  - rewrite minus_IZR. ring.
Qed.
Lemma zlen_effective hf h : 0 <= h -> zlen (effective_window_lengths O M hf h) = h.
Proof. intros. unfold effective_window_lengths. rewrite zlen_linspace; auto. Qed.

Lemma clip_ok (n : R) x : (0 <= x)%R -> clip O M n x = Rmin n x.
Proof.
  intros H. unfold clip. cbn [f_leb M o_zero real_ops]. rewrite (leb_true 0 x) by auto. unfold R_leb, Rmin. destruct (Rle_dec x n), (Rle_dec n x); lra.
Qed.

(** The samples in the middle of the array are uninitialised, if the window is exactly as long as the signal. *)
Lemma half_correction_ok w hf h n : (0 <= hf)%R -> 0 < h -> 1 + h < n -> n <= 1 + 2 * h ->
  exists v, half_correction O N M vjunk w hf h n = Ok v /\ zlen v = n /\
    forall i, 0 <= i < n -> zth v i = Some (sqrt (w / if Z.min i (n - 1 - i) <? h then effective hf h n i else clip O M (IZR n) (vjunk h))).
Proof.
  intros Hf Hh H1 H2. unfold half_correction. destruct (vector_ok vjunk n) as (v & E & L); [lia|].
  assert (Vv : forall i, 0 <= i < n -> zth v i = Some (vjunk i)).
  { intros i Hi. unfold vector in E. replace (n <? 0) with false in E by lia. injection E as <-. rewrite zth_map_zseq. replace (_ && _) with true by lia. reflexivity. }
  rewrite E. cbn [bind].
  destruct (vset_between v 0 h (effective_window_lengths O M hf h)) as (v1 & -> & L1 & V1); try (rewrite ?zlen_effective; lia). cbn [bind].
  pose proof (Z.div_mod (n + 1) 2 ltac:(lia)) as D1. pose proof (Z.mod_pos_bound (n + 1) 2 ltac:(lia)) as D1'.
  pose proof (Z.div_mod n 2 ltac:(lia)) as D2. pose proof (Z.mod_pos_bound n 2 ltac:(lia)) as D2'.
  set (p := (n + 1) / 2) in *. set (q := n / 2) in *. assert (PQ : p + q = n) by lia.
  match goal with |- context [vset v1 (between 0 p) ?s] => destruct (vset_between v1 0 p s) as (v2 & -> & L2 & V2) end; try lia.
  { rewrite !zlen_map, zlen_between; lia. }
  cbn [bind].
  match goal with |- context [vset v2 (between p n) ?s] => destruct (vset_between v2 p n s) as (v3 & -> & L3 & V3) end; try lia.
  { rewrite zlen_rev, zlen_between; lia. }
  eexists. split; [reflexivity|]. split; [lia|].
  assert (F : forall i, 0 <= i < p -> zth v2 i = Some (sqrt (w / if i <? h then effective hf h n i else clip O M (IZR n) (vjunk h)))).
  { intros i Hi. rewrite V2. replace (_ && _) with true by lia. rewrite !zth_map, zth_between by lia. replace (_ && _) with true by lia.
    rewrite Z.sub_0_r, Z.add_0_r, V1. destruct (i <? h) eqn:Ei.
    - replace (_ && _) with true by lia. rewrite Z.sub_0_r, zth_effective by lia. cbn [option_map]. f_equal. cbn [n_sqrt real_numbers]. f_equal.
      cbn [o_div real_ops]. f_equal. assert (0 <= i) by lia. apply (IZR_le 0) in H. rewrite clip_ok by lra.
      unfold effective. replace (Z.min i (n - 1 - i)) with i by lia. reflexivity.
    - replace (_ && _) with false by lia. rewrite Vv by lia. replace i with h by lia. reflexivity. }
  intros i Hi. rewrite V3. destruct ((p <=? i) && (i <? n)) eqn:Ei.
  - rewrite zth_rev, zlen_between by lia. rewrite zth_between by lia. replace (_ && _) with true by lia. rewrite F by lia. unfold effective.
    replace (q - 0 - 1 - (i - p) + 0) with (n - 1 - i) by lia. replace (Z.min i (n - 1 - i)) with (n - 1 - i) by lia.
    now replace (Z.min (n - 1 - i) (n - 1 - (n - 1 - i))) with (n - 1 - i) by lia.
  - rewrite F by lia. now replace (Z.min i (n - 1 - i)) with i by lia.
Qed.

(** [m[:, a:b] *= v] *)
Lemma scale_cols_ok (m : arr R) b (v : list R) l u : wf m -> lower b (cols m) = l -> upper b (cols m) = u -> zlen v = u - l ->
  exists m', ufunc2_into (o_mul O) (block m everything b) (Arr [v] (zlen v)) m everything b = Ok m' /\ wf m' /\ nrows m' = nrows m /\ cols m' = cols m /\
    forall i j, 0 <= i < nrows m -> 0 <= j < cols m ->
      el m' i j = if (l <=? j) && (j <? u) then match el m i j, zth v (j - l) with Some x, Some y => Some (x * y)%R | _, _ => None end else el m i j.
Proof.
  intros W Hl Hu Lv. pose proof (nrows_nonneg m) as Nm. pose proof (proj1 W) as Cm. pose proof (lower_range b _ Cm). pose proof (upper_range b _ Cm).
  pose proof (zlen_nonneg v).
  assert (Nb : nrows (block m everything b) = nrows m). { rewrite nrows_block. rewrite lower_everything, upper_everything by auto. lia. }
  assert (Cb : cols (block m everything b) = u - l). { cbn. lia. }
  destruct (ufunc2_into_ok (o_mul O) (block m everything b) (Arr [v] (zlen v)) m everything b) as (m' & E & W' & N' & C' & H').
  - now apply wf_block.
  - split; cbn; [lia|]. constructor; auto.
  - auto.
  - rewrite Nb, lower_everything, upper_everything by auto. left. lia.
  - rewrite Cb. left. lia.
  - right. reflexivity.
  - left. cbn. lia.
  - exists m'. split; [exact E|]. repeat (split; auto). intros i j Hi Hj. rewrite H', lower_everything, upper_everything, Hl, Hu by auto. rewrite Nb, Cb.
    replace ((0 <=? i) && (i <? nrows m) && (l <=? j) && (j <? u)) with ((l <=? j) && (j <? u)) by lia.
    destruct ((l <=? j) && (j <? u)) eqn:I; auto. rewrite el_block by auto. rewrite lower_everything, upper_everything, Hl, Hu by auto.
    replace (_ && _) with true by (destruct (nrows m =? 1) eqn:?, (u - l =? 1) eqn:?; lia).
    replace ((if nrows m =? 1 then 0 else i - 0) + 0) with i by (destruct (nrows m =? 1) eqn:?; lia).
    replace ((if u - l =? 1 then 0 else j - l) + l) with j by (destruct (u - l =? 1) eqn:?; lia).
    change (nrows (Arr [v] (zlen v))) with 1. change (1 =? 1) with true. cbv iota. cbn [cols]. unfold el at 2. change (zth (rows (Arr [v] (zlen v))) 0) with (Some v).
    cbv iota. replace (if zlen v =? 1 then 0 else j - l) with (j - l) by (destruct (zlen v =? 1) eqn:?; lia). reflexivity.
Qed.

(** [m *= v] *)
Lemma scale_all_ok (m : arr R) (v : list R) : wf m -> zlen v = cols m ->
  exists m', ufunc2_into (o_mul O) m (Arr [v] (zlen v)) m everything everything = Ok m' /\ wf m' /\ nrows m' = nrows m /\ cols m' = cols m /\
    forall i j, 0 <= i < nrows m -> 0 <= j < cols m ->
      el m' i j = match el m i j, zth v j with Some x, Some y => Some (x * y)%R | _, _ => None end.
Proof.
  intros W Lv. pose proof (nrows_nonneg m) as Nm. pose proof (proj1 W) as Cm.
  destruct (ufunc2_into_ok (o_mul O) m (Arr [v] (zlen v)) m everything everything) as (m' & E & W' & N' & C' & H'); auto;
    rewrite ?lower_everything, ?upper_everything by auto; try (left; cbn [cols]; lia).
  - split; cbn; [lia|]. constructor; auto.
  - exists m'. split; [exact E|]. repeat (split; auto). intros i j Hi Hj. rewrite H', !lower_everything, !upper_everything by auto.
    replace (_ && _) with true by lia. replace (if nrows m =? 1 then 0 else i - 0) with i by (destruct (nrows m =? 1) eqn:?; lia).
    replace (if cols m =? 1 then 0 else j - 0) with j by (destruct (cols m =? 1) eqn:?; lia).
    change (nrows (Arr [v] (zlen v))) with 1. change (1 =? 1) with true. cbv iota. cbn [cols]. unfold el at 2. change (zth (rows (Arr [v] (zlen v))) 0) with (Some v).
    cbv iota. replace (if zlen v =? 1 then 0 else j - 0) with j by (destruct (zlen v =? 1) eqn:?; lia). reflexivity.
Qed.

(** ** The method *)

Lemma has_el (m : arr R) n len F c i : has m n len F -> 0 <= c < n -> 0 <= i < len -> el m c i = Some (F c i).
Proof. intros (_ & _ & _ & H). apply H. Qed.

Section Signal.
Variable s : signal R.
Hypothesis Ws : wf_signal s.
Variable T : R.
Notation w := (T * sampling_rate s)%R.
Hypothesis Hw : (1 < w)%R.
Variable h : Z.
Notation hf := ((w - 1) / 2)%R.
Hypothesis Hh : (IZR h - 1 < hf <= IZR h)%R.
Notation n := (length s).
Notation x c := (rowv (channels s) c).

Lemma half_positive : 0 < h.
Proof. apply lt_IZR. lra. Qed.

Lemma ceil_half : f_ceil M hf = h.
Proof. cbn [f_ceil M real_functions]. apply ceil_ok. split; lra. Qed.

(** The correction factors *)
Definition factor (i : Z) : R :=
  if Z.min i (n - 1 - i) <? h then sqrt (w / effective hf h n i)
  else if 1 + 2 * h <? n then 1%R else sqrt (w / clip O M (IZR n) (vjunk h)).

Lemma frame_of (m : arr R) : wf m -> nrows m = count s -> cols m = n ->
  same_frame (mk_signal m (sampling_rate s) (offset s) (Some (labels s))) s.
Proof.
  intros W Nm Cm. split; [now apply mk_signal_wf|]. unfold begins, ends. cbn [sampling_rate offset mk_signal]. unfold count, length. cbn [channels mk_signal].
  split; [exact Nm|]. split; [auto|]. split; [fold n; lia|]. split; [auto|]. apply sanitize_same. rewrite Nm. apply Ws.
Qed.

Lemma short_rows (win : list R) : zlen win = 1 + 2 * h -> (forall j, val O win j = weight hf h (j - h) / w)%R -> 1 + h < n ->
  exists m, rows_of junk (count s) n
    (map (fun r => c <- convolve O r win Same ;;
      Ok (map (n_sqrt N) (if zlen win <? n then c else subseq (between ((zlen win + 1 - n) / 2) ((zlen win + 1 - n) / 2 + n)) c)))
      (rows (ufunc1 (fun y => o_mul O y y) (channels s)))) = Ok m /\ has m (count s) n (fun c i => sqrt (weighted (x c) hf h i / w)).
Proof.
  intros Lw V Hn. pose proof half_positive as Ph. destruct Ws as [Wc Wl].
  unfold count. rewrite <- (nrows_ufunc1 (fun y => o_mul O y y) (channels s)).
  apply map_rows_ok; [now apply ufunc1_wf|lia|]. intros c Hc. rewrite nrows_ufunc1 in Hc.
  assert (Er : rowv (ufunc1 (fun y => o_mul O y y) (channels s)) c = map (fun y => o_mul O y y) (x c)).
  { unfold rowv at 1, ufunc1. cbn [rows]. rewrite zth_map, rowv_zth by exact Hc. reflexivity. }
  rewrite Er. assert (Lx : zlen (x c) = n) by (apply zlen_rowv; auto).
  destruct (convolved_ok (x c) win w hf h) as (v & -> & Lv & Vv); auto; try lia. cbn [bind]. rewrite Lx in *. eexists. split; [reflexivity|].
  pose proof (Z.div_mod (zlen win + 1 - n) 2 ltac:(lia)). pose proof (Z.mod_pos_bound (zlen win + 1 - n) 2 ltac:(lia)).
  destruct (zlen win <? n) eqn:E.
  - rewrite zlen_map, Lv. split; [lia|]. intros k Hk. rewrite zth_map. specialize (Vv k Hk). rewrite Z.add_0_r in Vv. rewrite Vv. reflexivity.
  - rewrite zlen_map, zlen_between by lia. split; [lia|]. intros k Hk. rewrite zth_map, zth_between by lia. replace (_ && _) with true by lia.
    rewrite Vv by auto. reflexivity.
Qed.

Lemma long_ok pad : 1 + h < n -> exists r, levels s T pad = Ok r /\ same_frame r s /\
  forall c i, 0 <= c < count s -> 0 <= i < n ->
    el (channels r) c i = Some (sqrt (weighted (x c) hf h i / w) * if pad then 1 else factor i)%R.
Proof.
  intros Hn. pose proof half_positive as Ph. pose proof (nrows_nonneg (channels s)) as Nc. destruct Ws as [Wc Wl].
  assert (Hp : (0 <= hf)%R) by lra. assert (P0 : (0 < w)%R) by lra.
  unfold level_vs_time. cbn [f_leb M real_functions o_mul o_one real_ops o_sub o_div f_int]. rewrite (leb_false w 1) by auto.
  cbn [f_ceil]. change (- Int_part (- (hf)))%Z with (f_ceil M hf). rewrite ceil_half. cbv zeta.
  replace (n <=? 1 + h) with false by lia.
  match goal with |- exists r, bind ?e _ = _ /\ _ =>
    assert (X : exists m, e = Ok m /\ has m (count s) n (fun c i => sqrt (weighted (x c) hf h i / w) * if pad then 1 else factor i)%R) end.
  { destruct (window_ok w hf h Ph) as (win & -> & Lw & Vw). cbn [bind].
    destruct (short_rows win Lw Vw Hn) as (m & E & Hm). rewrite Lw in *. destruct (1 + 2 * h <? n) eqn:B.
    - destruct Hm as (Wm & Nm & Cm & Em). match goal with |- exists m, bind ?e _ = _ /\ _ => replace e with (Ok m) end. cbn [bind]. destruct pad.
      + exists m. split; auto. split; [|split; [|split]]; auto. intros c i Hc Hi. rewrite Em by auto. f_equal. ring.
      + set (correction := map _ (effective_window_lengths O M hf h)).
        assert (Lc : zlen correction = h) by (unfold correction; rewrite zlen_map, zlen_effective; lia).
        destruct (scale_cols_ok m (between 0 h) correction 0 h) as (m1 & E1 & W1 & N1 & C1 & V1); auto; try lia.
        { apply lower_between. lia. } { apply upper_between; lia. }
        cbn [o_mul real_ops] in E1. rewrite E1. cbn [bind].
        destruct (scale_cols_ok m1 (from (- h)) (rev correction) (n - h) n) as (m2 & E2 & W2 & N2 & C2 & V2); auto; try (rewrite ?zlen_rev; lia).
        { rewrite lower_negative; lia. } { rewrite upper_negative_from; lia. }
        cbn [o_mul real_ops] in E2. rewrite zlen_rev in E2. rewrite E2. exists m2. split; auto. split; auto. split; [lia|]. split; [lia|].
        intros c i Hc Hi. rewrite V2, V1, Em by lia.
        assert (Fc : forall k, 0 <= k < h -> zth correction k = Some (sqrt (w / (1 + hf + IZR k)))).
        { intros k Hk. unfold correction. rewrite zth_map, zth_effective by auto. reflexivity. }
        assert (Fe : forall k, 0 <= k < h -> Rmin (IZR n) (1 + hf + IZR k) = (1 + hf + IZR k)%R).
        { intros k Hk. apply Rmin_right. assert (A : 1 + 2 * h <= n - 1) by lia. apply IZR_le in A. rewrite plus_IZR, mult_IZR, minus_IZR in A.
          assert (Bk : k <= h - 1) by lia. apply IZR_le in Bk. rewrite minus_IZR in Bk. lra. }
        unfold factor, effective. destruct ((0 <=? i) && (i <? h)) eqn:I1.
        * replace ((n - h <=? i) && (i <? n)) with false by lia. rewrite Z.sub_0_r, Fc by lia. replace (Z.min i (n - 1 - i)) with i by lia.
          replace (i <? h) with true by lia. now rewrite Fe by lia.
        * destruct ((n - h <=? i) && (i <? n)) eqn:I2.
          -- rewrite zth_rev, Lc, Fc by lia. replace (Z.min i (n - 1 - i)) with (n - 1 - i) by lia. replace (n - 1 - i <? h) with true by lia.
             rewrite Fe by lia. replace (h - 1 - (i - (n - h))) with (n - 1 - i) by lia. reflexivity.
          -- replace (Z.min i (n - 1 - i) <? h) with false by lia. rewrite B. f_equal. ring.
    - destruct Hm as (Wm & Nm & Cm & Em). match goal with |- exists m, bind ?e _ = _ /\ _ => replace e with (Ok m) end. cbn [bind]. destruct pad.
      + exists m. split; auto. split; [|split; [|split]]; auto. intros c i Hc Hi. rewrite Em by auto. f_equal. ring.
      + destruct (half_correction_ok w hf h n) as (v & -> & Lv & Vv); auto; try lia. cbn [bind].
        destruct (scale_all_ok m v) as (m1 & E1 & W1 & N1 & C1 & V1); auto; try lia. cbn [o_mul real_ops] in E1. rewrite E1.
        exists m1. split; auto. split; auto. split; [lia|]. split; [lia|]. intros c i Hc Hi. rewrite V1, Em, Vv by lia. unfold factor. rewrite B.
        destruct (_ <? h); reflexivity. }
  destruct X as (m & -> & Wm & Nm & Cm & Em). cbn [bind]. eexists. split; [reflexivity|]. split; [now apply frame_of|]. exact Em.
Qed.


(** The signal is shorter than half the window *)
Lemma covered_ok pad : n <= 1 + h -> exists r, levels s T pad = Ok r /\ same_frame r s /\
  forall c i, 0 <= c < count s -> 0 <= i < n ->
    el (channels r) c i = Some (sqrt (sumz RO 0 n (fun k => at_R (x c) k * at_R (x c) k)%R / if pad then w else IZR n)).
Proof.
  intros Hn. pose proof half_positive as Ph. pose proof (nrows_nonneg (channels s)) as Nc. destruct Ws as [Wc Wl]. pose proof (proj1 Wc) as Cn. fold n in Cn.
  unfold level_vs_time. cbn [f_leb M real_functions o_mul o_one real_ops o_sub o_div f_int]. rewrite (leb_false w 1) by auto.
  cbn [f_ceil]. change (- Int_part (- (hf)))%Z with (f_ceil M hf). rewrite ceil_half. cbv zeta.
  replace (n <=? 1 + h) with true by lia.
  set (levels := if pad then _ else _). set (F := fun c : Z => sqrt (sumz RO 0 n (fun k => at_R (x c) k * at_R (x c) k)%R / if pad then w else IZR n)).
  assert (L : zlen levels = count s) by (unfold levels; destruct pad; apply zlen_map).
  assert (V : 0 < n -> forall c, 0 <= c < count s -> zth levels c = Some (F c)).
  { intros Pn c Hc. assert (Lx : zlen (x c) = n) by (apply zlen_rowv; auto). assert (Q : sumz RO 0 n (fun k => at_R (x c) k * at_R (x c) k)%R = square_sum O (x c)).
    { rewrite square_sum_ok, Lx. reflexivity. }
    unfold levels, F. rewrite Q. destruct pad.
    - rewrite zth_map, rowv_zth by exact Hc. cbn [option_map n_sqrt real_numbers]. f_equal. symmetry. apply sqrt_div; [apply square_sum_nonneg|lra].
    - destruct (signal_level_ok power modulo cpower cmodulo s Ws Pn) as [_ Vl]. rewrite Vl by auto. f_equal. f_equal. now apply mean_square_row. }
  destruct (rows_of_ok junk (map (fun l => Ok (zrepeat l n)) levels) (count s) n (fun c _ => F c)) as (m & -> & Wm & Nm & Cm & Em); auto.
  - now rewrite zlen_map.
  - intros c y Hy. rewrite zth_map in Hy. destruct (zth levels c) as [l|] eqn:E; cbn in Hy; [|discriminate]. injection Hy as <-.
    eexists. split; [reflexivity|]. split; [rewrite zlen_repeat; lia|]. intros k Hk. rewrite zth_repeat. replace (_ && _) with true by lia.
    rewrite <- V, E; auto; [lia|]. rewrite <- L. eapply zth_range; eauto.
  - cbn [bind]. eexists. split; [reflexivity|]. split; [now apply frame_of|]. intros c i Hc Hi. now rewrite Em by auto.
Qed.

End Signal.

(** ** The specification *)

Lemma sumz_ones m : 0 <= m -> sumz RO 0 m (fun _ => 1%R) = IZR m.
Proof.
  intros H. pattern m. apply count_ind; [reflexivity| |exact H]. intros k Hk IH. rewrite (sumz_snoc RO RO_ring) by lia.
  replace (k + 1 - 1) with k by lia. rewrite IH, plus_IZR. reflexivity.
Qed.

Lemma integral_ok s w c i : wf_signal s -> 0 <= c < count s ->
  integral_of_squares s w c (offset s + i) =
  sumz RO 0 (length s) (fun k => at_R (rowv (channels s) c) k * at_R (rowv (channels s) c) k * coverage w (k - i))%R.
Proof.
  intros W Hc. unfold integral_of_squares. rewrite sum_over_time_sum. apply sumz_ext. intros k _. rewrite !sample_row by auto. do 2 f_equal. lia.
Qed.

Lemma covered_time_ok s w i : covered_time s w (offset s + i) = sumz RO 0 (length s) (fun k => coverage w (k - i)).
Proof. unfold covered_time. rewrite sum_over_time_sum. apply sumz_ext. intros k _. f_equal. lia. Qed.

Lemma integral_nonneg s w c t : (0 <= integral_of_squares s w c t)%R.
Proof.
  unfold integral_of_squares. rewrite sum_over_time_sum. unfold sumz. induction (zseq 0 (length s)) as [|k l IH]; cbn; [lra|].
  pose proof (coverage_nonneg w (offset s + k - t)). apply Rplus_le_le_0_compat; [|exact IH]. apply Rmult_le_pos; auto. apply Rle_0_sqr.
Qed.

(** Windows with an integer length *)
Lemma weight_integer W h d : 2 <= W -> (IZR h - 1 < (IZR W - 1) / 2 <= IZR h)%R -> weight ((IZR W - 1) / 2) h d = coverage (IZR W) d.
Proof.
  intros HW Hh. assert (P : (1 < IZR W)%R) by (apply (IZR_lt 1); lia).
  assert (E : coverage (IZR W) d = coverage (IZR W) (Z.abs d)). { destruct (Z.abs_spec d) as [[_ ->]|[_ ->]]; auto. now rewrite coverage_opp. }
  rewrite E, coverage_pos by (auto; lia). unfold weight.
  assert (B : W <= 2 * h + 1 /\ 2 * h <= W).
  { destruct Hh as [H1 H2]. split.
    - apply le_IZR. rewrite plus_IZR, mult_IZR. lra.
    - assert (2 * h - 2 < W - 1)%Z by (apply lt_IZR; rewrite !minus_IZR, mult_IZR; lra). lia. }
  set (e := Z.abs d). destruct (e <? h) eqn:E1.
  - assert (L : e <= h - 1) by lia. apply IZR_le in L. rewrite minus_IZR in L. unfold Rmax, Rmin. repeat destruct (Rle_dec _ _); lra.
  - destruct (e =? h) eqn:E2.
    + replace e with h by lia. unfold corner. assert (D : W = 2 * h + 1 \/ W = 2 * h) by lia.
      destruct D as [-> | ->]; rewrite ?plus_IZR, mult_IZR; destruct (Req_EM_T _ _); unfold Rmax, Rmin; repeat destruct (Rle_dec _ _); lra.
    + assert (L : h + 1 <= e) by lia. apply IZR_le in L. rewrite plus_IZR in L. unfold Rmax, Rmin. repeat destruct (Rle_dec _ _); lra.
Qed.

(** The ceiling *)
Lemma ceiling_exists x : exists h, (IZR h - 1 < x <= IZR h)%R.
Proof. exists (- Int_part (- x)). destruct (base_Int_part (- x)) as [B1 B2]. rewrite opp_IZR. lra. Qed.

Lemma level_vs_time_ok s T pad : wf_signal s -> let w := (T * sampling_rate s)%R in (0 < w)%R ->
  ((w <= 1)%R \/ (exists W, w = IZR W) \/ (2 * IZR (length s) <= w + 1)%R) ->
  (forall k, w = (2 * IZR k)%R -> length s <> k + 1) ->
  (pad = false -> forall k, 1 <= k -> w = (2 * IZR k)%R \/ w = (2 * IZR k + 1)%R -> length s <> 2 * k + 1) ->
  exists r, levels s T pad = Ok r /\ is_level_vs_time r s w pad.
Proof.
  intros Ws w Pw Hc X1 X2. destruct (Rle_or_lt w 1) as [Sw|Lw].
  - (* the absolute values *)
    exists (signal_abs O s). split.
    { unfold level_vs_time. cbn [f_leb M real_functions o_mul o_one real_ops]. fold w. now rewrite (leb_true w 1) by auto. }
    destruct (signal_unary O s Ws (signal_abs O s) (o_abs O)) as (W & R1 & R2 & R3 & R4 & R5 & R6); auto.
    split; [exact (conj W (conj R3 (conj R4 (conj R5 (conj R1 R2)))))|].
    intros c t Hc' Ht. rewrite R6. unfold begins, ends in Ht. set (i := t - offset s). replace t with (offset s + i) by (unfold i; lia).
    unfold squared_level. rewrite integral_ok, covered_time_ok by auto.
    assert (Hi : 0 <= i < length s) by (unfold i; lia). unfold at_time. replace (offset s + i - offset s) with i by lia.
    rewrite el_rowv by exact Hc'. assert (Lx : zlen (rowv (channels s) c) = length s) by (apply zlen_rowv; [apply Ws|exact Hc']).
    rewrite zth_at_R by lia. cbn [option_map o_abs real_ops]. f_equal.
    rewrite (sumz_single RO RO_ring 0 (length s) i) by (auto; intros k _ Hk; rewrite coverage_short by lra; replace (k - i =? 0) with false by lia; cbn; ring).
    rewrite (sumz_single RO RO_ring 0 (length s) i) by (auto; intros k _ Hk; rewrite coverage_short by lra; replace (k - i =? 0) with false by lia; cbn; ring).
    rewrite coverage_short by lra. replace (i - i =? 0) with true by lia. symmetry. rewrite <- sqrt_Rsqr_abs. f_equal. unfold Rsqr. destruct pad; field; lra.
  - destruct (ceiling_exists ((w - 1) / 2)) as (h & Hh). assert (Ph : 0 < h) by (apply lt_IZR; lra).
    assert (D : (IZR (length s) - 1 <= (w - 1) / 2)%R \/ (1 + h < length s /\ exists W, w = IZR W)).
    { destruct Hc as [Hc|[(W & HW)|Hc]]; [lra| |left; lra]. destruct (Z_lt_ge_dec (1 + h) (length s)) as [L|L]; [right; eauto|]. left.
      assert (B : W <= 2 * h + 1 /\ 2 * h <= W).
      { destruct Hh as [H1 H2]. rewrite HW in H1, H2. split.
        - apply le_IZR. rewrite plus_IZR, mult_IZR. lra.
        - assert (2 * h - 2 < W - 1)%Z by (apply lt_IZR; rewrite !minus_IZR, mult_IZR; lra). lia. }
      assert (D : W = 2 * h + 1 \/ W = 2 * h) by lia. destruct D as [D|D].
      - rewrite HW, D, plus_IZR, mult_IZR. assert (length s <= h + 1) by lia. apply IZR_le in H. rewrite plus_IZR in H. lra.
      - assert (length s <> h + 1). { apply X1. rewrite HW, D, mult_IZR. auto. } assert (length s <= h) by lia. apply IZR_le in H0.
        rewrite HW, D, mult_IZR. lra. }
    destruct D as [D|[D (W & HW)]].
    + destruct (covered_ok s Ws T Lw h Hh pad) as (r & E & F & V).
      { assert (IZR (length s) <= IZR (1 + h))%R by (rewrite plus_IZR; lra). now apply le_IZR. }
      exists r. split; [exact E|]. split; [exact F|]. intros c t Hc' Ht. unfold at_time. destruct F as (_ & _ & F & _). unfold begins in F. rewrite F.
      unfold begins, ends in Ht. set (i := t - offset s). replace t with (offset s + i) by (unfold i; lia). assert (Hi : 0 <= i < length s) by (unfold i; lia).
      rewrite V by auto. f_equal. f_equal. unfold squared_level. rewrite integral_ok, covered_time_ok by auto.
      assert (I : forall k, 0 <= k < length s -> coverage w (k - i) = 1%R).
      { intros k Hk. apply coverage_inside; auto. assert (B : Z.abs (k - i) <= length s - 1) by lia. apply IZR_le in B. rewrite minus_IZR in B. lra. }
      f_equal; [apply sumz_ext; intros k Hk; rewrite I by lia; ring|]. destruct pad; auto. f_equal.
      rewrite (sumz_ext RO 0 (length s) _ (fun _ => 1%R)) by (intros k Hk; apply I; lia).
      symmetry. apply (sumz_ones (length s)). lia.
    + destruct (long_ok s Ws T Lw h Hh pad D) as (r & E & F & V).
      exists r. split; [exact E|]. split; [exact F|]. intros c t Hc' Ht. unfold at_time. destruct F as (_ & _ & F & _). unfold begins in F. rewrite F.
      unfold begins, ends in Ht. set (i := t - offset s). replace t with (offset s + i) by (unfold i; lia). assert (Hi : 0 <= i < length s) by (unfold i; lia).
      rewrite V by auto. f_equal.
      assert (Lx : zlen (rowv (channels s) c) = length s) by (apply zlen_rowv; [apply Ws|exact Hc']).
      assert (EI : weighted (rowv (channels s) c) ((w - 1) / 2) h i = integral_of_squares s w c (offset s + i)).
      { rewrite integral_ok by auto. unfold weighted. rewrite Lx. apply sumz_ext. intros k _. rewrite HW in *. rewrite weight_integer; auto.
        assert (1 < W)%Z by (apply lt_IZR; lra). lia. }
      fold w. rewrite EI. unfold squared_level. destruct pad; [ring|].
      assert (EE : covered_time s w (offset s + i) = if Z.min i (length s - 1 - i) <? h then effective ((w - 1) / 2) h (length s) i else w).
      { rewrite covered_time_ok. now apply sum_coverage_effective. }
      assert (Pe : (0 < covered_time s w (offset s + i))%R). { rewrite covered_time_ok. now apply sum_coverage_positive. }
      pose proof (integral_nonneg s w c (offset s + i)) as Pi.
      assert (EF : factor s T h i = sqrt (w / covered_time s w (offset s + i))).
      { unfold factor. fold w. rewrite EE. destruct (_ <? h) eqn:Em; auto. destruct (1 + 2 * h <? length s) eqn:B.
        - replace (w / w)%R with 1%R by (field; lra). symmetry. apply sqrt_1.
        - exfalso. apply (X2 eq_refl h); [lia| |lia].
          assert (Q : W <= 2 * h + 1 /\ 2 * h <= W).
          { destruct Hh as [H1 H2]. rewrite HW in H1, H2. split.
            - apply le_IZR. rewrite plus_IZR, mult_IZR. lra.
            - assert (2 * h - 2 < W - 1)%Z by (apply lt_IZR; rewrite !minus_IZR, mult_IZR; lra). lia. }
          assert (D' : W = 2 * h + 1 \/ W = 2 * h) by lia. rewrite HW. destruct D' as [-> | ->]; [right|left]; rewrite ?plus_IZR, mult_IZR; auto. }
      rewrite EF, <- sqrt_mult_alt. { f_equal. field. split; lra. } apply Rmult_le_pos; auto. apply Rlt_le, Rinv_0_lt_compat. lra.
Qed.

End Levels.
