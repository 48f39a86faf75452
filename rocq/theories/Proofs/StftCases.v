(** The short time Fourier transform with the default window, and cases, in which the transform or its inverse is not as documented. *)

From Coq Require Import String ZArith QArith List Bool Lia ZifyBool Reals Lra Field.
From Verif.Model Require Import Py Numpy Vector Functions Signal Spectrum Fft Fourier Cube Spectrogram Windows Sweeps Stft.
From Verif.Spec Require Import TimeSpec RealSpec ConvolutionSpec ComplexSpec DftSpec FourierSpec BlockSpec SpectrogramSpec SweepSpec WindowSpec StftSpec.
From Verif.Proofs Require Import PyFacts NumpyFacts SignalAlgebra SumFacts ComplexFacts DftFacts FourierFacts LevelFacts BlockCases WindowShapes WindowMeasures WindowResults CubeFacts StftFacts StftResults.
From Verif.Model Require Import Cube.
Import ListNotations.
Open Scope Z_scope.
Ltac Zify.zify_post_hook ::= idtac.

Section Cases.
Variables power modulo : R -> R -> R.
Variables cpower cmodulo : C -> C -> C.
Variable junk : Z -> Z -> R.
Variable cjunk : Z -> Z -> Z -> C.
Notation O := (real_ops power modulo).
Notation N := (real_numbers cpower cmodulo).
Notation stft := (short_time_fourier_transform O real_transforms N cjunk).
Notation istft := (inverse_short_time_fourier_transform O real_transforms N R_leb junk).
Notation sumR := (sumz RO).

(** ** The round trip *)

Lemma size_padded s w step : 0 < step <= length w -> length w <= length s ->
  length s <= length w + (segment_count s w step true - 1) * step - 2 * lead w true < length s + step.
Proof.
  intros Hs Hl. unfold segment_count, lead. set (n := length w) in *. set (l := length s) in *.
  assert (H2 : 0 <= n / 2) by (apply Z.div_pos; lia). replace (l + 2 * (n / 2) - n + step - 1) with (l + 2 * (n / 2) - n + step - 1) by lia.
  set (d := l + 2 * (n / 2) - n). pose proof (Z.div_mod (d + step - 1) step ltac:(lia)) as E. pose proof (Z.mod_pos_bound (d + step - 1) step ltac:(lia)) as B.
  set (k := (d + step - 1) / step) in *. replace (k + 1 - 1) with k by lia. unfold d in *. lia.
Qed.

Lemma size_unpadded s w step : 0 < step <= length w -> length w <= length s ->
  length s - step < length w + (segment_count s w step false - 1) * step - 2 * lead w false <= length s.
Proof.
  intros Hs Hl. unfold segment_count, lead. set (n := length w) in *. set (l := length s) in *.
  pose proof (Z.div_mod (l - n) step ltac:(lia)) as E. pose proof (Z.mod_pos_bound (l - n) step ltac:(lia)) as B.
  set (k := (l - n) / step) in *. lia.
Qed.

Lemma sample_in s c t : wf_signal s -> 0 <= c < count s -> begins s <= t < ends s -> at_time s c t = Some (sample s c t).
Proof.
  intros [W _] Hc Ht. unfold sample, at_time. destruct (el_in (channels s) c (t - offset s)) as [x E]; auto.
  - unfold begins, ends, length in Ht. lia.
  - now rewrite E.
Qed.

Lemma sample_zero s c t : wf_signal s -> ~ begins s <= t < ends s -> sample s c t = 0%R.
Proof.
  intros [W _] Ht. unfold sample, at_time. rewrite el_out; auto. unfold begins, ends, length in Ht. lia.
Qed.

Section RoundTrip.
Variables s w : signal R.
Variable overlap : num.
Variable step : Z.
Hypothesis Ws : wf_signal s.
Hypothesis Ww : wf_signal w.
Hypothesis Cs : 0 < count s.
Hypothesis Cw : 0 < count w.
Hypothesis Hc : count w = 1 \/ count s <= count w.
Hypothesis Ho : index overlap (length w) = Ok (length w - step).
Hypothesis Hs : 0 < step <= length w.
Hypothesis Hl : length w <= length s.
Hypothesis Hr : sampling_rate s <> 0%R.
Hypothesis Hb : begins s mod step = 0.
Hypothesis Hp : forall c, 0 <= c < count s -> (0 < window_sum w c)%R.

Lemma round_trip_ok : 2 <= length w ->
  (forall c t, 0 <= c < count s -> begins s <= t < ends s -> (1 / 10000000000 < window_energy s w step true c t)%R) ->
  exists g r, stft s w overlap true = Ok g /\ istft g w overlap true = Ok r /\ wf_signal r /\ count r = count s /\ labels r = labels s /\
    sampling_rate r = sampling_rate s /\ begins r = begins s /\ ends s <= ends r < ends s + step /\
    forall c t, 0 <= c < count s -> (begins s <= t < ends s -> at_time r c t = at_time s c t) /\ (ends s <= t < ends r -> at_time r c t = Some 0%R).
Proof.
  intros H2 En. destruct (inverse_ok power modulo cpower cmodulo junk cjunk s w overlap step true Ws Ww Cs Cw Hc Ho Hs Hl Hr Hb (fun _ => H2) Hp)
    as (g & r & Eg & Er & Wr & Cr & Lr & Rr & Br & Zr & V).
  exists g, r. split; [exact Eg|]. split; [exact Er|]. split; [exact Wr|]. split; [exact Cr|]. split; [exact Lr|]. split; [exact Rr|]. split; [exact Br|].
  pose proof (size_padded s w step Hs Hl) as Sz. rewrite <- Zr in *. unfold begins, ends in *.
  split; [lia|]. intros c t H. split; intros Ht.
  - rewrite V; [|auto|lia|intros _; apply En; auto]. symmetry. apply sample_in; unfold begins, ends; auto.
  - rewrite V; [|auto|lia|].
    + rewrite sample_zero; auto. unfold begins, ends. lia.
    + intros X. exfalso. apply X. apply sample_zero; auto. unfold begins, ends. lia.
Qed.

Lemma round_trip_unpadded :
  exists g r, stft s w overlap false = Ok g /\ istft g w overlap false = Ok r /\ wf_signal r /\ count r = count s /\ labels r = labels s /\
    sampling_rate r = sampling_rate s /\ begins r = begins s /\ ends s - step < ends r <= ends s /\
    forall c t, 0 <= c < count s -> begins r <= t < ends r -> (1 / 10000000000 < window_energy s w step false c t)%R -> at_time r c t = at_time s c t.
Proof.
  destruct (inverse_ok power modulo cpower cmodulo junk cjunk s w overlap step false Ws Ww Cs Cw Hc Ho Hs Hl Hr Hb) as (g & r & Eg & Er & Wr & Cr & Lr & Rr & Br & Zr & V);
    [discriminate|exact Hp|].
  exists g, r. split; [exact Eg|]. split; [exact Er|]. split; [exact Wr|]. split; [exact Cr|]. split; [exact Lr|]. split; [exact Rr|]. split; [exact Br|].
  pose proof (size_unpadded s w step Hs Hl) as Sz. rewrite <- Zr in *. unfold begins, ends in *.
  split; [lia|]. intros c t H Ht En. rewrite V; auto; [|lia]. symmetry. apply sample_in; unfold begins, ends; auto. lia.
Qed.
End RoundTrip.

(** The channels of the window are everything that matters for the inverse transform. *)
Lemma istft_window g w w' overlap pad : channels w = channels w' -> istft g w overlap pad = istft g w' overlap pad.
Proof. intros E. unfold inverse_short_time_fourier_transform, length. now rewrite E. Qed.

(** ** The default window *)

Lemma sum_at_least lo n f i : lo <= i < lo + n -> (forall k, lo <= k < lo + n -> (0 <= f k)%R) -> (f i <= sumR lo n f)%R.
Proof.
  intros Hi P. assert (G : forall lo n, (forall k, lo <= k < lo + n -> (0 <= f k)%R) -> (0 <= sumR lo n f)%R).
  { clear. intros lo n P. destruct (Z_le_gt_dec n 0) as [H|H]; [rewrite sumz_nil by lia; change (o_zero RO) with 0%R; lra|].
    assert (Hn : 0 <= n) by lia. clear H. revert lo P. pattern n. apply count_ind; [| |exact Hn].
    - intros lo _. rewrite sumz_nil by lia. change (o_zero RO) with 0%R. lra.
    - intros m Hm IH lo P. rewrite sumz_cons by lia. replace (m + 1 - 1) with m by lia. change (o_add RO) with Rplus.
      pose proof (P lo ltac:(lia)). pose proof (IH (lo + 1) ltac:(intros; apply P; lia)). lra. }
  replace n with ((i - lo) + (1 + (n - 1 - (i - lo)))) by lia. rewrite !(sumz_app RO (real_ring _ _)) by lia. rewrite (sumz_one RO (real_ring _ _)).
  replace (lo + (i - lo)) with i by lia. change (o_add RO) with Rplus.
  pose proof (G lo (i - lo) ltac:(intros; apply P; lia)). pose proof (G (i + 1) (n - 1 - (i - lo)) ltac:(intros; apply P; lia)). lra.
Qed.

Lemma sum_two lo n f i : lo <= i -> i + 1 < lo + n -> (forall k, lo <= k < lo + n -> (0 <= f k)%R) -> (f i + f (i + 1)%Z <= sumR lo n f)%R.
Proof.
  intros H1 H2 P. replace n with ((i + 1 - lo) + (n - (i + 1 - lo))) by lia. rewrite (sumz_app RO (real_ring _ _)) by lia. change (o_add RO) with Rplus.
  apply Rplus_le_compat; apply sum_at_least; try lia; intros; apply P; lia.
Qed.

Lemma hann_squares x : (1/2 <= shape HannWindow x * shape HannWindow x + shape HannWindow (x + 1/2) * shape HannWindow (x + 1/2))%R.
Proof.
  cbn [shape]. replace (2 * PI * (x + 1/2))%R with (2 * PI * x + PI)%R by lra. rewrite neg_cos. pose proof (Rle_0_sqr (cos (2 * PI * x))) as H. unfold Rsqr in H.
  set (y := cos (2 * PI * x)) in *. clearbody y. nra.
Qed.

Lemma hann_nonneg x : (0 <= shape HannWindow x)%R.
Proof. cbn [shape]. pose proof (COS_bound (2 * PI * x)). lra. Qed.

Section Default.
Variable wjunk : Z -> R.
Variable s : signal R.
Variable L : Z.
Hypothesis Ws : wf_signal s.
Hypothesis Cs : 0 < count s.
Hypothesis Hr : sampling_rate s <> 0%R.
Hypothesis HL : 0 < L <= length s.
Hypothesis Ev : L mod 2 = 0.
Hypothesis Hb : begins s mod (L / 2) = 0.
Notation get := (real_get_window power modulo wjunk (WLength L) (NFloat (1 # 2)) false).

Lemma hann_window_at w : wf_signal w -> count w = 1 -> begins w = 0 -> length w = L ->
  (forall t, 0 <= t < L -> at_time w 0 t = Some (shape HannWindow (IZR t / IZR L))) ->
  forall c i, window_at w c i = if (0 <=? i) && (i <? L) then shape HannWindow (IZR i / IZR L) else 0%R.
Proof.
  intros Ww Cw Bw Lw V c i. replace (window_at w c i) with (window_at w 0 i) by (unfold window_at; rewrite Cw; reflexivity).
  rewrite window_at_time by auto. destruct ((0 <=? i) && (i <? L)) eqn:E; [rewrite V by lia; reflexivity|].
  unfold at_time. rewrite el_out; auto; [apply Ww|]. unfold begins, length in *. lia.
Qed.

Lemma default_ok : exists w g w' r, get (sampling_rate s) = Ok w /\ stft s w (NFloat (1 # 2)) true = Ok g /\
  get (sg_rate g) = Ok w' /\ istft g w' (NFloat (1 # 2)) true = Ok r /\
  wf_signal r /\ count r = count s /\ labels r = labels s /\ sampling_rate r = sampling_rate s /\ begins r = begins s /\ ends s <= ends r < ends s + L / 2 /\
  forall c t, 0 <= c < count s -> (begins s <= t < ends s -> at_time r c t = at_time s c t) /\ (ends s <= t < ends r -> at_time r c t = Some 0%R).
Proof.
  pose proof (Z.div_mod L 2 ltac:(lia)) as D. set (h := L / 2) in *. assert (EL : L = 2 * h) by lia.
  destruct (periodic_window_ok power modulo wjunk HannWindow (sampling_rate s) L) as (w & Ew & Ww & Cw & Bw & Lw & Rw & _ & V); [lia|].
  assert (At := hann_window_at w Ww Cw Bw Lw V).
  assert (L0 : (0 < IZR L)%R) by (apply (IZR_lt 0); lia).
  assert (Nn : forall c i, (0 <= window_at w c i)%R). { intros c i. rewrite At. destruct (_ && _); [apply hann_nonneg|lra]. }
  assert (Sum : forall c, 0 <= c < count s -> (0 < window_sum w c)%R).
  { intros c _. unfold window_sum. change (Rsum_list (zseq 0 (length w)) ?f) with (sumR 0 (length w) f).
    assert (H : (window_at w c h <= sumR 0 (length w) (window_at w c))%R) by (apply sum_at_least; [lia|intros; apply Nn]).
    rewrite At in H. replace ((0 <=? h) && (h <? L)) with true in H by lia. cbn [shape] in H.
    replace (2 * PI * (IZR h / IZR L))%R with PI in H by (rewrite EL, mult_IZR; field; apply (not_0_IZR h); lia). rewrite cos_PI in H. lra. }
  assert (En : forall c t, 0 <= c < count s -> begins s <= t < ends s -> (1 / 10000000000 < window_energy s w h true c t)%R).
  { intros c t _ Ht. unfold window_energy, lead. rewrite Lw. fold h.
    set (q := segment_count s w h true). set (b := begins s / h).
    assert (Eb : begins s = b * h). { unfold b. pose proof (Z.div_mod (begins s) h ltac:(lia)). lia. }
    change (Rsum_list (zseq b q) ?f) with (sumR b q f).
    set (p := t / h). pose proof (Z.div_mod t h ltac:(lia)) as Dt. pose proof (Z.mod_pos_bound t h ltac:(lia)) as Bt. fold p in Dt.
    assert (P1 : b <= p) by (apply Z.div_le_mono; lia).
    assert (P2 : p + 1 < b + q).
    { unfold q, segment_count. rewrite Lw. fold h. pose proof (Z.div_mod (length s + 2 * h - L + h - 1) h ltac:(lia)) as D2.
      pose proof (Z.mod_pos_bound (length s + 2 * h - L + h - 1) h ltac:(lia)) as B2. set (z := (length s + 2 * h - L + h - 1) / h) in *.
      unfold ends, begins in *. assert (p * h < b * h + z * h) by nia. nia. }
    eapply Rlt_le_trans; [|apply (sum_two b q _ p); [lia|lia|intros; apply Rmult_le_pos; apply Nn]].
    cbv beta. rewrite !At. replace (t - (p * h - h)) with (t mod h + h) by lia. replace (t - ((p + 1) * h - h)) with (t mod h) by lia.
    replace ((0 <=? t mod h + h) && (t mod h + h <? L)) with true by lia. replace ((0 <=? t mod h) && (t mod h <? L)) with true by lia.
    pose proof (hann_squares (IZR (t mod h) / IZR L)) as Q.
    replace (IZR (t mod h) / IZR L + 1 / 2)%R with (IZR (t mod h + h) / IZR L)%R in Q.
    - lra.
    - rewrite EL, mult_IZR, plus_IZR. field. apply (not_0_IZR h). lia. }
  destruct (round_trip_ok s w (NFloat (1 # 2)) h) as (g & r & Eg & Er & Rest); auto; try lia.
  { rewrite Lw, half_index by lia. f_equal. lia. }
  destruct (periodic_window_ok power modulo wjunk HannWindow (sg_rate g) L) as (w' & Ew' & Ww' & Cw' & Bw' & Lw' & Rw' & _ & V'); [lia|].
  exists w, g, w', r. split; [exact Ew|]. split; [exact Eg|]. split; [exact Ew'|]. split; [|exact Rest].
  rewrite (istft_window g w' w); [exact Er|]. apply arr_ext; [apply Ww'|apply Ww|unfold count in *; lia|unfold length in *; lia|].
  intros i j Hi Hj. unfold count in *. replace i with 0 by lia.
  pose proof (V j) as X. pose proof (V' j) as X'. unfold at_time, begins in *. rewrite Bw, Z.sub_0_r in X. rewrite Bw', Z.sub_0_r in X'.
  unfold length in *. rewrite X, X' by lia. reflexivity.
Qed.
End Default.

(** ** Offsets that are not a multiple of the step *)

Lemma remainder_ok s w overlap step pad : wf_signal s -> wf_signal w -> 0 < count s -> 0 < count w -> count w = 1 \/ count s <= count w ->
  index overlap (length w) = Ok (length w - step) -> 0 < step <= length w -> length w <= length s -> sampling_rate s <> 0%R -> 2 <= length w ->
  exists r, stft s w overlap pad = Ok r /\ stft_frame r s w step pad /\ 2 * Z.abs (begins s - sg_begins r * step) <= step /\
  forall c k t, 0 <= c < count s -> 0 <= k <= length w / 2 -> sg_begins r <= t < sg_ends r ->
    sg_at r c k t = Some (Cmul (cis (- (2 * PI * (IZR k * IZR (length w - 1) / IZR (length w / 2)) / IZR (length w) * IZR (begins s - sg_begins r * step))))
      (Cmul (C_of_R (/ Rabs (window_sum w c))) (segment_spectrum s w c (t * step + (begins s - sg_begins r * step) - lead w pad) k))).
Proof.
  intros Ws Ww Cs Cw Hc Ho Hs Hl Hr H2.
  destruct (frame_ok power modulo cpower cmodulo cjunk s w overlap step pad Ws Ww Cs Cw Hc Ho Hs Hl Hr (fun _ => H2)) as (r & E & F & B & V).
  exists r. split; [exact E|]. split; [exact F|].
  assert (Rem : remainder s step = begins s - sg_begins r * step) by (rewrite B; reflexivity).
  split.
  - rewrite B. unfold rounded. set (z := py_round _). pose proof (SliceFacts.py_round_near (inject_Z (offset s) / inject_Z step)) as [Lo Up]. fold z in Lo, Up.
    assert (X : ((inject_Z (offset s) / inject_Z step) * inject_Z step == inject_Z (offset s))%Q).
    { field. intros H. unfold Qeq in H. cbn in H. lia. }
    assert (P : (0 < inject_Z step)%Q) by (unfold Qlt; cbn; lia).
    set (x := (inject_Z (offset s) / inject_Z step)%Q) in *. 
    apply (Qmult_le_compat_r _ _ (inject_Z step)) in Lo; [|now apply Qlt_le_weak]. apply (Qmult_le_compat_r _ _ (inject_Z step)) in Up; [|now apply Qlt_le_weak].
    clearbody x. clear -X Lo Up. 
    rewrite <- Qmult_assoc, X, <- inject_Z_mult in Lo, Up. unfold begins. unfold Qle in Lo, Up. cbn [Qnum Qden inject_Z Qmult] in Lo, Up. idtac.
    change (1 * 1)%positive with 1%positive in Lo, Up. replace ((2 * z - 1) * step) with (2 * (z * step) - step) in Lo by ring.
    replace ((2 * z + 1) * step) with (2 * (z * step) + step) in Up by ring. lia.
  - intros c k t H Hk Ht. pose proof F as (_ & _ & _ & L & _). unfold sg_ends in Ht. unfold sg_begins in *. rewrite L in Ht.
    unfold sg_at. rewrite V by lia. f_equal. rewrite seg_spectrum by auto. rewrite <- Rem.
    replace (begins s + (t - sg_offset r) * step - lead w pad) with (t * step + remainder s step - lead w pad) by lia.
    unfold factor. destruct (remainder s step =? 0) eqn:Q.
    + replace (remainder s step) with 0 by lia. rewrite Rmult_0_r, Ropp_0. unfold cis. rewrite cos_0, sin_0. apply C_ext; cbn; ring.
    + unfold delay_factor. apply C_ext; cbn; ring.
Qed.

(** ** Signals that are shorter than the window, and blocks that do not advance *)

Lemma with_windows_err {B D} (f : B -> list R -> result D) l ws : 0 < zlen l -> 0 < zlen ws ->
  (forall x v, In x l -> In v ws -> f x v = Err ValueError) -> with_windows f l ws = Err ValueError.
Proof.
  intros Hl Hw H. unfold with_windows. destruct l as [|x l]; [change (zlen (@nil B)) with 0 in Hl; lia|]. destruct ws as [|v [|v' ws]]; [change (zlen (@nil (list R))) with 0 in Hw; lia| |].
  - cbn [map sequence bind]. rewrite H by (cbn; auto). reflexivity.
  - cbn [map2 sequence bind]. rewrite H by (cbn; auto). reflexivity.
Qed.

Lemma short_ok s w overlap o pad : wf_signal s -> wf_signal w -> 0 < count s -> 0 < count w -> index overlap (length w) = Ok o ->
  length s < length w -> stft s w overlap pad = Err ValueError.
Proof.
  intros [[_ Ws] _] [[_ Ww] _] Cs Cw Ho H. unfold short_time_fourier_transform. rewrite Ho. cbn [bind].
  rewrite with_windows_err; [reflexivity|auto|auto|]. intros x v Ix Iv. rewrite Forall_forall in Ws, Ww. unfold scipy_stft. rewrite (Ww v Iv), (Ws x Ix). fold (length w) (length s).
  destruct (length w <? 1); [reflexivity|]. replace (length s <? length w) with true by lia. reflexivity.
Qed.

Lemma full_overlap_ok s w overlap o pad : wf_signal s -> wf_signal w -> 0 < count s -> 0 < count w -> index overlap (length w) = Ok o ->
  length w <= o -> stft s w overlap pad = Err ValueError.
Proof.
  intros [[_ Ws] _] [[_ Ww] _] Cs Cw Ho H. unfold short_time_fourier_transform. rewrite Ho. cbn [bind].
  rewrite with_windows_err; [reflexivity|auto|auto|]. intros x v Ix Iv. rewrite Forall_forall in Ws, Ww. unfold scipy_stft. rewrite (Ww v Iv), (Ws x Ix). fold (length w) (length s).
  destruct (length w <? 1); [reflexivity|]. destruct (length s <? length w); [reflexivity|]. replace (length w <=? o) with true by lia. reflexivity.
Qed.

(** ** Windows with fewer channels than the signal *)

Lemma map2_take {B D} (f : B -> list R -> D) l ws : map2 f l ws = map2 f (ztake (zlen ws) l) ws.
Proof.
  unfold ztake, zlen. rewrite Nat2Z.id. revert l. induction ws as [|v ws IH]; intros [|x l]; cbn; auto. now rewrite IH.
Qed.

Lemma map2_length {B D E} (f : B -> D -> E) a b : zlen b <= zlen a -> zlen (map2 f a b) = zlen b.
Proof.
  revert b. induction a as [|x a IH]; intros [|y b] H; cbn [map2]; auto; unfold zlen in *; cbn [Datatypes.length] in *; try lia. specialize (IH b ltac:(lia)). lia.
Qed.

Lemma first_wf (s : signal R) k : wf_signal s -> 0 <= k <= count s -> wf_signal (first_channels k s) /\ count (first_channels k s) = k.
Proof.
  intros [[P Ws] Ls] H. assert (L : forall {T} (l : list T), zlen l = count s -> zlen (ztake k l) = k).
  { intros T l E. unfold ztake, zlen. rewrite firstn_length. unfold zlen in E. lia. }
  assert (N0 : count (first_channels k s) = k) by (apply L; reflexivity).
  split; [|exact N0]. split; [|change (zlen (ztake k (labels s)) = count (first_channels k s)); rewrite N0; apply L; exact Ls]. split; [exact P|]. unfold first_channels. cbn [channels rows cols].
  rewrite Forall_forall in *. intros r Hr. apply Ws. unfold ztake in Hr. rewrite <- (firstn_skipn (Z.to_nat k)). apply in_or_app. now left.
Qed.

Lemma sanitize_take (l : list string) k : 0 <= k <= zlen l -> sanitize_labels (Some l) k = sanitize_labels (Some (ztake k l)) k.
Proof.
  intros H. assert (E : zlen (ztake k l) = k) by (unfold ztake, zlen in *; rewrite firstn_length; lia).
  rewrite (sanitize_same (ztake k l)) by exact E. unfold sanitize_labels. replace (zlen l <? k) with false by lia. destruct (k <? zlen l) eqn:Q.
  - unfold subseq. rewrite lower_between, upper_between by lia. unfold zdrop, ztake. rewrite Z.sub_0_r. reflexivity.
  - replace k with (zlen l) by lia. unfold ztake, zlen. rewrite Nat2Z.id. symmetry. apply firstn_all.
Qed.

Lemma surplus_ok s w overlap step pad : wf_signal s -> wf_signal w -> 1 < count w <= count s ->
  index overlap (length w) = Ok (length w - step) -> 0 < step <= length w -> length w <= length s -> sampling_rate s <> 0%R -> 2 <= length w ->
  stft s w overlap pad = stft (first_channels (count w) s) w overlap pad.
Proof.
  intros Ws Ww H Ho Hs Hl Hr H2. destruct (first_wf s (count w) Ws ltac:(lia)) as [Wf Cf].
  destruct (remainder_ok (first_channels (count w) s) w overlap step pad) as (r & E & F & _); auto; try lia. rewrite E.
  destruct F as (_ & Cr & _). rewrite Cf in Cr.
  unfold short_time_fourier_transform in *. rewrite Ho in *. cbn [bind] in *. unfold first_channels in E. cbn [channels rows cols sampling_rate offset labels] in E.
  assert (T : forall f : list R -> list R -> result (list (list C)), with_windows f (rows (channels s)) (rows (channels w)) = with_windows f (ztake (count w) (rows (channels s))) (rows (channels w))).
  { intros f. unfold with_windows, count, nrows. unfold count, nrows in H. destruct (rows (channels w)) as [|v [|v' ws]]; [unfold zlen in H; cbn in H; lia|unfold zlen in H; cbn in H; lia|]. now rewrite <- map2_take. }
  rewrite <- T in E. destruct (with_windows _ _ _) as [l|e] eqn:El; [|discriminate]. cbn [bind] in *.
  destruct (allocate3 _ _ _ _) as [m|e] eqn:Em; [|discriminate]. cbn [bind] in *.
  destruct (set3 m _ _ _ _) as [m'|e] eqn:Es; [|discriminate]. cbn [bind] in *.
  match type of E with bind ?x _ = _ => match goal with |- bind ?y _ = _ => change y with x; destruct x as [m''|e] eqn:Er; [|discriminate] end end. cbn [bind] in *.
  apply ok_inv in E. subst r. unfold mk_spectrogram in *. unfold sg_count in Cr. cbn [sg_channels] in Cr. rewrite Cr. f_equal. f_equal. apply sanitize_take. destruct Ws as [_ Ls]. rewrite Ls. fold (count s). lia.
Qed.


End Cases.

(** ** Cases *)

Definition rectangle4 : signal R := Signal (Arr [[1; 1; 1; 1]]%R 4) 48000%R 0 ["Rectangular window"%string].
Definition late : signal R := Signal (Arr [[1; 0; 0; 0]]%R 4) 48000%R 1 ["late"%string].
Definition even : signal R := Signal (Arr [[1; 2; 3; 4; 5]; [1; 0; 0; 0; 0]]%R 5) 48000%R 2 ["five"%string; "one"%string].
Definition rectangle1 : signal R := Signal (Arr [[1]]%R 1) 48000%R 0 ["Rectangular window"%string].
Definition stereo_window : signal R := Signal (Arr [[1; 1; 1; 1]; [0; 1/2; 1; 1/2]]%R 4) 48000%R 0 ["a"%string; "b"%string].
Definition three : signal R := Signal (Arr [[1; 2; 3; 4]; [1; 0; 0; 0]; [0; 0; 0; 1]]%R 4) 48000%R 2 ["x"%string; "y"%string; "z"%string].

Ltac wf_now := split; [split; [cbn; lia|repeat constructor]|reflexivity].

Lemma even_ok : wf_signal even /\ wf_signal hann4 /\ 0 < count even /\ 0 < count hann4 /\ (count hann4 = 1 \/ count even <= count hann4) /\
  index (NInt 2) (length hann4) = Ok (length hann4 - 2) /\ 0 < 2 <= length hann4 /\ length hann4 <= length even /\ sampling_rate even <> 0%R /\
  begins even mod 2 = 0 /\ 2 <= length hann4.
Proof.
  split; [wf_now|]. split; [wf_now|]. split; [reflexivity|]. split; [reflexivity|]. split; [auto|]. split; [reflexivity|]. split; [change (length hann4) with 4; lia|].
  split; [discriminate|]. split; [cbn; lra|]. split; [reflexivity|discriminate].
Qed.

Lemma hann4_sum c : window_sum hann4 c = 2%R.
Proof.
  unfold window_sum. change (zseq 0 (length hann4)) with [0; 1; 2; 3]. unfold Rsum_list. cbn [fold_right].
  change (window_at hann4 c 0) with 0%R. change (window_at hann4 c 1) with (1 / 2)%R. change (window_at hann4 c 2) with 1%R. change (window_at hann4 c 3) with (1 / 2)%R. lra.
Qed.

Lemma even_energy c t : begins even <= t < ends even -> (1 / 10000000000 < window_energy even hann4 2 true c t)%R.
Proof.
  change (begins even) with 2. change (ends even) with 7. intros H. unfold window_energy. change (zseq (begins even / 2) (segment_count even hann4 2 true)) with [1; 2; 3; 4].
  change (lead hann4 true) with 2. unfold Rsum_list. cbn [fold_right].
  assert (t = 2 \/ t = 3 \/ t = 4 \/ t = 5 \/ t = 6) as [-> | [-> | [-> | [-> | ->]]]] by lia.
  all: unfold window_at; cbv -[Rmult Rplus Rdiv Rlt IZR]; lra.
Qed.

(** Without padding, the first sample is lost, because the window is zero there. *)
Lemma even_unpadded : segment_count even hann4 2 false = 1 /\ (forall c, 1 / 10000000000 < window_energy even hann4 2 false c 4)%R /\ forall c, (window_energy even hann4 2 false c 2 = 0)%R.
Proof.
  split; [reflexivity|]. split; intros c; unfold window_energy; change (zseq (begins even / 2) (segment_count even hann4 2 false)) with [1];
    unfold Rsum_list; cbn [fold_right]; unfold window_at; cbv -[Rmult Rplus Rdiv Rlt IZR]; lra.
Qed.

Lemma late_ok : wf_signal late /\ wf_signal rectangle4 /\ 0 < count late /\ 0 < count rectangle4 /\ (count rectangle4 = 1 \/ count late <= count rectangle4) /\
  index (NInt 0) (length rectangle4) = Ok (length rectangle4 - 4) /\ 0 < 4 <= length rectangle4 /\ length rectangle4 <= length late /\
  sampling_rate late <> 0%R /\ 2 <= length rectangle4.
Proof.
  split; [wf_now|]. split; [wf_now|]. split; [reflexivity|]. split; [reflexivity|]. split; [auto|]. split; [reflexivity|].
  split; [change (length rectangle4) with 4; lia|]. split; [discriminate|]. split; [cbn; lra|discriminate].
Qed.

Lemma late_spectrum : segment_spectrum late rectangle4 0 1 1 = C1.
Proof.
  unfold segment_spectrum, Csum. change (zseq 0 (length rectangle4)) with [0; 1; 2; 3]. cbn [fold_right].
  change (window_at rectangle4 0 0) with 1%R. change (window_at rectangle4 0 1) with 1%R. change (window_at rectangle4 0 2) with 1%R. change (window_at rectangle4 0 3) with 1%R.
  change (sample late 0 (1 + 0)) with 1%R. change (sample late 0 (1 + 1)) with 0%R. change (sample late 0 (1 + 2)) with 0%R. change (sample late 0 (1 + 3)) with 0%R.
  unfold root at 1. change (- (0 * 1)) with 0. unfold cis. replace (2 * PI * 0 / IZR (length rectangle4))%R with 0%R by (change (length rectangle4) with 4; lra). rewrite cos_0, sin_0.
  apply C_ext; cbn; ring.
Qed.

Lemma late_sum : window_sum rectangle4 0 = 4%R.
Proof.
  unfold window_sum. change (zseq 0 (length rectangle4)) with [0; 1; 2; 3]. unfold Rsum_list. cbn [fold_right].
  change (window_at rectangle4 0 0) with 1%R. change (window_at rectangle4 0 1) with 1%R. change (window_at rectangle4 0 2) with 1%R. change (window_at rectangle4 0 3) with 1%R. lra.
Qed.

(** The phase at the frequency [k * sampling_rate / length] is not that of a delay by the remainder *)
Lemma group_delay_wrong power modulo cpower cmodulo cjunk : exists s w overlap step pad r c k t,
  (wf_signal s /\ wf_signal w /\ 0 < count s /\ 0 < count w /\ (count w = 1 \/ count s <= count w) /\
   index overlap (length w) = Ok (length w - step) /\ 0 < step <= length w /\ length w <= length s /\ sampling_rate s <> 0%R /\ 2 <= length w) /\
  0 <= c < count s /\ 0 <= k <= length w / 2 /\ sg_begins r <= t < sg_ends r /\
  short_time_fourier_transform (real_ops power modulo) real_transforms (real_numbers cpower cmodulo) cjunk s w overlap pad = Ok r /\
  sg_at r c k t <> Some (Cmul (cis (- (2 * PI * IZR k / IZR (length w) * IZR (begins s - sg_begins r * step))))
    (Cmul (C_of_R (/ Rabs (window_sum w c))) (segment_spectrum s w c (t * step + (begins s - sg_begins r * step) - lead w pad) k))).
Proof.
  pose proof late_ok as K. destruct K as (A1 & A2 & A3 & A4 & A5 & A6 & A7 & A8 & A9 & A10).
  destruct (remainder_ok power modulo cpower cmodulo cjunk late rectangle4 (NInt 0) 4 false A1 A2 A3 A4 A5 A6 A7 A8 A9 A10) as (r & E & F & B & V).
  assert (B0 : sg_begins r = 0) by (change (begins late) with 1 in B; lia). destruct F as (_ & _ & _ & L & _). change (segment_count late rectangle4 4 false) with 1 in L.
  exists late, rectangle4, (NInt 0), 4, false, r, 0, 1, 0. split; [exact late_ok|]. split; [split; [discriminate|reflexivity]|]. split; [split; discriminate|].
  assert (T : sg_begins r <= 0 < sg_ends r) by (unfold sg_begins, sg_ends in *; lia). split; [exact T|]. split; [exact E|].
  rewrite V; [|split; [discriminate|reflexivity]|split; discriminate|exact T]. rewrite B0. change (begins late - 0 * 4) with 1. change (0 * 4 + 1 - lead rectangle4 false) with 1.
  rewrite late_spectrum, late_sum. change (length rectangle4) with 4. change (4 - 1) with 3. change (4 / 2) with 2. rewrite Rabs_pos_eq by lra.
  intros X. apply some_inv in X. apply (f_equal re) in X. cbn in X.
  replace (- (2 * PI * (1 * 3 / 2) / 4 * 1))%R with (- (3 * (PI / 4)))%R in X by lra. replace (- (2 * PI * 1 / 4 * 1))%R with (- (PI / 2))%R in X by lra.
  rewrite !cos_neg, cos_PI2, cos_3PI4 in X. pose proof (Rlt_sqrt2_0) as S2. assert (0 < / sqrt 2)%R by (apply Rinv_0_lt_compat; lra).
  unfold Rdiv in X. nra.
Qed.
