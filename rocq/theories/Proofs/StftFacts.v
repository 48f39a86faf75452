(** The short time Fourier transform of one channel and its inverse. *)

From Coq Require Import String ZArith QArith List Bool Lia ZifyBool Reals Lra Field.
From Verif.Model Require Import Py Numpy Vector Functions Signal Spectrum Fft Fourier Cube Spectrogram Windows Sweeps Stft.
From Verif.Spec Require Import TimeSpec RealSpec ConvolutionSpec ComplexSpec DftSpec FourierSpec BlockSpec SpectrogramSpec SweepSpec StftSpec.
From Verif.Proofs Require Import PyFacts NumpyFacts SignalAlgebra VectorFacts FadeFacts SumFacts ComplexFacts PlacedFacts MergeOrder DftFacts FourierFacts LevelFacts RoundTripFacts SweepFacts TableFacts BlockScaling WindowMeasures.
Import ListNotations.
Open Scope Z_scope.
Ltac Zify.zify_post_hook ::= idtac.

Section Channel.
Variables power modulo : R -> R -> R.
Variables cpower cmodulo : C -> C -> C.
Notation O := (real_ops power modulo).
Notation N := (real_numbers cpower cmodulo).
Let RO_ring : commutative_ring RO := real_ring _ _.
Notation sumR := (sumz RO).

Variable win : list R.
Notation n := (zlen win).
Variable step : Z.
Hypothesis Hs : 0 < step <= n.

Definition total : R := sumR 0 n (at_R win).
Definition scale : R := (/ Rabs total)%R.
Definition margin (pad : bool) : Z := if pad then n / 2 else 0.
Definition segments (len : Z) (pad : bool) : Z :=
  if pad then (len + 2 * (n / 2) - n + step - 1) / step + 1 else (len - n) / step + 1.

Lemma scale_ok : stft_scale O N win = scale.
Proof.
  unfold stft_scale. rewrite channel_sum_ok. fold total. cbn. unfold scale. replace (1 / (total * total))%R with (/ (total * total))%R by (unfold Rdiv; ring).
  destruct (Req_dec total 0) as [E|E].
  - rewrite E, Rabs_R0, Rmult_0_l, Rinv_0. apply sqrt_0.
  - replace (/ (total * total))%R with (Rsqr (/ total)) by (unfold Rsqr; field; auto). rewrite sqrt_Rsqr_abs. apply Rabs_inv.
Qed.

(** The windowed samples of the segment number [m], divided by the absolute sum of the window *)
Definition segment (x : list R) (pad : bool) (m : Z) : list R :=
  map (fun j => at_R win j * at_R x (m * step + j - margin pad) * scale)%R (zseq 0 n).

Lemma zlen_segment x pad m : zlen (segment x pad m) = n.
Proof. unfold segment. rewrite zlen_map, zlen_seq. lia. Qed.

Lemma at_segment x pad m j : at_R (segment x pad m) j = (at_R win j * at_R x (m * step + j - margin pad) * scale)%R.
Proof.
  unfold segment. unfold at_R at 1. rewrite zth_map_zseq. destruct (_ && _) eqn:E; [reflexivity|]. rewrite (at_out win j) by lia. ring.
Qed.

(** ** The extended channel *)

Definition extended (x : list R) (pad : bool) : list R :=
  let x := if pad then zrepeat 0%R (n / 2) ++ x ++ zrepeat 0%R (n / 2) else x in
  if pad then x ++ zrepeat 0%R (((- (zlen x - n)) mod step) mod n) else x.

Lemma at_zeros k i : at_R (zrepeat 0%R k) i = 0%R.
Proof. unfold at_R. rewrite zth_repeat. now destruct (_ && _). Qed.

Lemma at_append (a b : list R) i : at_R (a ++ b) i = if i <? zlen a then at_R a i else at_R b (i - zlen a).
Proof. unfold at_R. rewrite zth_app. zcase; reflexivity. Qed.

Lemma at_extended x pad p : at_R (extended x pad) p = at_R x (p - margin pad).
Proof.
  unfold extended, margin. destruct pad; [|now rewrite Z.sub_0_r]. pose proof (Z.div_pos n 2). pose proof (zlen_nonneg x).
  rewrite !at_append, !at_zeros, !zlen_app, !zlen_repeat. zcases; rewrite ?at_zeros; try (symmetry; apply at_out; lia); f_equal; lia.
Qed.

Lemma ceil_div d : 0 <= d -> (d + (- d) mod step) = (d + step - 1) / step * step.
Proof.
  intros H. pose proof (Z.div_mod (- d) step ltac:(lia)) as E. pose proof (Z.mod_pos_bound (- d) step ltac:(lia)) as B.
  assert (Q : (d + step - 1) / step = - ((- d) / step)).
  { symmetry. apply Z.div_unique with (r := step - 1 - (- d) mod step); [left; lia|lia]. }
  rewrite Q. lia.
Qed.

Lemma zlen_extended x : n <= zlen x -> zlen (extended x true) = n + (segments (zlen x) true - 1) * step.
Proof.
  intros L. assert (H : 0 <= n / 2) by (apply Z.div_pos; lia). unfold extended, segments. rewrite !zlen_app, !zlen_repeat.
  set (d := zlen x + 2 * (n / 2) - n). replace (- (Z.max 0 (n / 2) + (zlen x + Z.max 0 (n / 2)) - n)) with (- d) by (unfold d; lia).
  pose proof (Z.mod_pos_bound (- d) step ltac:(lia)). rewrite (Z.mod_small ((- d) mod step)) by lia.
  pose proof (ceil_div d ltac:(unfold d; lia)). replace (_ / step + 1 - 1) with ((d + step - 1) / step) by lia. unfold d in *. lia.
Qed.

Lemma segments_extended x pad : n <= zlen x -> (zlen (extended x pad) - (n - step)) / step = segments (zlen x) pad.
Proof.
  intros L. destruct pad.
  - rewrite zlen_extended by auto. replace (n + _ - _) with (segments (zlen x) true * step) by lia. apply Z.div_mul. lia.
  - unfold extended, segments. cbv zeta iota. replace (zlen x - (n - step)) with (zlen x - n + 1 * step) by lia. apply Z.div_add. lia.
Qed.

Lemma segments_positive len pad : n <= len -> 0 < segments len pad.
Proof.
  intros L. unfold segments. destruct pad.
  - pose proof (Z.div_pos n 2). pose proof (Z.div_pos (len + 2 * (n / 2) - n + step - 1) step). lia.
  - pose proof (Z.div_pos (len - n) step). lia.
Qed.

Lemma segment_inside x pad m : n <= zlen x -> 0 <= m < segments (zlen x) pad -> m * step + n <= zlen (extended x pad).
Proof.
  intros L H. destruct pad.
  - rewrite zlen_extended by auto. nia.
  - unfold extended, segments in *. cbv zeta iota. pose proof (Z.mul_div_le (zlen x - n) step). nia.
Qed.

(** Multiplying the spectrum with a real number *)
Lemma rfft_scaled (x : list R) a : 0 < zlen x -> map (fun z => Cmul z (C_of_R a)) (rfft x) = rfft (map (fun v => v * a)%R x).
Proof.
  intros H. unfold rfft. rewrite map_map, zlen_map. apply map_ext_in. intros k _. rewrite !(dft_sum (zlen x)) by (try rewrite zlen_map; auto).
  change Cmul with (o_mul CO). rewrite <- (sumz_mul_r CO CO_ring). apply sumz_ext. intros j Hj.
  replace (at_R (map (fun v => v * a)%R x) j) with (at_R x j * a)%R; [apply C_ext; cbn; ring|].
  unfold at_R. rewrite zth_map. destruct (zth x j); cbn; [reflexivity|ring].
Qed.

Lemma stft_ok x pad : n <= zlen x ->
  scipy_stft O real_transforms N x win (n - step) pad = Ok (map (fun m => rfft (segment x pad m)) (zseq 0 (segments (zlen x) pad))).
Proof.
  intros L. unfold scipy_stft. replace (n <? 1) with false by lia. replace (zlen x <? n) with false by lia. replace (n <=? n - step) with false by lia.
  cbv zeta. replace (n - (n - step)) with step by lia. change (o_zero O) with 0%R.
  match goal with |- context [zlen ?l - (n - step)] => change l with (extended x pad) end.
  rewrite segments_extended by auto. apply sequence_map_ok. intros m Hm. apply LevelFacts.in_zseq in Hm.
  pose proof (segment_inside x pad m L ltac:(lia)) as I.
  assert (Ls : zlen (subseq (between (m * step) (m * step + n)) (extended x pad)) = n) by (rewrite zlen_between; nia).
  destruct (vmap2_ok (o_mul O) win (subseq (between (m * step) (m * step + n)) (extended x pad))) as (v & -> & Lv & Vv); [lia|]. cbn [bind].
  f_equal. rewrite scale_ok. change (c_make N scale 0%R) with (C_of_R scale). change (o_mul (c_ops N)) with Cmul. change (x_rfft real_transforms) with rfft.
  rewrite rfft_scaled by lia. f_equal. apply zth_ext_in; [rewrite zlen_map, zlen_segment; lia|]. intros j Hj. rewrite zlen_map in Hj.
  rewrite zth_map, Vv, zth_between by nia. replace (_ && _) with true by nia. rewrite zth_at_R by lia. rewrite zth_at_R by nia.
  rewrite (zth_at_R (segment x pad m)) by (rewrite zlen_segment; lia). cbn. f_equal. rewrite at_segment, at_extended. do 4 f_equal. lia.
Qed.

(** ** The inverse *)

(** [v[m * step : m * step + n] += b] *)
Lemma vadd_ok (v b : list R) m F : 0 <= m -> m * step + n <= zlen v -> zlen b = n -> (forall p, 0 <= p < zlen v -> zth v p = Some (F p)) ->
  exists v', vadd O v (between (m * step) (m * step + n)) b = Ok v' /\ zlen v' = zlen v /\
    forall p, 0 <= p < zlen v -> zth v' p = Some (F p + at_R b (p - m * step))%R.
Proof.
  intros Hm I L V. unfold vadd. assert (0 <= m * step) by nia.
  destruct (vmap2_ok (o_add O) (subseq (between (m * step) (m * step + n)) v) b) as (s & -> & Ls & Vs); [rewrite zlen_between; lia|]. cbn [bind].
  rewrite zlen_between in Ls by lia.
  destruct (vset_between v (m * step) (m * step + n) s) as (v' & -> & Lv & Vv); try lia. exists v'. split; [reflexivity|]. split; [auto|].
  intros p Hp. rewrite Vv. destruct (_ && _) eqn:E.
  - rewrite Vs, zth_between by lia. replace (_ && _) with true by lia. replace (p - m * step + m * step) with p by lia. rewrite V by auto.
    rewrite (zth_at_R b) by lia. reflexivity.
  - rewrite V, (at_out b) by lia. f_equal. ring.
Qed.

Variable seg : Z -> list R.
Variable q : Z.
Hypothesis Hq : 0 < q.
Hypothesis Lseg : forall m, zlen (seg m) = n.

Definition added (k p : Z) : R := sumR 0 k (fun m => at_R (seg m) (p - m * step) * total * at_R win (p - m * step))%R.
Definition norm (k p : Z) : R := sumR 0 k (fun m => at_R win (p - m * step) * at_R win (p - m * step))%R.

Notation size := (n + (q - 1) * step).
Definition sums (k : Z) (s : list R * list R) : Prop :=
  zlen (fst s) = size /\ zlen (snd s) = size /\ forall p, 0 <= p < size -> zth (fst s) p = Some (added k p) /\ zth (snd s) p = Some (norm k p).

Lemma overlap_add_ok : exists x v, for_each (zseq 0 q) (fun '(x, norm) m =>
      xsub <- getitem (map (fun m => map (fun v => v * total)%R (seg m)) (zseq 0 q)) m ;;
      p <- vmap2 (o_mul O) xsub win ;;
      x <- vadd O x (between (m * step) (m * step + n)) p ;;
      norm <- vadd O norm (between (m * step) (m * step + n)) (map (fun w => o_mul O w w) win) ;;
      Ok (x, norm)) (zrepeat 0%R size, zrepeat 0%R size) = Ok (x, v) /\ sums q (x, v).
Proof.
  match goal with |- context [for_each (zseq 0 q) ?f ?s] => destruct (for_each_seq sums f q 0 s) as ([x v] & E & I) end; [lia| | |].
  - unfold sums. cbn [fst snd]. rewrite zlen_repeat. split; [nia|]. split; [nia|].
    intros p Hp. rewrite !zth_repeat. replace (_ && _) with true by lia. split; reflexivity.
  - intros k [x v] Hk (Lx & Lv & V). cbn [fst snd] in *.
    rewrite (getitem_zth _ k (map (fun v => v * total)%R (seg k))) by (try lia; rewrite zth_map_zseq; now replace (_ && _) with true by lia). cbn [bind].
    assert (Lb : zlen (map (fun v => v * total)%R (seg k)) = n) by (now rewrite zlen_map, Lseg).
    destruct (vmap2_ok (o_mul O) (map (fun v => v * total)%R (seg k)) win Lb) as (b & -> & Lb' & Vb). cbn [bind].
    destruct (vadd_ok x b k (added k)) as (x' & -> & Lx' & Vx); [lia|nia|lia|intros; apply V; lia|]. cbn [bind].
    destruct (vadd_ok v (map (fun w => o_mul O w w) win) k (norm k)) as (v' & -> & Lv' & Vv); [lia|nia|now rewrite zlen_map|intros; apply V; lia|]. cbn [bind].
    eexists. split; [reflexivity|]. unfold sums. cbn [fst snd]. split; [lia|]. split; [lia|]. intros p Hp. rewrite Vx, Vv by lia. unfold added, norm.
    rewrite (sumz_snoc RO (real_ring _ _)) with (n := k + 1) by lia. rewrite (sumz_snoc RO (real_ring _ _)) with (n := k + 1) by lia.
    replace (k + 1 - 1) with k by lia. replace (0 + (k + 1) - 1) with k by lia. rewrite at_squares. cbn [o_add RO real_ops].
    split; [|reflexivity]. do 2 f_equal. unfold at_R at 1. rewrite Vb, zth_map. unfold at_R.
    destruct (Z_lt_ge_dec (p - k * step) 0) as [H|H]; [rewrite !zth_out by lia; cbn; ring|].
    destruct (Z_lt_ge_dec (p - k * step) n) as [H'|H']; [|rewrite !zth_out by (rewrite ?Lseg; lia); cbn; ring].
    destruct (zth_in (seg k) (p - k * step)) as (a & ->); [rewrite Lseg; lia|]. destruct (zth_in win (p - k * step)) as (c & ->); [lia|]. reflexivity.
  - exists x, v. split; [exact E|]. rewrite Z.add_0_l in I. exact I.
Qed.

Definition safe (v : R) : R := if R_leb v (1 / 10000000000) then 1%R else v.

Lemma istft_ok pad : (pad = true -> 2 <= n) ->
  exists y, scipy_istft O real_transforms N R_leb (n / 2 + 1) (map (fun m => rfft (seg m)) (zseq 0 q)) win n (n - step) pad = Ok y /\
    zlen y = size - 2 * margin pad /\
    forall i, 0 <= i < size - 2 * margin pad -> zth y i = Some (added q (i + margin pad) / safe (norm q (i + margin pad)))%R.
Proof.
  intros P. unfold scipy_istft. replace (n <? 1) with false by lia.
  assert (F : (if n =? 2 * (n / 2 + 1 - 1) + 1 then n else 2 * (n / 2 + 1 - 1)) = n).
  { pose proof (Z.div_mod n 2 ltac:(lia)). pose proof (Z.mod_pos_bound n 2 ltac:(lia)). zcase; lia. }
  cbv zeta. rewrite F. replace (n <? 1) with false by lia. replace (n <=? n - step) with false by lia. rewrite Z.eqb_refl. cbn [negb].
  replace (n - (n - step)) with step by lia. rewrite !zlen_map, !zlen_seq. replace (Z.max 0 q) with q by lia. replace (size <? 0) with false by nia.
  rewrite channel_sum_ok. fold total. change (o_zero O) with 0%R.
  assert (M : map (fun spectrum => map (fun v => o_mul O v total) (subseq (between 0 n) (x_irfft real_transforms spectrum n))) (map (fun m => rfft (seg m)) (zseq 0 q))
    = map (fun m => map (fun v => v * total)%R (seg m)) (zseq 0 q)).
  { rewrite map_map. apply map_ext. intros m. change (x_irfft real_transforms) with irfft. rewrite irfft_rfft by (auto; lia). f_equal.
    apply zth_ext_in; [rewrite zlen_between; rewrite ?Lseg; lia|]. intros i Hi. rewrite zlen_between in Hi by (rewrite ?Lseg; lia).
    rewrite zth_between by (rewrite ?Lseg; lia). replace (_ && _) with true by lia. f_equal. lia. }
  rewrite M. destruct overlap_add_ok as (x & v & -> & Lx & Lv & V). cbn [fst snd bind] in *.
  assert (D : forall x v, zlen x = zlen v -> exists y, vmap2 (o_div O) x (map (fun k => if R_leb k (o_div O (n_int N 1) (n_int N 10000000000)) then n_int N 1 else k) v) = Ok y /\
    zlen y = zlen x /\ forall i a b, zth x i = Some a -> zth v i = Some b -> zth y i = Some (a / safe b)%R).
  { intros x' v' L. destruct (vmap2_ok (o_div O) x' (map (fun k => if R_leb k (o_div O (n_int N 1) (n_int N 10000000000)) then n_int N 1 else k) v')) as (y & Ey & Ly & Vy);
      [now rewrite zlen_map|]. exists y. split; [exact Ey|]. split; [exact Ly|]. intros i a b Ha Hb. rewrite Vy, zth_map, Ha, Hb. reflexivity. }
  destruct pad; unfold margin.
  - specialize (P eq_refl). assert (H : 0 < n / 2) by (apply Z.div_str_pos; lia).
    assert (H2 : 2 * (n / 2) <= n) by (apply Z.mul_div_le; lia). assert (Hsz : n <= size) by nia.
    assert (Lo : lower (between (n / 2) (- (n / 2))) size = n / 2) by (apply lower_between; lia).
    assert (Up : upper (between (n / 2) (- (n / 2))) size = size - n / 2) by (unfold_bounds; zcases).
    destruct (D (subseq (between (n / 2) (- (n / 2))) x) (subseq (between (n / 2) (- (n / 2))) v)) as (y & Ey & Ly & Vy); [rewrite !zlen_subseq, Lx, Lv; reflexivity|].
    exists y. split; [exact Ey|]. rewrite Ly, zlen_subseq, Lx, Lo, Up. split; [lia|]. intros i Hi.
    apply Vy; rewrite zth_subseq, ?Lx, ?Lv, Lo, Up; replace (_ && _) with true by lia; apply V; lia.
  - destruct (D x v) as (y & Ey & Ly & Vy); [lia|]. exists y. split; [exact Ey|]. rewrite Ly. split; [lia|]. intros i Hi. rewrite Z.add_0_r. apply Vy; apply V; lia.
Qed.

(** With a window of one sample, [x[0:-0]] is empty. *)
Lemma istft_single : n = 1 ->
  scipy_istft O real_transforms N R_leb (n / 2 + 1) (map (fun m => rfft (seg m)) (zseq 0 q)) win n (n - step) true = Ok [].
Proof.
  intros H1. unfold scipy_istft. replace (n <? 1) with false by lia.
  assert (F : (if n =? 2 * (n / 2 + 1 - 1) + 1 then n else 2 * (n / 2 + 1 - 1)) = n) by (now rewrite H1).
  cbv zeta. rewrite F. replace (n <? 1) with false by lia. replace (n <=? n - step) with false by lia. rewrite Z.eqb_refl. cbn [negb].
  replace (n - (n - step)) with step by lia. rewrite !zlen_map, !zlen_seq. replace (Z.max 0 q) with q by lia. replace (size <? 0) with false by nia.
  rewrite channel_sum_ok. fold total. change (o_zero O) with 0%R.
  assert (M : map (fun spectrum => map (fun v => o_mul O v total) (subseq (between 0 n) (x_irfft real_transforms spectrum n))) (map (fun m => rfft (seg m)) (zseq 0 q))
    = map (fun m => map (fun v => v * total)%R (seg m)) (zseq 0 q)).
  { rewrite map_map. apply map_ext. intros m. change (x_irfft real_transforms) with irfft. rewrite irfft_rfft by (auto; lia). f_equal.
    apply zth_ext_in; [rewrite zlen_between; rewrite ?Lseg; lia|]. intros i Hi. rewrite zlen_between in Hi by (rewrite ?Lseg; lia).
    rewrite zth_between by (rewrite ?Lseg; lia). replace (_ && _) with true by lia. f_equal. lia. }
  rewrite M. destruct overlap_add_ok as (x & v & -> & Lx & Lv & V). cbn [fst snd bind] in *.
  assert (E : forall l : list R, subseq (between (n / 2) (- (n / 2))) l = []).
  { intros l. rewrite H1. change (1 / 2) with 0. change (- 0) with 0. apply zlen_zero. pose proof (zlen_nonneg l). rewrite zlen_between; lia. }
  rewrite !E. reflexivity.
Qed.

End Channel.
