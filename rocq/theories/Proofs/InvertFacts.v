(** The inversion of signals. *)

From Coq Require Import String ZArith List Bool Lia ZifyBool Reals Lra Ring_theory Field_theory Ring Field.
From Verif.Model Require Import Py Numpy Vector Functions Signal Spectrum Fft Fourier Convolution.
From Verif.Spec Require Import TimeSpec FrequencySpec RealSpec ConvolutionSpec ComplexSpec DftSpec FourierSpec.
From Verif.Proofs Require Import PyFacts NumpyFacts VectorFacts SumFacts ComplexFacts ConvolveFacts PlacedFacts DftFacts MethodFacts CircularFacts SpectrumModes SignalAlgebra SignalConvolve FourierFacts RoundTripFacts FourierResults.
Import ListNotations.
Open Scope Z_scope.
Ltac Zify.zify_post_hook ::= idtac.

Lemma sumz_double {A} (O : ops A) (RT : commutative_ring O) n f : 0 <= n -> sumz O 0 (2 * n) f = o_add O (sumz O 0 n f) (sumz O (0 + n) n f).
Proof. intros H. replace (2 * n) with (n + n) by lia. apply (sumz_app O RT); lia. Qed.

Section Invert.
Variables power modulo : R -> R -> R.
Variable junk : Z -> Z -> R.
Notation O := (real_ops power modulo).
Notation X := real_transforms.
Let EX : exact_transforms O X := real_exact power modulo.
Let RT : commutative_ring O := real_ring power modulo.

Definition reciprocal (x : list R) : list R := irfft (map (fun k => Cinv (dft x k)) (zseq 0 (zlen x / 2 + 1))) (zlen x).

(** [irfft(1.0 / rfft(m))] *)
Lemma reciprocal_ok (m : arr R) : wf m -> 0 < cols m -> cols m mod 2 = 0 ->
  exists p q, rfft_rows X m = Ok p /\ irfft_rows X (ufunc1 (x_inverse X) p) = Ok q /\
    has q (nrows m) (cols m) (fun c i => at_R (reciprocal (rowv m c)) i).
Proof.
  intros W Hn Ev. pose proof (Z.div_mod (cols m) 2 ltac:(lia)) as D. destruct (rfft_rows_ok O X EX m W Hn) as (p & E & Wp & Np & Cp & Vp). exists p.
  unfold irfft_rows. change (cols (ufunc1 (x_inverse X) p)) with (cols p). replace (2 * (cols p - 1)) with (cols m) by lia.
  destruct (irfft_rows_ok (ufunc1 (x_inverse X) p) (cols m)) as (q & E' & Wq & Nq & Cq & Vq); auto using ufunc1_wf.
  rewrite nrows_ufunc1 in *. exists q. split; [exact E|]. split; [exact E'|]. split; [|split; [|split]]; auto; try lia.
  intros c i Hc Hi. rewrite Vq by lia. do 2 f_equal. unfold reciprocal. rewrite zlen_rowv by auto. f_equal.
  apply (list_of_terms (cols m)); auto.
  - rewrite zlen_rowv; [exact Cp|now apply ufunc1_wf|rewrite nrows_ufunc1; lia].
  - intros k Hk. rewrite <- el_rowv by (rewrite nrows_ufunc1; lia). rewrite el_ufunc1, Vp by auto. cbn [x_rfft real_transforms].
    rewrite (zth_rfft (cols m)); [reflexivity|now apply zlen_rowv|auto].
Qed.

(** What [~signal] has to satisfy: the circular convolution of each channel with its inverse is a unit impulse. *)
Definition inverts (x y : list R) (n : Z) : Prop :=
  forall i, 0 <= i < n -> sumz RO 0 n (fun k => at_R x k * at_R y ((i - k) mod n))%R = (if i =? 0 then 1 else 0)%R.

Lemma at_R_out x k : ~ (0 <= k < zlen x) -> at_R x k = 0%R.
Proof. intros H. unfold at_R. now rewrite zth_out. Qed.

Lemma folded_inverts x p y n : 0 < n -> zlen x = n -> zlen p = 2 * n -> (forall i, 0 <= i < 2 * n -> at_R p i = at_R x i) ->
  inverts p y (2 * n) -> forall z, (forall i, 0 <= i < n -> at_R z i = (at_R y i + at_R y (i + n))%R) -> inverts x z n.
Proof.
  intros Hn Lx Lp Vp Hy z Hz i Hi.
  assert (S : forall j, 0 <= j < 2 * n -> sumz RO 0 n (fun k => at_R x k * at_R y ((j - k) mod (2 * n)))%R = (if j =? 0 then 1 else 0)%R).
  { intros j Hj. rewrite <- (Hy j Hj). rewrite (sumz_double RO (real_ring _ _)) by lia.
    rewrite (sumz_zero RO (real_ring _ _) (0 + n)).
    - cbn [o_add RO real_ops o_zero]. rewrite Rplus_0_r. apply sumz_ext. intros k Hk. rewrite Vp by lia. reflexivity.
    - intros k Hk. rewrite Vp by lia. rewrite at_R_out by lia. cbn. ring. }
  transitivity ((if i =? 0 then 1 else 0) + (if i + n =? 0 then 1 else 0))%R.
  - rewrite <- (S i), <- (S (i + n)) by lia. change Rplus with (o_add RO). rewrite <- (sumz_add RO (real_ring _ _)). apply sumz_ext. intros k Hk.
    rewrite Hz by (apply Z.mod_pos_bound; lia). rewrite mod_near by lia. rewrite (mod_near (i - k)) by lia. 
    replace ((i + n - k) mod (2 * n)) with (i + n - k) by (symmetry; apply Z.mod_small; lia).
    destruct (i - k <? 0) eqn:E; cbn [o_add RO real_ops].
    + replace (i - k + n + n) with (i - k + 2 * n) by lia. replace (i - k + n) with (i + n - k) by lia. ring.
    + replace (i - k + n) with (i + n - k) by lia. ring.
  - replace (i + n =? 0) with false by lia. ring.
Qed.

Definition nonzero_even (s : signal R) : Prop := forall c k, 0 <= c < count s -> 0 <= k <= length s / 2 -> dft (rowv (channels s) c) k <> C_of_R 0.

Lemma reciprocal_inverts x : 0 < zlen x -> (forall k, 0 <= k <= zlen x / 2 -> dft x k <> C_of_R 0) -> inverts x (reciprocal x) (zlen x).
Proof. intros H NZ i Hi. apply (inverse_convolution (zlen x)); auto. Qed.

Lemma invert_even_ok s : wf_signal s -> 0 < length s -> length s mod 2 = 0 ->
  (forall c k, 0 <= c < count s -> 0 <= k <= length s / 2 -> dft (rowv (channels s) c) k <> C_of_R 0) ->
  exists r, signal_invert O X junk s = Ok r /\ wf_signal r /\ sampling_rate r = sampling_rate s /\ offset r = - offset s /\ labels r = labels s /\
    count r = count s /\ length r = length s /\ forall c, 0 <= c < count s -> inverts (rowv (channels s) c) (rowv (channels r) c) (length s).
Proof.
  intros W Hn Ev NZ. unfold signal_invert. pose proof (nrows_nonneg (channels s)) as Nn. fold (count s) in Nn.
  destruct (allocate_ok junk (count s) (length s)) as (m & -> & Wm & Nm & Cm); try lia. cbn [bind]. replace (length s mod 2 =? 0) with true by lia.
  destruct (reciprocal_ok (channels s)) as (p & q & -> & Eq & Wq & Nq & Cq & Vq); auto; [apply W|]. cbn [bind]. rewrite Eq. cbn [bind].
  rewrite set_all_ok by (auto; unfold count, length in *; lia). cbn [bind]. eexists. split; [reflexivity|]. unfold mk_signal.
  rewrite sanitize_same by (rewrite Nq; apply W). split; [split; auto; cbn; rewrite Nq; apply W|]. repeat (split; [auto|]).
  intros c Hc i Hi. cbn [channels]. assert (Lx : zlen (rowv (channels s) c) = length s) by (apply zlen_rowv; [apply W|exact Hc]).
  rewrite <- (reciprocal_inverts (rowv (channels s) c)) by (rewrite Lx; auto). rewrite Lx. apply sumz_ext. intros k Hk. f_equal.
  unfold at_R at 1. rewrite <- el_rowv by (unfold count in *; lia). rewrite Vq; [reflexivity|exact Hc|apply Z.mod_pos_bound; exact Hn].
Qed.

(** The spectrum of a sequence that is padded with zeros to the double length *)
Definition padded_dft (x : list R) (k : Z) : C := sumz CO 0 (zlen x) (fun m => Cmul (C_of_R (at_R x m)) (root (2 * zlen x) (- (m * k)))).

Lemma padded_dft_ok x p k : 0 < zlen x -> zlen p = 2 * zlen x -> (forall i, 0 <= i < 2 * zlen x -> at_R p i = at_R x i) -> dft p k = padded_dft x k.
Proof.
  intros H L V. rewrite (dft_sum (2 * zlen x)) by lia. rewrite (sumz_double CO CO_ring) by lia.
  rewrite (sumz_zero CO CO_ring (0 + zlen x)).
  - unfold padded_dft. match goal with |- o_add CO ?a _ = ?b => assert (a = b) as -> end.
    + apply sumz_ext. intros i Hi. now rewrite V by lia.
    + cbn [o_add o_zero CO complex_ops]. change (0%R, 0%R) with C0. ring.
  - intros i Hi. rewrite V by lia. rewrite at_R_out by lia. change (o_zero CO) with C0. ring.
Qed.

Lemma invert_odd_ok s : wf_signal s -> 0 < length s -> length s mod 2 = 1 ->
  (forall c k, 0 <= c < count s -> 0 <= k <= length s -> padded_dft (rowv (channels s) c) k <> C_of_R 0) ->
  exists r, signal_invert O X junk s = Ok r /\ wf_signal r /\ sampling_rate r = sampling_rate s /\ offset r = - offset s /\ labels r = labels s /\
    count r = count s /\ length r = length s /\ forall c, 0 <= c < count s -> inverts (rowv (channels s) c) (rowv (channels r) c) (length s).
Proof.
  intros W Hn Ev NZ. unfold signal_invert. pose proof (nrows_nonneg (channels s)) as Nn. fold (count s) in Nn.
  destruct (allocate_ok junk (count s) (length s)) as (m & -> & Wm & Nm & Cm); try lia. cbn [bind]. replace (length s mod 2 =? 0) with false by lia.
  destruct (allocate_ok junk (count s) (2 * length s)) as (m1 & -> & Wm1 & Nm1 & Cm1); try lia. cbn [bind].
  destruct (set_cols_ok m1 (between 0 (length s)) (channels s) 0 (length s)) as (m2 & -> & Wm2 & Nm2 & Cm2 & Vm2); auto.
  { apply W. } { rewrite Cm1. bounds. } { rewrite Cm1. bounds. } { unfold length. lia. }
  cbn [bind]. destruct (fill_cols_ok m2 (from (length s)) (o_zero O) (length s) (2 * length s)) as (m3 & -> & Wm3 & Nm3 & Cm3 & Vm3); auto.
  { rewrite Cm2, Cm1. bounds. } { rewrite Cm2, Cm1. bounds. }
  cbn [bind]. destruct (reciprocal_ok m3) as (p & q & -> & Eq & Wq & Nq & Cq & Vq); auto; [lia|rewrite Cm3, Cm2, Cm1, Z.mul_comm; apply Z_mod_mult|].
  cbn [bind]. rewrite Eq. cbn [bind].
  assert (B1 : wf (block q everything (between 0 (length s))) /\ nrows (block q everything (between 0 (length s))) = count s /\ cols (block q everything (between 0 (length s))) = length s).
  { split; [now apply wf_block|]. rewrite nrows_block, cols_block, lower_everything, upper_everything, lower_between, upper_between by lia. lia. }
  destruct B1 as (WB1 & NB1 & CB1).
  assert (B2 : wf (block q everything (from (length s))) /\ nrows (block q everything (from (length s))) = count s /\ cols (block q everything (from (length s))) = length s).
  { split; [now apply wf_block|]. rewrite nrows_block, cols_block, lower_everything, upper_everything, lower_from, upper_from by lia. lia. }
  destruct B2 as (WB2 & NB2 & CB2).
  rewrite set_all_ok by (auto; lia). cbn [bind].
  set (b1 := block q everything (between 0 (length s))) in *. set (b2 := block q everything (from (length s))) in *.
  destruct (ufunc2_into_ok (o_add O) b1 b2 b1 everything everything) as (z & -> & Wz & Nz & Cz & Vz); auto;
    rewrite ?lower_everything, ?upper_everything by lia; try lia.
  cbn [bind]. eexists. split; [reflexivity|]. unfold mk_signal. assert (Nz' : nrows z = count s) by lia. assert (Cz' : cols z = length s) by lia.
  rewrite sanitize_same by (rewrite Nz'; apply W). split; [split; auto; cbn; rewrite Nz'; apply W|]. repeat (split; [auto|]).
  intros c Hc. cbn [channels]. assert (Lx : zlen (rowv (channels s) c) = length s) by (apply zlen_rowv; [apply W|exact Hc]).
  assert (Lp : zlen (rowv m3 c) = 2 * length s) by (rewrite zlen_rowv by (auto; lia); lia).
  assert (Vp : forall i, 0 <= i < 2 * length s -> at_R (rowv m3 c) i = at_R (rowv (channels s) c) i).
  { intros i Hi. unfold at_R. rewrite <- !el_rowv by (auto; lia). rewrite Vm3, Vm2 by lia. destruct ((length s <=? i) && _) eqn:E1.
    - rewrite el_out; [reflexivity|apply W|unfold length in *; lia].
    - replace (_ && _) with true by lia. now replace (i - 0) with i by lia. }
  apply (folded_inverts _ (rowv m3 c) (reciprocal (rowv m3 c))); auto.
  - rewrite <- Lp. apply reciprocal_inverts; [lia|]. intros k Hk. rewrite (padded_dft_ok (rowv (channels s) c)); rewrite ?Lx; auto.
    apply NZ; auto. rewrite Lp in Hk. rewrite Z.mul_comm, Z.div_mul in Hk by lia. lia.
  - intros i Hi. unfold at_R at 1. rewrite <- el_rowv by lia. rewrite Vz, !lower_everything, !upper_everything by lia. replace (_ && _) with true by lia.
    rewrite !Z.sub_0_r, !one_index by lia. unfold b1, b2. rewrite !el_block by auto.
    rewrite !lower_everything, !upper_everything, lower_between, upper_between, lower_from, upper_from by lia.
    replace ((0 <=? c) && (c <? nrows q - 0) && (0 <=? i) && (i <? length s - 0)) with true by lia.
    replace ((0 <=? c) && (c <? nrows q - 0) && (0 <=? i) && (i <? cols q - length s)) with true by lia.
    rewrite !Z.add_0_r, !Vq by lia. reflexivity.
Qed.

(** ** In terms of times *)

Lemma inverts_impulse a b c : wf_signal a -> wf_signal b -> count b = count a -> length b = length a -> offset b = - offset a -> 0 < length a -> 0 <= c < count a ->
  inverts (rowv (channels a) c) (rowv (channels b) c) (length a) ->
  forall t, 0 <= t < length a -> circular_convolution_at a b c t = (if t =? 0 then 1 else 0)%R.
Proof.
  intros Wa Wb Nb Lb Ob Hn Hc Hi t Ht. rewrite <- (Hi t Ht). unfold circular_convolution_at. rewrite sum_over_time_sum. apply sumz_ext. intros k Hk.
  rewrite sample_row by auto. f_equal. unfold periodic, begins. rewrite sample_row by (auto; lia). f_equal. rewrite Lb, Ob. f_equal. lia.
Qed.

Lemma dft_fourier_sum s c k : wf_signal s -> 0 <= c < count s -> 0 < length s -> fourier_sum s c (IZR k / IZR (length s))%R <> C_of_R 0 -> dft (rowv (channels s) c) k <> C_of_R 0.
Proof. intros W Hc Hn H E. apply H. rewrite fourier_sum_dft by auto. rewrite E. ring. Qed.

Lemma padded_fourier_sum s c k : wf_signal s -> 0 <= c < count s -> 0 < length s -> fourier_sum s c (IZR k / IZR (2 * length s))%R <> C_of_R 0 ->
  padded_dft (rowv (channels s) c) k <> C_of_R 0.
Proof.
  intros W Hc Hn H E. apply H. transitivity (Cmul (padded_dft (rowv (channels s) c) k) (root (2 * length s) (- (k * offset s)))); [|rewrite E; ring].
  unfold fourier_sum. rewrite Csum_over_time_sum. assert (Lx : zlen (rowv (channels s) c) = length s) by (apply zlen_rowv; [apply W|exact Hc]).
  unfold padded_dft. rewrite Lx. change Cmul with (o_mul CO) at 2. rewrite <- (sumz_mul_r CO CO_ring).
  apply sumz_ext. intros i _. rewrite sample_row by auto. cbn [o_mul CO complex_ops].
  assert (A : forall a b z, Cmul (Cmul z a) b = Cmul z (Cmul a b)) by (intros; ring). rewrite A. f_equal. rewrite <- root_add by lia. unfold root. f_equal.
  rewrite plus_IZR, plus_IZR, !opp_IZR, !mult_IZR. pose proof (n_not_0 (length s) Hn). field. auto.
Qed.

(** The period, at which the spectrum of the signal must not have zeros: the length is doubled if it is odd. *)
Lemma invert_ok s n : wf_signal s -> 0 < length s -> n = (if length s mod 2 =? 0 then length s else 2 * length s) ->
  (forall c k, 0 <= c < count s -> 0 <= k <= n / 2 -> fourier_sum s c (IZR k / IZR n)%R <> C_of_R 0) ->
  exists r, signal_invert O X junk s = Ok r /\ wf_signal r /\ sampling_rate r = sampling_rate s /\ begins r = - begins s /\ labels r = labels s /\
    count r = count s /\ length r = length s /\
    forall c t, 0 <= c < count s -> 0 <= t < length s -> circular_convolution_at s r c t = (if t =? 0 then 1 else 0)%R.
Proof.
  intros W Hn En NZ. pose proof (Z.mod_pos_bound (length s) 2 ltac:(lia)) as B. destruct (length s mod 2 =? 0) eqn:E.
  - destruct (invert_even_ok s W Hn ltac:(lia)) as (r & Er & Wr & Fr & Or & Br & Nr & Lr & V).
    { intros c k Hc Hk. apply dft_fourier_sum; auto. rewrite <- En. apply NZ; auto. rewrite En. auto. }
    exists r. repeat (split; [assumption|]). intros c t Hc Ht. apply inverts_impulse; auto.
  - destruct (invert_odd_ok s W Hn ltac:(lia)) as (r & Er & Wr & Fr & Or & Br & Nr & Lr & V).
    { intros c k Hc Hk. apply padded_fourier_sum; auto. rewrite <- En. apply NZ; auto. rewrite En, Z.mul_comm, Z.div_mul by lia. lia. }
    exists r. repeat (split; [assumption|]). intros c t Hc Ht. apply inverts_impulse; auto.
Qed.

(** The same with the method [convolve] *)
Lemma convolve_inverse_ok s : wf_signal s -> 0 < length s -> length s mod 2 = 0 ->
  (forall c k, 0 <= c < count s -> 0 <= k <= length s / 2 -> fourier_sum s c (IZR k / IZR (length s))%R <> C_of_R 0) ->
  exists r i, signal_invert O X junk s = Ok r /\ signal_convolve O X junk s (OtherSignal r) SPECTRUM = Ok i /\
    sampling_rate i = sampling_rate s /\ samples_are i (count s) 0 (length s) (fun c t => if t =? 0 then 1 else 0)%R.
Proof.
  intros W Hn Ev NZ. destruct (invert_even_ok s W Hn ltac:(lia)) as (r & Er & Wr & Fr & Or & Br & Nr & Lr & V).
  { intros c k Hc Hk. apply dft_fourier_sum; auto. }
  destruct (spectrum_convolution_signal O RT junk X s r W Wr Hn ltac:(lia) EX (length s)) as (i & Ei & Fi & Wi & Ni & Bi & Ci & Vi); auto; try lia.
  exists r, i. split; [exact Er|]. split; [exact Ei|]. split; [exact Fi|].
  assert (Pc : paired_count s r = count s). { unfold paired_count. rewrite Nr. destruct (count s =? 1); lia. }
  unfold begins, ends in *. split; [exact Wi|]. split; [lia|]. split; [unfold begins; lia|]. split; [unfold ends; lia|].
  intros c t Hc Ht. rewrite Vi by lia. f_equal. rewrite !(convolution_lin O) by (auto; lia).
  assert (Hr : forall q : signal R, count q = count s -> row_of q c = rowv (channels q) c).
  { intros q Hq. unfold row_of, paired_row. fold (count q). rewrite Hq. destruct (count s =? 1) eqn:E; [|reflexivity]. now replace c with 0 by lia. }
  rewrite !Hr by auto. replace (t + length s - offset s - offset r) with (t - offset s - offset r + length s) by lia.
  assert (L1 : zlen (rowv (channels s) c) = length s) by (apply zlen_rowv; [apply W|exact Hc]).
  assert (L2 : zlen (rowv (channels r) c) = length s) by (rewrite <- Lr; apply zlen_rowv; [apply Wr|unfold count in *; lia]).
  change Rplus with (o_add O). rewrite <- (ccon_lin O RT) by lia. replace (t - offset s - offset r) with t by lia. rewrite <- (V c Hc t) by lia. reflexivity.
Qed.

End Invert.
