(** The spectrums of windows, the bandwidth, the scalloping loss and the recommended overlap. *)

From Coq Require Import String ZArith List Bool Lia ZifyBool Reals Lra Ring_theory Field_theory Ring Field.
From Verif.Model Require Import Py Numpy Vector Functions Signal Fft Generators Windows WindowSpectra.
From Verif.Spec Require Import TimeSpec RealSpec ConvolutionSpec ComplexSpec DftSpec BlockSpec WindowSpec WindowSpectraSpec.
From Verif.Proofs Require Import PyFacts NumpyFacts VectorFacts SumFacts ComplexFacts ConvolveFacts DftFacts BlockRanges FilterFacts WindowMeasures WindowResults.
Import ListNotations.
Open Scope Z_scope.
Ltac Zify.zify_post_hook ::= idtac.

Section Spectra.
Variables power modulo : R -> R -> R.
Variable junk : Z -> R.
Notation O := (real_ops power modulo).
Variable w : signal R.
Hypothesis Ww : wf_signal w.
Hypothesis One : count w = 1.
Notation l := (length w).
Hypothesis Pos : 0 < l.

Lemma padded_ok factor : 0 < factor ->
  exists p, padded_channel O junk w factor = Ok p /\ zlen p = factor * l /\ forall n, at_R p n = window_at w 0 n.
Proof.
  intros F. destruct (first_channel_ok w Ww One) as (_ & L & V). unfold padded_channel.
  destruct (vector_ok junk (factor * l)) as (v & -> & Lv); [nia|]. cbn [bind].
  destruct (vset_between v 0 l (first_channel w)) as (v1 & -> & L1 & V1); [lia|nia|lia|]. cbn [bind].
  assert (G : 0 <= l <= zlen v1) by nia. destruct (vfill_from v1 l (o_zero O) G) as [L2 V2]. eexists. split; [reflexivity|]. split; [lia|].
  intros n. rewrite <- V. unfold at_R. rewrite V2, V1, L1, Lv.
  destruct ((l <=? n) && (n <? factor * l)) eqn:E1; [rewrite (zth_out (first_channel w)) by lia; reflexivity|].
  destruct ((0 <=? n) && (n <? l)) eqn:E2; [now rewrite Z.sub_0_r|]. rewrite !zth_out by lia. reflexivity.
Qed.

Lemma padded_dft p factor k : 0 < factor -> zlen p = factor * l -> (forall n, at_R p n = window_at w 0 n) ->
  modulus (dft p k) = magnitude_at w (IZR k / IZR (factor * l)).
Proof.
  intros F L V. assert (N0 : 0 < factor * l) by nia. unfold magnitude_at. f_equal. rewrite (dft_sum (factor * l) N0 p k L), (Csum_sumz l).
  rewrite (sumz_ext CO 0 (factor * l) _ (fun n => Cmul (C_of_R (window_at w 0 n)) (cis (- (2 * PI * (IZR k / IZR (factor * l)) * IZR n))%R))).
  - symmetry. apply sumz_extend; [exact CO_ring|lia|nia|lia|]. intros n Hn. destruct (first_channel_ok w Ww One) as (_ & Lf & Vf). rewrite <- Vf.
    rewrite at_out by lia. apply C_ext; cbn; ring.
  - intros n _. rewrite V. f_equal. unfold root. f_equal. rewrite opp_IZR, mult_IZR. field. apply IZR_neq. lia.
Qed.

Lemma spectrum_ok factor : 0 < factor ->
  exists p, padded_channel O junk w factor = Ok p /\ rfft_vector real_transforms p = Ok (rfft p) /\
    zlen (rfft p) = factor * l / 2 + 1 /\ forall k, 0 <= k <= factor * l / 2 -> zth (rfft p) k = Some (dft p k) /\ modulus (dft p k) = magnitude_at w (IZR k / IZR (factor * l)).
Proof.
  intros F. assert (N0 : 0 < factor * l) by nia. destruct (padded_ok factor F) as (p & E & L & V). exists p. split; [exact E|]. split; [unfold rfft_vector; replace (zlen p <? 1) with false by lia; reflexivity|].
  split; [rewrite zlen_rfft, L; reflexivity|]. intros k Hk. split; [apply (zth_rfft (factor * l)); [exact L|lia]|]. now apply padded_dft.
Qed.

(** ** Magnitudes *)

Lemma modulus_mul z v : modulus (Cmul z v) = (modulus z * modulus v)%R.
Proof. unfold modulus. rewrite <- sqrt_mult by apply norm2_nonneg. f_equal. unfold norm2, Cmul, re, im. cbn [fst snd]. ring. Qed.
Lemma modulus_cis t : modulus (cis t) = 1%R.
Proof. unfold modulus, norm2, cis, re, im. cbn [fst snd]. pose proof (sin2_cos2 t) as H. unfold Rsqr in H. rewrite Rplus_comm, H. apply sqrt_1. Qed.
Lemma modulus_R x : modulus (C_of_R x) = Rabs x.
Proof. unfold modulus. rewrite norm2_real. apply sqrt_Rsqr_abs. Qed.

Lemma modulus_triangle z v : (modulus (Cadd z v) <= modulus z + modulus v)%R.
Proof.
  pose proof (modulus_nonneg z). pose proof (modulus_nonneg v). pose proof (modulus_nonneg (Cadd z v)).
  apply Rsqr_incr_0_var; [|lra]. unfold Rsqr. rewrite modulus_sqr.
  replace ((modulus z + modulus v) * (modulus z + modulus v))%R with (modulus z * modulus z + modulus v * modulus v + 2 * (modulus z * modulus v))%R by ring.
  rewrite !modulus_sqr, <- modulus_mul.
  assert (C : (re z * re v + im z * im v <= modulus (Cmul z (Cconj v)))%R).
  { unfold modulus. eapply Rle_trans; [apply Rle_abs|]. rewrite <- sqrt_Rsqr_abs. apply sqrt_le_1_alt. unfold Rsqr, norm2, Cmul, Cconj, re, im. cbn [fst snd].
    pose proof (Rle_0_sqr (fst z * - snd v + snd z * fst v)) as Q. unfold Rsqr in Q. nra. }
  replace (modulus (Cmul z (Cconj v))) with (modulus (Cmul z v)) in C; [unfold norm2, Cadd, re, im in *; cbn [fst snd] in *; nra|].
  rewrite !modulus_mul. f_equal. unfold modulus, norm2, Cconj, re, im. cbn [fst snd]. f_equal. ring.
Qed.

Lemma modulus_Csum n f : (modulus (Csum n f) <= Rsum_list (zseq 0 n) (fun k => modulus (f k)))%R.
Proof.
  unfold Csum, Rsum_list. induction (zseq 0 n) as [|k r IH]; cbn [fold_right]; [rewrite modulus_R, Rabs_R0; lra|].
  eapply Rle_trans; [apply modulus_triangle|]. lra.
Qed.

Lemma magnitude_0 : magnitude_at w 0 = Rabs (window_sum w).
Proof.
  unfold magnitude_at, window_sum. rewrite <- modulus_R. f_equal. unfold Csum, Rsum_list. induction (zseq 0 l) as [|k r IH]; cbn [fold_right]; [reflexivity|].
  rewrite IH. replace (- (2 * PI * 0 * IZR k))%R with 0%R by ring. rewrite cis_0. apply C_ext; cbn; ring.
Qed.

Lemma Rsum_list_nonneg r f : (forall k, 0 <= f k)%R -> (0 <= Rsum_list r f)%R.
Proof. intros H. unfold Rsum_list. induction r as [|k r IH]; cbn [fold_right]; [lra|]. pose proof (H k). lra. Qed.

(** The maximum of a window's spectrum is at 0 Hz. *)
Lemma magnitude_max nu : (forall n, 0 <= window_at w 0 n)%R -> (magnitude_at w nu <= magnitude_at w 0)%R.
Proof.
  intros H. rewrite magnitude_0. unfold magnitude_at. eapply Rle_trans; [apply modulus_Csum|].
  rewrite (Rsum_list_ext _ _ (window_at w 0)) by (intros n _; rewrite modulus_mul, modulus_cis, modulus_R, Rabs_right by (apply Rle_ge, H); ring).
  rewrite Rabs_right; [unfold window_sum; lra|]. apply Rle_ge, Rsum_list_nonneg, H.
Qed.

(** ** Continuity *)

Lemma magnitude_parts nu : (magnitude_at w nu * magnitude_at w nu)%R =
  (Rsum_list (zseq 0 l) (fun n => window_at w 0 n * cos (2 * PI * nu * IZR n)) * Rsum_list (zseq 0 l) (fun n => window_at w 0 n * cos (2 * PI * nu * IZR n)) +
   Rsum_list (zseq 0 l) (fun n => window_at w 0 n * sin (2 * PI * nu * IZR n)) * Rsum_list (zseq 0 l) (fun n => window_at w 0 n * sin (2 * PI * nu * IZR n)))%R.
Proof.
  unfold magnitude_at. rewrite modulus_sqr. unfold norm2.
  replace (re (Csum l _)) with (Rsum_list (zseq 0 l) (fun n => window_at w 0 n * cos (2 * PI * nu * IZR n)))%R.
  - replace (im (Csum l _)) with (- Rsum_list (zseq 0 l) (fun n => window_at w 0 n * sin (2 * PI * nu * IZR n)))%R; [ring|].
    unfold Csum, Rsum_list. induction (zseq 0 l) as [|k r IH]; cbn [fold_right]; [cbn; ring|]. unfold Cadd at 1. cbn [im snd]. rewrite <- IH. cbn. rewrite sin_neg. ring.
  - unfold Csum, Rsum_list. induction (zseq 0 l) as [|k r IH]; cbn [fold_right]; [cbn; ring|]. unfold Cadd at 1. cbn [re fst]. rewrite <- IH. cbn. rewrite cos_neg. ring.
Qed.

Lemma Rsum_continuous r (f : Z -> R -> R) : (forall k, continuity (f k)) -> continuity (fun x => Rsum_list r (fun k => f k x)).
Proof.
  intros H. induction r as [|k r IH]; [apply continuity_const; intros x y; reflexivity|].
  exact (continuity_plus (f k) (fun x => Rsum_list r (fun k => f k x)) (H k) IH).
Qed.

Lemma continuity_ext (f g : R -> R) : (forall x, f x = g x) -> continuity f -> continuity g.
Proof. intros H C x eps He. destruct (C x eps He) as (a & Ha & P). exists a. split; [exact Ha|]. intros y Hy. specialize (P y Hy). simpl in *. now rewrite <- !H. Qed.

Lemma linear_continuous a : continuity (fun x => a * x)%R.
Proof. exact (continuity_mult (fun _ => a) id (continuity_const (fun _ => a) (fun _ _ => eq_refl)) (derivable_continuous id derivable_id)). Qed.

Lemma term_continuous (trig : R -> R) g k : continuity trig -> continuity (fun nu => g k * trig (2 * PI * nu * IZR k))%R.
Proof.
  intros T. apply (continuity_scal (fun nu => trig (2 * PI * nu * IZR k))%R). apply (continuity_comp (fun nu => 2 * PI * nu * IZR k)%R trig); [|exact T].
  eapply continuity_ext; [|apply (linear_continuous (2 * PI * IZR k))]. intros y. cbv beta. ring.
Qed.

Lemma square_continuous : continuity (fun nu => magnitude_at w nu * magnitude_at w nu)%R.
Proof.
  set (c := fun nu => Rsum_list (zseq 0 l) (fun n => window_at w 0 n * cos (2 * PI * nu * IZR n))%R).
  set (s := fun nu => Rsum_list (zseq 0 l) (fun n => window_at w 0 n * sin (2 * PI * nu * IZR n))%R).
  assert (Cc : continuity c) by (apply (Rsum_continuous _ (fun n nu => window_at w 0 n * cos (2 * PI * nu * IZR n))%R); intros n; apply term_continuous, continuity_cos).
  assert (Cs : continuity s) by (apply (Rsum_continuous _ (fun n nu => window_at w 0 n * sin (2 * PI * nu * IZR n))%R); intros n; apply term_continuous, continuity_sin).
  eapply continuity_ext; [|exact (continuity_plus (fun x => c x * c x)%R (fun x => s x * s x)%R (continuity_mult c c Cc Cc) (continuity_mult s s Cs Cs))].
  intros y. symmetry. exact (magnitude_parts y).
Qed.

Lemma magnitude_nonneg nu : (0 <= magnitude_at w nu)%R.
Proof. apply modulus_nonneg. Qed.

(** The spectrum crosses a value between two frequencies. *)
Lemma crossing a b y : (a <= b)%R -> (0 <= y)%R -> (magnitude_at w b <= y <= magnitude_at w a)%R -> exists x, (a <= x <= b)%R /\ magnitude_at w x = y.
Proof.
  intros AB Y [B A]. pose proof (magnitude_nonneg a). pose proof (magnitude_nonneg b).
  destruct (IVT_cor (fun x => magnitude_at w x * magnitude_at w x - y * y)%R a b) as (x & X & E).
  - exact (continuity_minus (fun x => magnitude_at w x * magnitude_at w x)%R (fun _ => y * y)%R square_continuous (continuity_const (fun _ => y * y)%R (fun _ _ => eq_refl))).
  - exact AB.
  - assert (0 <= magnitude_at w a * magnitude_at w a - y * y)%R by nra. assert (magnitude_at w b * magnitude_at w b - y * y <= 0)%R by nra. nra.
  - exists x. split; [exact X|]. pose proof (magnitude_nonneg x). cbv beta in E. apply Rsqr_inj; auto. unfold Rsqr. lra.
Qed.

(** ** The bandwidth *)

Lemma first_below_ok (th : R) rest : forall i m k, (exists n y, zth rest n = Some y /\ (y < th)%R) ->
  exists n y, first_below less th i m k rest = (k + n, y) /\ zth rest n = Some y /\ (y < th)%R /\ forall n' y', 0 <= n' < n -> zth rest n' = Some y' -> (th <= y')%R.
Proof.
  induction rest as [|y rest IH]; intros i m k (n & y0 & Z0 & Y0); [rewrite zth_nil in Z0; discriminate|]. cbn [first_below]. unfold less at 1. destruct (Rlt_dec y th) as [Y|Y].
  - exists 0, y. rewrite Z.add_0_r. split; [reflexivity|]. split; [reflexivity|]. split; [exact Y|]. intros; lia.
  - destruct (IH k y (k + 1)) as (n1 & y1 & E & Z1 & Y1 & B).
    + exists (n - 1), y0. split; [|exact Y0]. assert (0 <= n) by (destruct (Z_lt_le_dec n 0); [rewrite zth_out in Z0 by lia; discriminate|lia]). rewrite zth_cons in Z0.
      destruct (n =? 0) eqn:E0; [injection Z0; intros; subst; contradiction|exact Z0].
    + assert (0 <= n1) by (destruct (Z_lt_le_dec n1 0); [rewrite zth_out in Z1 by lia; discriminate|lia]).
      exists (n1 + 1), y1. rewrite E. split; [f_equal; lia|]. split; [rewrite zth_cons; replace (n1 + 1 =? 0) with false by lia; now replace (n1 + 1 - 1) with n1 by lia|].
      split; [exact Y1|]. intros n' y' Hn Z'. rewrite zth_cons in Z'. destruct (n' =? 0) eqn:E0; [injection Z' as <-; lra|]. apply (B (n' - 1)); [lia|exact Z'].
Qed.

Lemma bandwidth_ok oversampling : 0 < oversampling -> (0 < sampling_rate w)%R ->
  (exists k, 0 <= k <= oversampling * l / 2 /\ (magnitude_at w (IZR k / IZR (oversampling * l)) < threshold w)%R) ->
  exists b k, real_bandwidth power modulo junk w oversampling = Ok (Some b) /\ 0 <= k < oversampling * l / 2 /\
    (forall i, 0 <= i <= k -> (threshold w <= magnitude_at w (IZR i / IZR (oversampling * l)))%R) /\ (magnitude_at w (IZR (k + 1) / IZR (oversampling * l)) < threshold w)%R /\
    b = (2 * (IZR k + (threshold w - magnitude_at w (IZR k / IZR (oversampling * l))) /
               (magnitude_at w (IZR (k + 1) / IZR (oversampling * l)) - magnitude_at w (IZR k / IZR (oversampling * l)))) * (sampling_rate w / IZR (oversampling * l)))%R.
Proof.
  intros Po Pr (k0 & Hk0 & B0). set (N := oversampling * l) in *. assert (N0 : 0 < N) by (unfold N; nia).
  destruct (spectrum_ok oversampling Po) as (p & Ep & Er & Lr & V). fold N in Lr, V. unfold bandwidth. rewrite Ep. cbn [bind]. rewrite Er. cbn [bind].
  set (ms := map modulus (rfft p)). assert (Vm : forall k, 0 <= k <= N / 2 -> zth ms k = Some (magnitude_at w (IZR k / IZR N))).
  { intros k Hk. unfold ms. rewrite zth_map. destruct (V k Hk) as [-> E]. cbn. now rewrite E. }
  assert (Lm : zlen ms = N / 2 + 1) by (unfold ms; now rewrite zlen_map). assert (N2 : 0 <= N / 2) by (apply Z.div_pos; lia).
  assert (M0 : magnitude_at w (0 / IZR N) = magnitude_at w 0) by (f_equal; unfold Rdiv; ring).
  assert (G0 : getitem ms 0 = Ok (magnitude_at w 0)) by (unfold getitem; cbn [Z.ltb Z.compare]; rewrite Vm by lia; now rewrite M0). rewrite G0. cbn [bind].
  change (o_div O (magnitude_at w 0) (sqrt 2)) with (threshold w).
  assert (Vd : forall k, 0 <= k -> zth (zdrop 1 ms) k = zth ms (k + 1)) by (intros k Hk; rewrite zth_drop; replace (k <? 0) with false by lia; f_equal; lia).
  assert (Th : (threshold w <= magnitude_at w (0 / IZR N))%R).
  { rewrite M0. unfold threshold. pose proof (magnitude_nonneg 0). assert (1 <= sqrt 2)%R by (rewrite <- sqrt_1 at 1; apply sqrt_le_1_alt; lra).
    apply (Rmult_le_reg_r (sqrt 2)); [lra|]. unfold Rdiv. rewrite Rmult_assoc, Rinv_l by lra. nra. }
  assert (K0 : k0 <> 0) by (intros ->; lra).
  destruct (first_below_ok (threshold w) (zdrop 1 ms) 0 (o_zero O) 0) as (n & y & -> & Zn & Yn & Bn).
  { exists (k0 - 1), (magnitude_at w (IZR k0 / IZR N)). split; [|exact B0]. rewrite Vd by lia. replace (k0 - 1 + 1) with k0 by lia. now apply Vm. }
  assert (Hn : 0 <= n) by (destruct (Z_lt_le_dec n 0); [rewrite zth_out in Zn by lia; discriminate|lia]). rewrite Vd in Zn by lia.
  assert (Hn' : n < N / 2) by (destruct (Z_lt_le_dec n (N / 2)); [lia|rewrite zth_out in Zn by lia; discriminate]).
  rewrite Vm in Zn by lia. apply some_inv in Zn. subst y. rewrite Z.add_0_l.
  assert (Gn : getitem ms n = Ok (magnitude_at w (IZR n / IZR N))) by (unfold getitem; replace (n <? 0) with false by lia; now rewrite Vm by lia). rewrite Gn. cbn [bind].
  assert (Bs : forall i, 0 <= i <= n -> (threshold w <= magnitude_at w (IZR i / IZR N))%R).
  { intros i Hi. destruct (Z.eq_dec i 0) as [->|I0]; [exact Th|]. apply (Bn (i - 1)); [lia|]. rewrite Vd by lia. replace (i - 1 + 1) with i by lia. apply Vm. lia. }
  pose proof (Bs n ltac:(lia)) as Bn'. unfold quotient. cbn [o_abs o_sub o_zero o_eqb o_div o_mul o_add o_one real_ops].
  rewrite !Rabs_right by (apply Rle_ge, magnitude_nonneg).
  destruct (Req_EM_T _ 0) as [Z0|NZ]; [exfalso; lra|]. eexists. exists n. split; [reflexivity|]. split; [lia|]. split; [exact Bs|]. split; [exact Yn|].
  revert NZ. set (ya := magnitude_at w (IZR n / IZR N)). set (yb := magnitude_at w (IZR (n + 1) / IZR N)). clearbody ya yb. intros NZ.
  unfold N. rewrite mult_IZR. field. repeat split; try lra; apply IZR_neq; lia.
Qed.

(** What this means: the point, where the line between the two bins crosses the threshold, is half of the result. *)
Lemma bandwidth_line oversampling : 0 < oversampling -> (0 < sampling_rate w)%R ->
  (exists k, 0 <= k <= oversampling * l / 2 /\ (magnitude_at w (IZR k / IZR (oversampling * l)) < threshold w)%R) ->
  exists b k f1 f2, real_bandwidth power modulo junk w oversampling = Ok (Some b) /\ 0 <= k < oversampling * l / 2 /\
    f1 = (IZR k * (sampling_rate w / IZR (oversampling * l)))%R /\ f2 = (IZR (k + 1) * (sampling_rate w / IZR (oversampling * l)))%R /\
    (forall i, 0 <= i <= k -> (threshold w <= magnitude_at w (IZR i / IZR (oversampling * l)))%R) /\ (magnitude_at w (IZR (k + 1) / IZR (oversampling * l)) < threshold w)%R /\
    (f1 <= b / 2 < f2)%R /\ line f1 (magnitude_at w (f1 / sampling_rate w)) f2 (magnitude_at w (f2 / sampling_rate w)) (b / 2) = threshold w /\
    exists f, (f1 <= f <= f2)%R /\ magnitude_at w (f / sampling_rate w) = threshold w /\ (Rabs (b / 2 - f) <= sampling_rate w / IZR (oversampling * l))%R.
Proof.
  intros Po Pr H. destruct (bandwidth_ok oversampling Po Pr H) as (b & k & E & Hk & B & B' & Eb). set (N := oversampling * l) in *.
  assert (N0 : (0 < IZR N)%R) by (apply IZR_lt; unfold N; nia). set (q := (sampling_rate w / IZR N)%R) in *.
  assert (Q0 : (0 < q)%R) by (apply Rdiv_lt_0_compat; lra).
  exists b, k, (IZR k * q)%R, (IZR (k + 1) * q)%R. split; [exact E|]. split; [exact Hk|]. split; [reflexivity|]. split; [reflexivity|]. split; [exact B|]. split; [exact B'|].
  replace (IZR k * q / sampling_rate w)%R with (IZR k / IZR N)%R by (unfold q; field; lra).
  replace (IZR (k + 1) * q / sampling_rate w)%R with (IZR (k + 1) / IZR N)%R by (unfold q; field; lra).
  pose proof (B k ltac:(lia)) as Bk.
  assert (In : (IZR k * q <= b / 2 < IZR (k + 1) * q)%R /\
    line (IZR k * q) (magnitude_at w (IZR k / IZR N)) (IZR (k + 1) * q) (magnitude_at w (IZR (k + 1) / IZR N)) (b / 2) = threshold w).
  { revert Eb Bk B'. generalize (magnitude_at w (IZR k / IZR N)) (magnitude_at w (IZR (k + 1) / IZR N)) (threshold w). intros ya yb th Eb A1 A2.
    set (fr := ((th - ya) / (yb - ya))%R) in *. assert (Fr : (fr * (yb - ya) = th - ya)%R) by (unfold fr; field; lra). assert (F0 : (0 <= fr)%R) by nra. assert (F1 : (fr < 1)%R) by nra.
    replace (b / 2)%R with ((IZR k + fr) * q)%R by (rewrite Eb; field). rewrite plus_IZR. split; [nra|]. unfold line.
    replace ((yb - ya) * ((IZR k + fr) * q - IZR k * q) / ((IZR k + 1) * q - IZR k * q))%R with (fr * (yb - ya))%R by (field; lra). rewrite Fr. ring. }
  destruct In as [I1 I2]. split; [exact I1|]. split; [exact I2|].
  assert (T0 : (0 <= threshold w)%R). { unfold threshold. apply Rmult_le_pos; [apply magnitude_nonneg|]. left. apply Rinv_0_lt_compat, sqrt_lt_R0. lra. }
  assert (K1 : (IZR k / IZR N <= IZR (k + 1) / IZR N)%R).
  { apply Rmult_le_compat_r; [left; now apply Rinv_0_lt_compat|]. apply IZR_le. lia. }
  destruct (crossing _ _ (threshold w) K1 T0 (conj (Rlt_le _ _ B') Bk)) as (x & X & Ex).
  assert (Eq : forall i, (IZR i * q)%R = (IZR i / IZR N * sampling_rate w)%R) by (intros i; unfold q; field; lra).
  exists (x * sampling_rate w)%R. rewrite Eq, (Eq (k + 1)) in *. split; [split; apply Rmult_le_compat_r; lra|].
  split; [replace (x * sampling_rate w / sampling_rate w)%R with x by (field; lra); exact Ex|].
  assert (Dq : (IZR (k + 1) / IZR N * sampling_rate w - IZR k / IZR N * sampling_rate w = q)%R) by (unfold q; rewrite plus_IZR; field; lra).
  apply Rabs_le. split; nra.
Qed.

(** ** The scalloping loss *)

Lemma Rabs_eq_0 x : Rabs x = 0%R -> x = 0%R.
Proof. intros H. destruct (Req_dec x 0) as [E|E]; [exact E|]. now apply Rabs_no_R0 in E. Qed.

Lemma C_eqb_zero z : C_eqb (C_of_R 0) z = true <-> modulus z = 0%R.
Proof.
  rewrite C_eqb_eq. split; [intros <-; rewrite modulus_R; apply Rabs_R0|]. intros H. symmetry. apply norm2_zero. rewrite <- modulus_sqr, H. ring.
Qed.

Lemma modulus_inv z : modulus z <> 0%R -> modulus (Cinv z) = (/ modulus z)%R.
Proof.
  intros H. assert (NZ : z <> (0, 0)%R) by (intros ->; apply H; change (0, 0)%R with (C_of_R 0); rewrite modulus_R; apply Rabs_R0).
  apply (Rmult_eq_reg_r (modulus z)); [|exact H]. rewrite <- modulus_mul, Cmul_inv, Rinv_l by auto. change (1, 0)%R with (C_of_R 1). rewrite modulus_R. apply Rabs_R1.
Qed.

Lemma scalloping_ok : real_scalloping_loss power modulo junk w =
  Ok (if Req_EM_T (window_sum w) 0 then None else Some (magnitude_at w (1 / (2 * IZR l)) / magnitude_at w 0)%R).
Proof.
  destruct (spectrum_ok 2 ltac:(lia)) as (p & Ep & Er & Lr & V). unfold scalloping_loss. rewrite Ep. cbn [bind]. rewrite Er. cbn [bind].
  replace (2 * l / 2) with l in * by (rewrite Z.mul_comm, Z.div_mul by lia; reflexivity).
  destruct (V 0 ltac:(lia)) as [V0 M0]. destruct (V 1 ltac:(lia)) as [V1 M1]. rewrite mult_IZR in M0, M1.
  replace (0 / (2 * IZR l))%R with 0%R in M0 by (unfold Rdiv; ring). unfold getitem. cbn [Z.ltb Z.compare]. rewrite V0, V1. cbn [bind]. f_equal.
  assert (E0 : C_eqb (C_of_R 0) (dft p 0) = true <-> window_sum w = 0%R).
  { rewrite C_eqb_zero, M0, magnitude_0. split; [apply Rabs_eq_0|intros ->; apply Rabs_R0]. }
  destruct (Req_EM_T (window_sum w) 0) as [Z0|Z0].
  - apply E0 in Z0. now rewrite Z0.
  - destruct (C_eqb (C_of_R 0) (dft p 0)); [exfalso; apply Z0, E0; reflexivity|]. f_equal. cbn [x_mul x_inverse real_transforms]. rewrite modulus_mul, modulus_inv, M0, M1; [reflexivity|].
    rewrite M0, magnitude_0. intros A. now apply Z0, Rabs_eq_0.
Qed.

Lemma scalloping_range : (forall n, 0 <= window_at w 0 n)%R -> window_sum w <> 0%R -> exists x, real_scalloping_loss power modulo junk w = Ok (Some x) /\ (0 <= x <= 1)%R.
Proof.
  intros P NZ. rewrite scalloping_ok. destruct (Req_EM_T (window_sum w) 0) as [Z0|_]; [contradiction|]. eexists. split; [reflexivity|].
  pose proof (magnitude_max (1 / (2 * IZR l)) P). pose proof (magnitude_nonneg (1 / (2 * IZR l))). pose proof (magnitude_nonneg 0).
  assert (M0 : (0 < magnitude_at w 0)%R). { rewrite magnitude_0. apply Rabs_pos_lt, NZ. }
  split; apply (Rmult_le_reg_r (magnitude_at w 0)); auto; unfold Rdiv; rewrite Rmult_assoc, Rinv_l by lra; lra.
Qed.

(** ** The recommended overlap *)

Lemma argmax_from_ok rest : forall i x k, exists m y, argmax_from less i x k rest = m /\
  ((m = i /\ y = x /\ forall n z, zth rest n = Some z -> (z <= x)%R) \/
   (k <= m < k + zlen rest /\ zth rest (m - k) = Some y /\ (x < y)%R /\ (forall n z, zth rest n = Some z -> (z <= y)%R /\ (n < m - k -> (z < y)%R)))).
Proof.
  induction rest as [|y rest IH]; intros i x k.
  - exists i, x. split; [reflexivity|]. left. repeat split; auto. intros n z. rewrite zth_nil. discriminate.
  - cbn [argmax_from]. unfold less at 1. rewrite zlen_cons. pose proof (zlen_nonneg rest). destruct (Rlt_dec x y) as [L|L].
    + destruct (IH k y (k + 1)) as (m & y' & -> & [(-> & -> & B)|(Hm & Z' & L' & B)]).
      * exists k, y. split; [reflexivity|]. right. split; [lia|]. rewrite Z.sub_diag. split; [reflexivity|]. split; [exact L|].
        intros n z. rewrite zth_cons. destruct (n =? 0) eqn:E; [intros [= <-]; split; [lra|lia]|]. intros Zn. pose proof (B _ _ Zn). split; [exact H0|].
        intros Hn. rewrite zth_out in Zn by lia. discriminate.
      * exists m, y'. split; [reflexivity|]. right. split; [lia|]. rewrite zth_cons. replace (m - k =? 0) with false by lia. split; [now replace (m - k - 1) with (m - (k + 1)) by lia|].
        split; [lra|]. intros n z. rewrite zth_cons. destruct (n =? 0) eqn:E; [intros [= <-]; split; [lra|intros; lra]|]. intros Zn. destruct (B _ _ Zn) as [B1 B2]. split; [exact B1|].
        intros Hn. apply B2. lia.
    + destruct (IH i x (k + 1)) as (m & y' & -> & [(-> & -> & B)|(Hm & Z' & L' & B)]).
      * exists i, x. split; [reflexivity|]. left. split; [reflexivity|]. split; [reflexivity|]. intros n z. rewrite zth_cons. destruct (n =? 0); [intros [= <-]; lra|]. apply B.
      * exists m, y'. split; [reflexivity|]. right. split; [lia|]. rewrite zth_cons. replace (m - k =? 0) with false by lia. split; [now replace (m - k - 1) with (m - (k + 1)) by lia|].
        split; [lra|]. intros n z. rewrite zth_cons. destruct (n =? 0) eqn:E; [intros [= <-]; split; [lra|intros; lra]|]. intros Zn. destruct (B _ _ Zn) as [B1 B2]. split; [exact B1|].
        intros Hn. apply B2. lia.
Qed.

Lemma argmax_ok v : 0 < zlen v -> exists m y, argmax less v = Ok m /\ 0 <= m < zlen v /\ zth v m = Some y /\ forall n z, zth v n = Some z -> (z <= y)%R /\ (n < m -> (z < y)%R).
Proof.
  destruct v as [|x rest]; [intros H; now apply Z.lt_irrefl in H|]. intros _. cbn [argmax]. rewrite zlen_cons. pose proof (zlen_nonneg rest).
  destruct (argmax_from_ok rest 0 x 1) as (m & y & -> & [(-> & -> & B)|(Hm & Z' & L' & B)]).
  - exists 0, x. split; [reflexivity|]. split; [lia|]. split; [reflexivity|]. intros n z. rewrite zth_cons. destruct (n =? 0) eqn:E; [intros [= <-]; split; [lra|lia]|].
    intros Zn. split; [now apply (B (n - 1))|]. intros Hn. rewrite zth_out in Zn by lia. discriminate.
  - exists m, y. split; [reflexivity|]. split; [lia|]. split; [rewrite zth_cons; now replace (m =? 0) with false by lia|].
    intros n z. rewrite zth_cons. destruct (n =? 0) eqn:E; [intros [= <-]; split; [lra|intros; lra]|]. intros Zn. destruct (B _ _ Zn) as [B1 B2]. split; [exact B1|]. intros Hn. apply B2. lia.
Qed.

Lemma overlapped_pos step : 0 < step <= l -> (0 < window_sum w)%R -> exists t, (0 < overlapped (window_at w 0) l step t)%R.
Proof.
  intros Hs P. assert (S : window_sum w = Rsum_list (zseq 0 step) (overlapped (window_at w 0) l step)).
  { unfold overlapped. rewrite Rsum_swap. apply Rsum_list_ext. intros n Hn. apply in_zseq in Hn. symmetry.
    rewrite (Rsum_list_ext _ _ (fun t => if t =? n mod step then window_at w 0 n else 0%R)).
    - rewrite (Rsum_single _ (n mod step)); [|apply NoDup_zseq|intros b Hb; replace (b =? n mod step) with false by lia; reflexivity].
      rewrite Z.eqb_refl. destruct (in_dec Z.eq_dec (n mod step) (zseq 0 step)) as [_|N]; [reflexivity|]. exfalso. apply N, in_zseq. apply Z.mod_pos_bound. lia.
    - intros t Ht. apply in_zseq in Ht. replace ((n - t) mod step =? 0) with (t =? n mod step); [reflexivity|].
      pose proof (Z.div_mod n step ltac:(lia)) as D. pose proof (Z.mod_pos_bound n step ltac:(lia)) as B. destruct (t =? n mod step) eqn:E.
      + symmetry. apply Z.eqb_eq. replace (n - t) with (n / step * step) by lia. apply Z.mod_mul. lia.
      + symmetry. apply Z.eqb_neq. intros M. apply Z.mod_divide in M; [|lia]. destruct M as (q & M). assert (t mod step = n mod step) as X.
        { replace t with (n + (- q) * step) by lia. apply Z.mod_add. lia. } rewrite Z.mod_small in X by lia. lia. }
  rewrite S in P. clear S. revert P. generalize (zseq 0 step). intros r. unfold Rsum_list. induction r as [|a r IH]; cbn [fold_right]; intros P; [lra|].
  destruct (Rlt_dec 0 (overlapped (window_at w 0) l step a)) as [Q|Q]; [now exists a|]. apply IH. lra.
Qed.

Lemma square_sum_pos : (0 < window_sum w)%R -> correlation (window_at w 0) l 0 <> 0%R.
Proof.
  unfold window_sum, correlation. generalize (window_at w 0). intros g P. assert (G : (0 < Rsum_list (zseq 0 l) (fun n => g n * g n))%R).
  { revert P. generalize (zseq 0 l). intros r. assert (Nn : forall r, (0 <= Rsum_list r (fun n => g n * g n))%R) by (intros; apply Rsum_list_nonneg; intros; nra).
    unfold Rsum_list in *. induction r as [|a r IH]; cbn [fold_right]; intros P; [lra|]. specialize (Nn r).
    destruct (Req_dec (g a) 0) as [Z0|Z0]; [rewrite Z0 in *; apply IH in P||(rewrite Rplus_0_l in P; apply IH in P); lra|]. pose proof (Rsqr_pos_lt _ Z0) as Q. unfold Rsqr in Q. lra. }
  rewrite (Rsum_list_ext _ _ (fun n => g n * g n)%R) by (intros; now rewrite Z.add_0_r). lra.
Qed.

Lemma flatness_unique S f g : is_flatness S f -> is_flatness S g -> f = g.
Proof. intros (a & b & -> & B) (a' & b' & -> & B'). pose proof (B a'). pose proof (B' a). pose proof (B b'). pose proof (B' b). replace (S a') with (S a) by lra. now replace (S b') with (S b) by lra. Qed.

Lemma compromise_unique k d d' : is_compromise w k d -> is_compromise w k d' -> d = d'.
Proof. intros (f & _ & F & ->) (f' & _ & F' & ->). now rewrite (flatness_unique _ _ _ F F'). Qed.

Lemma index_overlap k : 0 <= k < l -> index (NInt k) l = Ok (l - (l - k)).
Proof. intros H. replace (NInt k) with (NInt (l - (l - k))) by (f_equal; lia). apply index_rest. lia. Qed.

Lemma compromise_ok k : (0 < window_sum w)%R -> 0 <= k < l -> exists f c, amplitude_flatness O less junk w (NInt k) = Ok f /\ overlap_correlation O w (NInt k) = Ok c /\ is_compromise w k (f - c)%R.
Proof.
  intros P Hk. pose proof (index_overlap k Hk) as I.
  destruct (amplitude_flatness_ok power modulo junk w Ww One _ (l - k) I ltac:(lia)) as (f & Ef & F).
  destruct (overlap_correlation_ok power modulo w Ww One _ (l - k) I ltac:(lia) (square_sum_pos P)) as (c & Ec & C & _).
  exists f, c. split; [exact Ef|]. split; [exact Ec|]. exists f. split; [apply overlapped_pos; [lia|exact P]|]. split; [exact F|]. now rewrite C.
Qed.

Lemma recommended_ok : (0 < window_sum w)%R -> exists k d, real_recommended_overlap power modulo junk w = Ok k /\ 0 <= k < l /\ is_compromise w k d /\
  forall k', 0 <= k' < l -> exists d', is_compromise w k' d' /\ (d' <= d)%R /\ (k' < k -> (d' < d)%R).
Proof.
  intros P. unfold recommended_overlap.
  destruct (sequence_total (fun k => amplitude_flatness O less junk w (NInt k)) (zseq 0 l)) as (af & Ea).
  { intros k Hk. apply in_zseq in Hk. destruct (compromise_ok k P ltac:(lia)) as (f & c & E & _). now exists f. }
  destruct (sequence_total (fun k => overlap_correlation O w (NInt k)) (zseq 0 l)) as (oc & Eo).
  { intros k Hk. apply in_zseq in Hk. destruct (compromise_ok k P ltac:(lia)) as (f & c & _ & E & _). now exists c. }
  rewrite Ea, Eo. cbn [bind]. apply sequence_ok in Ea. apply sequence_ok in Eo. rewrite zlen_map, zlen_seq in Ea, Eo. destruct Ea as [La Va]. destruct Eo as [Lo Vo].
  destruct (vmap2_ok (o_sub O) af oc) as (d & -> & Ld & Vd); [lia|]. cbn [bind].
  assert (D : forall k, 0 <= k < l -> exists x, zth d k = Some x /\ is_compromise w k x).
  { intros k Hk. destruct (compromise_ok k P Hk) as (f & c & Ef & Ec & C). exists (f - c)%R. split; [|exact C].
    destruct (Va k (amplitude_flatness O less junk w (NInt k))) as (f' & E1 & Z1); [rewrite zth_map, zth_seq; replace (_ && _) with true by lia; reflexivity|].
    destruct (Vo k (overlap_correlation O w (NInt k))) as (c' & E2 & Z2); [rewrite zth_map, zth_seq; replace (_ && _) with true by lia; reflexivity|].
    rewrite Ef in E1. rewrite Ec in E2. apply ok_inv in E1. apply ok_inv in E2. subst f' c'. rewrite Vd, Z1, Z2. reflexivity. }
  destruct (argmax_ok d) as (k & y & -> & Hk & Zk & B); [lia|]. destruct (D k ltac:(lia)) as (x & Zx & C). rewrite Zk in Zx. apply some_inv in Zx. subst x.
  exists k, y. split; [reflexivity|]. split; [lia|]. split; [exact C|]. intros k' Hk'. destruct (D k' Hk') as (x & Zx & C'). exists x. split; [exact C'|]. now apply (B k').
Qed.

End Spectra.
