(** The loops of the block-wise Fourier transform. *)

From Coq Require Import String ZArith List Bool Lia ZifyBool Reals Lra Ring_theory Field_theory Ring Field Permutation.
From Verif.Model Require Import Py Numpy Vector Functions Signal Spectrum Fft Fourier.
From Verif.Spec Require Import TimeSpec FrequencySpec RealSpec ConvolutionSpec ComplexSpec DftSpec FourierSpec BlockSpec.
From Verif.Proofs Require Import PyFacts NumpyFacts VectorFacts SumFacts ComplexFacts ConvolveFacts PlacedFacts DftFacts MethodFacts CircularFacts SpectrumModes SignalAlgebra SliceFacts FourierFacts BlockRanges.
Import ListNotations.
Open Scope Z_scope.
Ltac Zify.zify_post_hook ::= idtac.

Section Blocks.
Variables power modulo : R -> R -> R.
Variables cpower cmodulo : C -> C -> C.
Variable junk : Z -> Z -> R.
Variable cjunk : Z -> Z -> C.
Notation O := (real_ops power modulo).
Notation X := real_transforms.
Notation N := (real_numbers cpower cmodulo).
Let EX : exact_transforms O X := real_exact power modulo.
Notation sumC := (sumz CO).

Variables s w : signal R.
Hypothesis Ws : wf_signal s.
Hypothesis Ww : wf_signal w.
Hypothesis Ps : 0 < count s.
Hypothesis Pw : 0 < count w.
Notation n := (length s).
Notation l := (length w).
Hypothesis Pl : 0 < l.
Notation rows' := (Z.max (count s) (count w)).
Notation len := (l / 2 + 1).
Hypothesis Compatible : count s = count w \/ count s = 1 \/ count w = 1.
Hypothesis Rate : sampling_rate w = sampling_rate s.
Hypothesis Rate0 : sampling_rate s <> 0%R.

(** The samples of the signal, counted from its first one *)
Definition x_at (c i : Z) : R := operand_sample s c (offset s + i).

Lemma n_nonneg : 0 <= n. Proof. apply Ws. Qed.
Lemma len_pos : 0 < len. Proof. assert (0 <= l / 2) by (apply Z.div_pos; lia). lia. Qed.
Lemma count_nrows (t : signal R) : count t = nrows (channels t). Proof. reflexivity. Qed.
Lemma length_cols (t : signal R) : length t = cols (channels t). Proof. reflexivity. Qed.

Lemma x_out c i : ~ (0 <= i < n) -> x_at c i = 0%R.
Proof. intros H. unfold x_at, operand_sample, operand_at, at_time. rewrite el_out; [reflexivity|apply Ws|]. rewrite length_cols in H. lia. Qed.
Lemma x_el c i : 0 <= c < rows' -> 0 <= i < n -> el (channels s) (if nrows (channels s) =? 1 then 0 else c) i = Some (x_at c i).
Proof.
  intros Hc Hi. unfold x_at, operand_sample, operand_at, at_time. replace (offset s + i - offset s) with i by lia. rewrite count_nrows in *.
  destruct (el_in (channels s) (if nrows (channels s) =? 1 then 0 else c) i) as (v & ->); auto; [apply Ws|].
  destruct (nrows (channels s) =? 1) eqn:E; lia.
Qed.
Lemma w_out c i : ~ (0 <= i < l) -> window_at w c i = 0%R.
Proof. intros H. unfold window_at. rewrite el_out; [reflexivity|apply Ww|]. rewrite length_cols in H. lia. Qed.
Lemma w_el c i : 0 <= c < rows' -> 0 <= i < l -> el (channels w) (if nrows (channels w) =? 1 then 0 else c) i = Some (window_at w c i).
Proof.
  intros Hc Hi. unfold window_at. rewrite count_nrows in *.
  destruct (el_in (channels w) (if nrows (channels w) =? 1 then 0 else c) i) as (v & ->); auto; [apply Ww|].
  rewrite (count_nrows w) in *. destruct (nrows (channels w) =? 1) eqn:E; lia.
Qed.

(** The windowed samples of the block, that begins at the index [i] *)
Definition windowed_at (i c m : Z) : R := (x_at c (i + m) * window_at w c m)%R.

(** ** Windowing *)

Lemma block_cols (m : arr R) b lo hi : wf m -> lower b (cols m) = lo -> upper b (cols m) = hi ->
  wf (block m everything b) /\ nrows (block m everything b) = nrows m /\ cols (block m everything b) = hi - lo /\
  forall c i, 0 <= i < hi - lo -> el (block m everything b) c i = el m c (i + lo).
Proof.
  intros W L U. pose proof (nrows_nonneg m). split; [now apply wf_block|]. rewrite nrows_block, cols_block, lower_everything, upper_everything by lia.
  split; [lia|]. split; [lia|]. intros c i Hi. rewrite el_block, lower_everything, upper_everything, L, U by (auto; lia).
  destruct (_ && _) eqn:E; [f_equal; lia|]. symmetry. apply el_out; [auto|]. lia.
Qed.

(** [numpy.multiply(signal[:, a], window[:, b], out=m[:, b'])] *)
Lemma multiply_cols a la ha b lb hb m t lt ht : lower a n = la -> upper a n = ha -> lower b l = lb -> upper b l = hb ->
  wf m -> nrows m = rows' -> lower t (cols m) = lt -> upper t (cols m) = ht -> ha - la = ht - lt -> hb - lb = ht - lt ->
  exists r, ufunc2_into (o_mul O) (block (channels s) everything a) (block (channels w) everything b) m everything t = Ok r /\
    wf r /\ nrows r = rows' /\ cols r = cols m /\
    forall c j, 0 <= c < rows' -> el r c j = if (lt <=? j) && (j <? ht) then Some (x_at c (j - lt + la) * window_at w c (j - lt + lb))%R else el m c j.
Proof.
  intros La Ha Lb Hb W Nm Lt Ht E1 E2. pose proof (lower_range t (cols m) (proj1 W)). pose proof (upper_range t (cols m) (proj1 W)).
  pose proof (lower_range a n n_nonneg). pose proof (upper_range a n n_nonneg). pose proof (lower_range b l (Z.lt_le_incl _ _ Pl)). pose proof (upper_range b l (Z.lt_le_incl _ _ Pl)).
  destruct (block_cols (channels s) a la ha (proj1 Ws) La Ha) as (Wa & Na & Ca & Va).
  destruct (block_cols (channels w) b lb hb (proj1 Ww) Lb Hb) as (Wb & Nb & Cb & Vb).
  set (A := block (channels s) everything a) in *. set (B := block (channels w) everything b) in *. clearbody A B.
  pose proof (nrows_nonneg m).
  destruct (ufunc2_into_ok (o_mul O) A B m everything t) as (r & -> & Wr & Nr & Cr & Vr); auto;
    rewrite ?lower_everything, ?upper_everything by lia; rewrite ?count_nrows in *; try lia.
  exists r. split; [reflexivity|]. split; [auto|]. split; [lia|]. split; [auto|]. intros c j Hc. rewrite Vr, lower_everything, upper_everything, Lt, Ht by lia.
  replace (0 <=? c) with true by lia. replace (c <? nrows m) with true by lia. cbn [andb]. destruct ((lt <=? j) && (j <? ht)) eqn:E; [|reflexivity].
  assert (Ja : (if cols A =? 1 then 0 else j - lt) = j - lt) by (destruct (cols A =? 1) eqn:E'; lia).
  assert (Jb : (if cols B =? 1 then 0 else j - lt) = j - lt) by (destruct (cols B =? 1) eqn:E'; lia).
  rewrite Ja, Jb, Va, Vb by lia. rewrite Na, Nb, Z.sub_0_r. rewrite x_el, w_el by (rewrite ?count_nrows; lia). reflexivity.
Qed.

Definition is_block (m : arr R) (i : Z) : Prop := has m rows' l (windowed_at i).

(** _signal.py:461-467 *)
Lemma first_block m i : wf m -> nrows m = rows' -> cols m = l -> - l < i < 0 ->
  exists r, (let k := Z.min (l + i) n in
    m <- set_block m everything (between 0 (- i)) (scalar (o_zero O)) ;;
    m <- set_block m everything (from (k - i)) (scalar (o_zero O)) ;;
    ufunc2_into (o_mul O) (block (channels s) everything (between 0 k)) (block (channels w) everything (between (- i) (k - i))) m everything (between (- i) (k - i))) = Ok r /\
    is_block r i.
Proof.
  intros W Nm Cm Hi. cbv zeta. pose proof n_nonneg. set (k := Z.min (l + i) n).
  destruct (fill_cols_ok m (between 0 (- i)) (o_zero O) 0 (- i)) as (m1 & -> & W1 & N1 & C1 & V1); auto; rewrite ?Cm; try apply lower_between; try apply upper_between; try lia. cbn [bind].
  destruct (fill_cols_ok m1 (from (k - i)) (o_zero O) (k - i) l) as (m2 & -> & W2 & N2 & C2 & V2); auto; rewrite ?C1, ?Cm; try apply lower_from; try apply upper_from; try lia. cbn [bind].
  destruct (multiply_cols (between 0 k) 0 k (between (- i) (k - i)) (- i) (k - i) m2 (between (- i) (k - i)) (- i) (k - i)) as (r & -> & Wr & Nr & Cr & Vr);
    try apply lower_between; try apply upper_between; try lia; auto.
  exists r. split; [reflexivity|]. split; [auto|]. split; [lia|]. split; [lia|]. intros c j Hc Hj. rewrite Vr by auto. unfold windowed_at.
  destruct ((- i <=? j) && (j <? k - i)) eqn:E.
  - f_equal. f_equal; [f_equal; lia|]. f_equal. lia.
  - rewrite x_out by lia. rewrite V2, V1 by lia. replace (0 * window_at w c j)%R with 0%R by ring. zcases.
Qed.

(** _signal.py:477-479 *)
Lemma inner_block m i : wf m -> nrows m = rows' -> cols m = l -> 0 <= i <= n - l ->
  exists r, ufunc2_into (o_mul O) (block (channels s) everything (between i (l + i))) (channels w) m everything everything = Ok r /\ is_block r i.
Proof.
  intros W Nm Cm Hi. pose proof n_nonneg.
  assert (E : block (channels w) everything everything = channels w).
  { destruct (block_cols (channels w) everything 0 l (proj1 Ww)) as (Wb & Nb & Cb & Vb).
    - apply lower_everything.
    - apply upper_everything. pose proof (proj1 (proj1 Ww)). lia.
    - apply arr_ext; auto; [apply Ww|rewrite Cb, length_cols; lia|]. intros c j Hc Hj. rewrite Vb by lia. f_equal. lia. }
  rewrite <- E.
  destruct (multiply_cols (between i (l + i)) i (l + i) everything 0 l m everything 0 l) as (r & -> & Wr & Nr & Cr & Vr);
    rewrite ?lower_everything, ?upper_everything; try apply lower_between; try apply upper_between; try lia; auto.
  exists r. split; [reflexivity|]. split; [auto|]. split; [lia|]. split; [lia|]. intros c j Hc Hj. rewrite Vr by auto. unfold windowed_at.
  replace (_ && _) with true by lia. f_equal. f_equal; [f_equal; lia|]. f_equal. lia.
Qed.

(** _signal.py:488-492 *)
Lemma last_block m i : wf m -> nrows m = rows' -> cols m = l -> 0 <= i < n -> n < i + l ->
  exists r, (let k := n - i in
    m <- set_block m everything (from k) (scalar (o_zero O)) ;;
    ufunc2_into (o_mul O) (block (channels s) everything (from i)) (block (channels w) everything (between 0 k)) m everything (between 0 k)) = Ok r /\ is_block r i.
Proof.
  intros W Nm Cm Hi Hl. cbv zeta. pose proof n_nonneg. set (k := n - i).
  destruct (fill_cols_ok m (from k) (o_zero O) k l) as (m1 & -> & W1 & N1 & C1 & V1); auto; rewrite ?Cm; try apply lower_from; try apply upper_from; try lia. cbn [bind].
  destruct (multiply_cols (from i) i n (between 0 k) 0 k m1 (between 0 k) 0 k) as (r & -> & Wr & Nr & Cr & Vr);
    try apply lower_between; try apply upper_between; try apply lower_from; try apply upper_from; try lia; auto.
  exists r. split; [reflexivity|]. split; [auto|]. split; [lia|]. split; [lia|]. intros c j Hc Hj. rewrite Vr by auto. unfold windowed_at.
  destruct ((0 <=? j) && (j <? k)) eqn:E.
  - f_equal. f_equal; [f_equal; lia|]. f_equal. lia.
  - rewrite x_out by lia. rewrite V1 by lia. replace (0 * window_at w c j)%R with 0%R by ring. zcases.
Qed.

(** ** Transforming and adding *)

(** What a block contributes to the spectrum *)
Definition contribution (i c k : Z) : C := sumC 0 l (fun m => Cmul (C_of_R (windowed_at i c m)) (root l (- (k * (offset s + i + m))))).

Lemma add_block_ok m i ch F : is_block m i -> has ch rows' len F ->
  exists r, add_block O X N m len (sampling_rate w / IZR l)%R (offset s + i) (sampling_rate s) ch = Ok r /\
    has r rows' len (fun c k => Cadd (F c k) (contribution i c k)).
Proof.
  intros (Wm & Nm & Cm & Vm) (Wc & Nc & Cc & Vc). pose proof len_pos as PL. unfold add_block.
  destruct (rfft_rows_ok O X EX m) as (p & -> & Wp & Np & Cp & Vp); auto; [lia|]. rewrite Cm in Cp. cbn [bind].
  rewrite Rate. destruct (compensation_ok power modulo cpower cmodulo l (sampling_rate s) (offset s + i)) as (Wk & Nk & Ck & Vk); auto.
  set (cc := compensation _ _ _ _ _ _) in *. clearbody cc.
  destruct (broadcast_ok cc (nrows ch) len) as (b & -> & Wb & Nb & Cb & Vb); auto; try lia. cbn [bind].
  assert (NN : 0 <= nrows b) by apply nrows_nonneg.
  destruct (ufunc2_into_ok (o_mul (c_ops N)) b p b everything everything) as (q & -> & Wq & Nq & Cq & Vq); auto;
    rewrite ?lower_everything, ?upper_everything by lia; try lia. cbn [bind].
  assert (NN' : 0 <= nrows ch) by apply nrows_nonneg.
  destruct (ufunc2_into_ok (o_add (c_ops N)) ch q ch everything everything) as (r & -> & Wr & Nr & Cr & Vr); auto;
    rewrite ?lower_everything, ?upper_everything by lia; try lia.
  exists r. split; [reflexivity|]. split; [auto|]. split; [lia|]. split; [lia|]. intros c k Hc Hk.
  rewrite Vr, !lower_everything, !upper_everything by lia. replace (_ && _) with true by lia. rewrite !Z.sub_0_r, !one_index by lia.
  rewrite Vc by lia. rewrite Vq, !lower_everything, !upper_everything by lia. replace (_ && _) with true by lia. rewrite !Z.sub_0_r, !one_index by lia.
  rewrite Vb by lia. rewrite Nk. change (1 =? 1) with true. cbv iota. rewrite one_index by lia. rewrite Vk by lia.
  rewrite Vp by lia. cbn [x_rfft real_transforms]. assert (Lr : zlen (rowv m c) = l) by (rewrite zlen_rowv; auto; lia).
  rewrite (zth_rfft l) by (auto; lia). cbn [o_add o_mul c_ops real_numbers complex_ops]. f_equal. f_equal. unfold contribution.
  rewrite (dft_sum l) by auto. change Cmul with (o_mul CO) at 1. rewrite <- (sumz_mul_l CO CO_ring). apply sumz_ext. intros j Hj.
  assert (A : at_R (rowv m c) j = windowed_at i c j). { unfold at_R. rewrite <- el_rowv by lia. rewrite Vm by lia. reflexivity. }
  rewrite A. cbn [o_mul CO complex_ops]. assert (H : forall a b z, Cmul a (Cmul z b) = Cmul z (Cmul a b)) by (intros; apply C_ext; cbn; ring).
  rewrite H, <- root_add by lia. f_equal. f_equal. ring.
Qed.

(** ** Loops *)

Lemma blocks_ok (body : arr R * arr C -> Z -> result (arr R * arr C)) bl :
  (forall i, In i bl -> forall m ch F, wf m -> nrows m = rows' -> cols m = l -> has ch rows' len F ->
     exists m' ch', body (m, ch) i = Ok (m', ch') /\ wf m' /\ nrows m' = rows' /\ cols m' = l /\ has ch' rows' len (fun c k => Cadd (F c k) (contribution i c k))) ->
  forall m ch F, wf m -> nrows m = rows' -> cols m = l -> has ch rows' len F ->
  exists m' ch', for_each bl body (m, ch) = Ok (m', ch') /\ wf m' /\ nrows m' = rows' /\ cols m' = l /\
    has ch' rows' len (fun c k => Cadd (F c k) (Csum_list bl (fun i => contribution i c k))).
Proof.
  induction bl as [|i bl IH]; intros B m ch F W Nm Cm Hc.
  - exists m, ch. cbn [for_each Csum_list fold_right]. split; [reflexivity|]. do 3 (split; [auto|]). destruct Hc as (Wc & Nc & Cc & Vc).
    split; [auto|]. split; [auto|]. split; [auto|]. intros c k H1 H2. rewrite Vc by auto. f_equal. apply C_ext; cbn; ring.
  - cbn [for_each]. destruct (B i (or_introl eq_refl) m ch F) as (m1 & c1 & -> & W1 & N1 & C1 & H1); auto. cbn [bind].
    destruct (IH (fun j Hj => B j (or_intror Hj)) m1 c1 _ W1 N1 C1 H1) as (m2 & c2 & E & W2 & N2 & C2 & H2). exists m2, c2.
    split; [exact E|]. do 3 (split; [auto|]). destruct H2 as (Wc & Nc & Cc & Vc). split; [auto|]. split; [auto|]. split; [auto|].
    intros c k Hk1 Hk2. rewrite Vc by auto. f_equal.
    change (Csum_list (i :: bl) (fun i => contribution i c k)) with (Cadd (contribution i c k) (Csum_list bl (fun i => contribution i c k))).
    generalize (Csum_list bl (fun i => contribution i c k)) (contribution i c k) (F c k). intros. apply C_ext; cbn; ring.
Qed.

End Blocks.
