(** Convolution and correlation of signals at absolute times. *)

From Coq Require Import String ZArith List Bool Lia ZifyBool Ring_theory Ring Reals.
From Verif.Model Require Import Py Numpy Vector Functions Signal Fft Convolution.
From Verif.Spec Require Import TimeSpec RealSpec ComplexSpec DftSpec ConvolutionSpec.
From Verif.Proofs Require Import PyFacts NumpyFacts VectorFacts SumFacts ConvolveFacts PlacedFacts MethodFacts DftFacts CircularFacts SpectrumModes
  SignalAlgebra SignalHelpers.
Import ListNotations.
Open Scope Z_scope.
Ltac Zify.zify_post_hook ::= idtac.

Section Times.
Context {A : Type} (O : ops A) (RT : commutative_ring O).
Add Ring times_ring : (RT : ring_theory (o_zero O) (o_one O) (o_add O) (o_mul O) (o_sub O) (o_neg O) eq).
Implicit Types s a b : signal A.
Implicit Types m : arr A.
Notation val := (val O).
Notation lin := (lin O).
Notation cor := (cor O).

(** The row with which a matrix takes part in channel [c] *)
Definition paired_row m (c : Z) : list A := rowv m (if nrows m =? 1 then 0 else c).
Definition row_of s (c : Z) : list A := paired_row (channels s) c.

Lemma operand_val s c t : wf_signal s -> 0 <= c -> (count s = 1 \/ c < count s) -> value_at O s c t = val (row_of s c) (t - offset s).
Proof.
  intros [W _] Hc Hn. unfold value_at, operand_at, at_time, row_of, paired_row, val. fold (count s).
  rewrite el_rowv; [reflexivity|]. fold (count s). destruct (count s =? 1) eqn:E; lia.
Qed.

Lemma row_length s c : wf_signal s -> 0 <= c -> (count s = 1 \/ c < count s) -> zlen (row_of s c) = length s.
Proof.
  intros [W _] Hc Hn. unfold row_of, paired_row. fold (count s). rewrite zlen_rowv; auto. fold (count s). destruct (count s =? 1) eqn:E; lia.
Qed.

Lemma paired_in a b c : 0 <= c < paired_count a b -> (count a = 1 \/ c < count a) /\ (count b = 1 \/ c < count b).
Proof. unfold paired_count. destruct (count a =? 1) eqn:E1, (count b =? 1) eqn:E2; lia. Qed.

Lemma convolution_lin a b c t : wf_signal a -> wf_signal b -> 0 <= c < paired_count a b ->
  convolution_at O a b c t = lin (row_of a c) (row_of b c) (t - offset a - offset b).
Proof.
  intros Wa Wb Hc. destruct (paired_in a b c Hc) as [Ca Cb]. unfold convolution_at, ConvolveFacts.lin, begins, ends.
  rewrite (sum_between_sumz O), row_length by (auto; lia). replace (offset a + length a - offset a) with (length a) by lia.
  rewrite <- (Z.add_0_l (offset a)) at 1. rewrite <- (sumz_shift O). apply sumz_ext. intros k Hk.
  rewrite !operand_val by (auto; lia). f_equal; f_equal; lia.
Qed.

Lemma correlation_cor a b c t : wf_signal a -> wf_signal b -> 0 <= c < paired_count a b ->
  correlation_at O a b c t = cor (row_of a c) (row_of b c) (t + offset a - offset b).
Proof.
  intros Wa Wb Hc. destruct (paired_in a b c Hc) as [Ca Cb]. unfold correlation_at, ConvolveFacts.cor, begins, ends.
  rewrite (sum_between_sumz O), row_length by (auto; lia). replace (offset a + length a - offset a) with (length a) by lia.
  rewrite <- (Z.add_0_l (offset a)) at 1. rewrite <- (sumz_shift O). apply sumz_ext. intros k Hk.
  rewrite !operand_val by (auto; lia). f_equal; f_equal; lia.
Qed.

Lemma convolution_outside a b c t : wf_signal a -> wf_signal b -> 0 <= c < paired_count a b ->
  ~ (begins a + begins b <= t < ends a + ends b - 1) -> convolution_at O a b c t = o_zero O.
Proof.
  intros Wa Wb Hc Ht. destruct (paired_in a b c Hc) as [Ca Cb]. rewrite convolution_lin by auto. apply (lin_out O RT).
  rewrite !row_length by (auto; lia). unfold begins, ends in *. lia.
Qed.

Lemma correlation_outside a b c t : wf_signal a -> wf_signal b -> 0 <= c < paired_count a b ->
  ~ (begins b - (ends a - 1) <= t < ends b - begins a) -> correlation_at O a b c t = o_zero O.
Proof.
  intros Wa Wb Hc Ht. destruct (paired_in a b c Hc) as [Ca Cb]. rewrite correlation_cor by auto. apply (cor_out O RT).
  rewrite !row_length by (auto; lia). unfold begins, ends in *. lia.
Qed.

(** ** Combining with a matrix *)

Definition paired_rows m m' : Z := if nrows m =? 1 then nrows m' else if nrows m' =? 1 then nrows m else Z.min (nrows m) (nrows m').

Lemma with_matrix_ok f len start base F s m o : specified f len start base F -> wf_signal s -> wf m -> 0 < length s -> 0 < cols m ->
  computes (convolve_with_matrix s m o f) (paired_rows (channels s) m) (len (length s) (cols m)) (base (offset s) o + start (length s) (cols m))
    (fun c i => F (row_of s c) (paired_row m c) (i + start (length s) (cols m))).
Proof.
  intros [SV SV2 SM] [Ws _] Wm Hs Hm. unfold convolve_with_matrix, paired_rows. fold (count s).
  destruct (nrows m =? 1) eqn:E1.
  - unfold getitem. cbn [Z.ltb Z.compare]. rewrite rowv_zth by lia. cbn [bind]. replace (if count s =? 1 then nrows m else count s) with (count s) by zcases.
    assert (L : zlen (rowv m 0) = cols m) by (rewrite zlen_rowv by (auto; lia); auto).
    eapply computes_ext; [unfold length, count in *; rewrite <- L; apply SV; auto; lia|reflexivity|rewrite L; reflexivity|].
    intros c i Hc Hi. cbv beta. rewrite L. f_equal.
    + unfold row_of, paired_row. fold (count s). destruct (count s =? 1) eqn:E; auto. f_equal. unfold count in *. lia.
    + unfold paired_row. now rewrite E1.
  - destruct (count s =? 1) eqn:E2.
    + unfold getitem. cbn [Z.ltb Z.compare]. unfold count in E2. rewrite rowv_zth by lia. cbn [bind].
      assert (L : zlen (rowv (channels s) 0) = length s) by (rewrite zlen_rowv by (auto; lia); auto).
      eapply computes_ext; [rewrite <- L; apply SV2; auto; lia|reflexivity|rewrite L; reflexivity|].
      intros c i Hc Hi. cbv beta. rewrite L. unfold row_of, paired_row. rewrite E1, E2. reflexivity.
    + eapply computes_ext; [apply SM; auto; lia|reflexivity|reflexivity|].
      intros c i Hc Hi. cbv beta. unfold row_of, paired_row. fold (count s). rewrite E1, E2. reflexivity.
Qed.

(** The result of [convolve] or [correlate] *)

Lemma with_signal_ok junk f label len start base F (G : Z -> Z -> A) a b :
  specified f len start base F -> wf_signal a -> wf_signal b -> 0 < length a -> 0 < length b ->
  (forall c t, 0 <= c < paired_count a b -> 0 <= t - base (offset a) (offset b) - start (length a) (length b) < len (length a) (length b) ->
     F (row_of a c) (row_of b c) (t - base (offset a) (offset b)) = G c t) ->
  exists r, convolve_or_correlate O junk f label a (OtherSignal b) = Ok r /\
    sampling_rate r = sampling_rate a /\
    labels r = sanitize_labels (Some (zrepeat label (count a))) (paired_count a b) /\
    samples_are r (paired_count a b) (base (offset a) (offset b) + start (length a) (length b))
      (base (offset a) (offset b) + start (length a) (length b) + len (length a) (length b)) G.
Proof.
  intros S Wa Wb Ha Hb HG.
  destruct (with_matrix_ok f len start base F a (channels b) (offset b) S Wa ltac:(apply Wb) Ha Hb) as (ch & E & W & N & C & V).
  cbn [convolve_or_correlate]. rewrite E. cbn [bind fst snd].
  destruct (mk_signal_labels ch (sampling_rate a) (base (offset a) (offset b) + start (length a) (cols (channels b))) (Some (zrepeat label (count a))) W)
    as (Wr & Cr & Rr & Br & Lr & _). cbv zeta in *.
  eexists. split; [reflexivity|]. split; [exact Rr|]. split; [cbn; rewrite N; reflexivity|].
  split; [exact Wr|]. split; [exact N|]. split; [exact Br|]. split; [match goal with |- ends ?x = _ => change (ends x) with (offset x + cols ch) end; rewrite C; reflexivity|].
  intros c t Hc Ht. unfold at_time. cbn. fold (length b) in *. unfold count in *. cbn in *.
  change (paired_rows (channels a) (channels b)) with (paired_count a b) in V. rewrite V by (auto; lia).
  f_equal. fold (row_of b c). rewrite <- HG by (auto; lia). f_equal. lia.
Qed.

Lemma labels_repeated (label : string) n k : 0 <= k <= n -> sanitize_labels (Some (zrepeat label n)) k = zrepeat label k.
Proof.
  intros H. destruct (sanitize_labels_ok (Some (zrepeat label n)) k) as (L & V); [lia|]. apply zth_ext_in; [rewrite L, zlen_repeat; lia|].
  intros i Hi. rewrite V by lia. rewrite !zth_repeat. replace (_ && _) with true by lia. now replace (_ && _) with true by lia.
Qed.

(** ** The statements for each mode *)

Variable junk : Z -> Z -> A.
Context {K : Type} (X : transforms A K).



Section Two.
Variables (a b : signal A).
Hypothesis (Wa : wf_signal a) (Wb : wf_signal b) (Ha : 0 < length a) (Hb : 0 < length b).

Lemma convolution_value c t lo : 0 <= c < paired_count a b -> lo = offset a + offset b ->
  lin (row_of a c) (row_of b c) (t - lo) = convolution_at O a b c t.
Proof. intros Hc ->. rewrite convolution_lin by auto. f_equal. lia. Qed.

Lemma correlation_value c t lo : 0 <= c < paired_count a b -> lo = offset b - offset a ->
  cor (row_of a c) (row_of b c) (t - lo) = correlation_at O a b c t.
Proof. intros Hc ->. rewrite correlation_cor by auto. f_equal. lia. Qed.

Lemma samples_span (r : signal A) n lo hi lo' hi' f : samples_are r n lo hi f -> lo = lo' -> hi = hi' -> samples_are r n lo' hi' f.
Proof. intros H -> ->. exact H. Qed.

Lemma full_convolution_ok : exists r, signal_convolve O X junk a (OtherSignal b) FULL = Ok r /\ sampling_rate r = sampling_rate a /\
  samples_are r (paired_count a b) (begins a + begins b) (ends a + ends b - 1) (convolution_at O a b).
Proof.
  edestruct (with_signal_ok junk (convolution O X junk FULL) "Convolution" _ _ _ _ (convolution_at O a b) a b
    (direct_convolution_ok O RT junk X FULL ltac:(auto))) as (r & E & Hr & _ & Hs); auto.
  - intros c t Hc Ht. now apply convolution_value.
  - exists r. split; [exact E|]. split; auto. eapply samples_span; [exact Hs|..]; cbn; unfold begins, ends; lia.
Qed.

Lemma same_convolution_ok : exists r lo hi, signal_convolve O X junk a (OtherSignal b) SAME = Ok r /\ sampling_rate r = sampling_rate a /\
  samples_are r (paired_count a b) lo hi (convolution_at O a b) /\ hi - lo = Z.max (length a) (length b) /\
  lo - (begins a + begins b) <= (ends a + ends b - 1) - hi <= lo - (begins a + begins b) + 1.
Proof.
  edestruct (with_signal_ok junk (convolution O X junk SAME) "Convolution" _ _ _ _ (convolution_at O a b) a b
    (direct_convolution_ok O RT junk X SAME ltac:(auto))) as (r & E & Hr & _ & Hs); auto.
  - intros c t Hc Ht. now apply convolution_value.
  - exists r. do 2 eexists. split; [exact E|]. split; auto. split; [exact Hs|]. cbn [the_numpy_mode mode_length mode_start]. unfold begins, ends.
    pose proof (Z.div_mod (Z.min (length a) (length b) - 1) 2 ltac:(lia)). pose proof (Z.mod_pos_bound (Z.min (length a) (length b) - 1) 2 ltac:(lia)). lia.
Qed.

Lemma valid_convolution_ok : exists r lo hi, signal_convolve O X junk a (OtherSignal b) VALID = Ok r /\ sampling_rate r = sampling_rate a /\
  samples_are r (paired_count a b) lo hi (convolution_at O a b) /\
  forall t, lo <= t < hi <-> (forall tau, begins a <= tau < ends a -> begins b <= t - tau < ends b) \/
                             (forall tau, begins b <= tau < ends b -> begins a <= t - tau < ends a).
Proof.
  edestruct (with_signal_ok junk (convolution O X junk VALID) "Convolution" _ _ _ _ (convolution_at O a b) a b
    (direct_convolution_ok O RT junk X VALID ltac:(auto))) as (r & E & Hr & _ & Hs); auto.
  - intros c t Hc Ht. now apply convolution_value.
  - exists r. do 2 eexists. split; [exact E|]. split; auto. split; [exact Hs|]. cbn [the_numpy_mode mode_length mode_start]. unfold begins, ends.
    intros t. split.
    + intros Ht. destruct (Z_le_gt_dec (length a) (length b)); [left|right]; intros tau Htau; lia.
    + intros [H|H].
      * pose proof (H (offset a) ltac:(lia)). pose proof (H (offset a + length a - 1) ltac:(lia)). lia.
      * pose proof (H (offset b) ltac:(lia)). pose proof (H (offset b + length b - 1) ltac:(lia)). lia.
Qed.

Lemma full_correlation_ok : exists r, signal_correlate O X junk a (OtherSignal b) FULL = Ok r /\ sampling_rate r = sampling_rate a /\
  samples_are r (paired_count a b) (begins b - (ends a - 1)) (ends b - begins a) (correlation_at O a b).
Proof.
  edestruct (with_signal_ok junk (correlation O X junk FULL) "Correlation" _ _ _ _ (correlation_at O a b) a b
    (direct_correlation_ok O RT junk X FULL ltac:(auto))) as (r & E & Hr & _ & Hs); auto.
  - intros c t Hc Ht. now apply correlation_value.
  - exists r. split; [exact E|]. split; auto. eapply samples_span; [exact Hs|..]; cbn [the_numpy_mode mode_length lag_start]; unfold begins, ends; lia.
Qed.

Lemma same_correlation_ok : exists r lo hi, signal_correlate O X junk a (OtherSignal b) SAME = Ok r /\ sampling_rate r = sampling_rate a /\
  samples_are r (paired_count a b) lo hi (correlation_at O a b) /\ hi - lo = Z.max (length a) (length b) /\
  lo - (begins b - (ends a - 1)) <= (ends b - begins a) - hi <= lo - (begins b - (ends a - 1)) + 1.
Proof.
  edestruct (with_signal_ok junk (correlation O X junk SAME) "Correlation" _ _ _ _ (correlation_at O a b) a b
    (direct_correlation_ok O RT junk X SAME ltac:(auto))) as (r & E & Hr & _ & Hs); auto.
  - intros c t Hc Ht. now apply correlation_value.
  - exists r. do 2 eexists. split; [exact E|]. split; auto. split; [exact Hs|]. cbn [the_numpy_mode mode_length lag_start]. unfold begins, ends.
    pose proof (Z.div_mod (Z.min (length a) (length b) - 1) 2 ltac:(lia)). pose proof (Z.mod_pos_bound (Z.min (length a) (length b) - 1) 2 ltac:(lia)). lia.
Qed.

Lemma valid_correlation_ok : exists r lo hi, signal_correlate O X junk a (OtherSignal b) VALID = Ok r /\ sampling_rate r = sampling_rate a /\
  samples_are r (paired_count a b) lo hi (correlation_at O a b) /\
  forall t, lo <= t < hi <-> (forall tau, begins a <= tau < ends a -> begins b <= tau + t < ends b) \/
                             (forall tau, begins b <= tau < ends b -> begins a <= tau - t < ends a).
Proof.
  edestruct (with_signal_ok junk (correlation O X junk VALID) "Correlation" _ _ _ _ (correlation_at O a b) a b
    (direct_correlation_ok O RT junk X VALID ltac:(auto))) as (r & E & Hr & _ & Hs); auto.
  - intros c t Hc Ht. now apply correlation_value.
  - exists r. do 2 eexists. split; [exact E|]. split; auto. split; [exact Hs|]. cbn [the_numpy_mode mode_length lag_start]. unfold begins, ends.
    intros t. split.
    + intros Ht. destruct (Z_le_gt_dec (length a) (length b)); [left|right]; intros tau Htau; lia.
    + intros [H|H].
      * pose proof (H (offset a) ltac:(lia)). pose proof (H (offset a + length a - 1) ltac:(lia)). lia.
      * pose proof (H (offset b) ltac:(lia)). pose proof (H (offset b + length b - 1) ltac:(lia)). lia.
Qed.

Section Transforms.
Hypothesis EX : exact_transforms O X.

Lemma padded_convolution_signal : exists r, signal_convolve O X junk a (OtherSignal b) SPECTRUM_PADDED = Ok r /\ sampling_rate r = sampling_rate a /\
  samples_are r (paired_count a b) (begins a + begins b) (ends a + ends b - 1) (convolution_at O a b).
Proof.
  edestruct (with_signal_ok junk (convolution O X junk SPECTRUM_PADDED) "Convolution" _ _ _ _ (convolution_at O a b) a b
    (padded_convolution_ok O RT X junk EX)) as (r & E & Hr & _ & Hs); auto.
  - intros c t Hc Ht. now apply convolution_value.
  - exists r. split; [exact E|]. split; auto. eapply samples_span; [exact Hs|..]; cbn; unfold begins, ends; lia.
Qed.

Lemma padded_correlation_signal : exists r, signal_correlate O X junk a (OtherSignal b) SPECTRUM_PADDED = Ok r /\ sampling_rate r = sampling_rate a /\
  samples_are r (paired_count a b) (begins b - (ends a - 1)) (ends b - begins a) (correlation_at O a b).
Proof.
  edestruct (with_signal_ok junk (correlation O X junk SPECTRUM_PADDED) "Correlation" _ _ _ _ (correlation_at O a b) a b
    (padded_correlation_ok O RT X junk EX)) as (r & E & Hr & _ & Hs); auto.
  - intros c t Hc Ht. now apply correlation_value.
  - exists r. split; [exact E|]. split; auto. eapply samples_span; [exact Hs|..]; unfold begins, ends; lia.
Qed.

Lemma even_up_unique p n : n mod 2 = 0 -> p <= n <= p + 1 -> even_up p = n.
Proof.
  intros He Hn. unfold even_up. destruct (p mod 2 =? 0) eqn:E; [|pose proof (Z.mod_pos_bound p 2 ltac:(lia))].
  - assert (n = p \/ n = p + 1) as [->| ->] by lia; auto. rewrite <- Zplus_mod_idemp_l in He. replace (p mod 2) with 0 in He by lia. discriminate.
  - assert (n = p \/ n = p + 1) as [->| ->] by lia; auto. lia.
Qed.

Lemma spectrum_convolution_signal period : period mod 2 = 0 -> Z.max (length a) (length b) <= period <= Z.max (length a) (length b) + 1 ->
  exists r, signal_convolve O X junk a (OtherSignal b) SPECTRUM = Ok r /\ sampling_rate r = sampling_rate a /\
  samples_are r (paired_count a b) (begins a + begins b) (begins a + begins b + Z.max (length a) (length b))
    (fun c t => o_add O (convolution_at O a b c t) (convolution_at O a b c (t + period))).
Proof.
  intros Hp Hr'.
  edestruct (with_signal_ok junk (convolution O X junk SPECTRUM) "Convolution" _ _ _ _
    (fun c t => o_add O (convolution_at O a b c t) (convolution_at O a b c (t + period))) a b
    (spectrum_convolution_ok O RT X junk EX)) as (r & E & Hr & _ & Hs); auto.
  - intros c t Hc Ht. cbv beta. destruct (paired_in a b c Hc). unfold folded_lin. rewrite !row_length by (auto; lia). rewrite (even_up_unique _ period) by auto.
    f_equal; [now apply convolution_value|]. replace (t - (offset a + offset b) + period) with (t + period - (offset a + offset b)) by lia.
    now apply convolution_value.
  - exists r. split; [exact E|]. split; auto. eapply samples_span; [exact Hs|..]; unfold begins, ends; lia.
Qed.

Lemma spectrum_correlation_signal period : period mod 2 = 0 -> Z.max (length a) (length b) <= period <= Z.max (length a) (length b) + 1 ->
  exists r, signal_correlate O X junk a (OtherSignal b) SPECTRUM = Ok r /\ sampling_rate r = sampling_rate a /\
  samples_are r (paired_count a b) (begins b - (ends a - 1)) (begins b - (ends a - 1) + Z.max (length a) (length b))
    (fun c t => o_add O (correlation_at O a b c t) (correlation_at O a b c (t + period))).
Proof.
  intros Hp Hr'.
  edestruct (with_signal_ok junk (correlation O X junk SPECTRUM) "Correlation" _ _ _ _
    (fun c t => o_add O (correlation_at O a b c t) (correlation_at O a b c (t + period))) a b
    (spectrum_correlation_ok O RT X junk EX)) as (r & E & Hr & _ & Hs); auto.
  - intros c t Hc Ht. cbv beta. destruct (paired_in a b c Hc). unfold folded_cor. rewrite !row_length by (auto; lia). rewrite (even_up_unique _ period) by auto.
    f_equal; [now apply correlation_value|]. replace (t - (offset b - offset a) + period) with (t + period - (offset b - offset a)) by lia.
    now apply correlation_value.
  - exists r. split; [exact E|]. split; auto. eapply samples_span; [exact Hs|..]; unfold begins, ends; lia.
Qed.
End Transforms.

(** ** Labels *)

Lemma all_labelled f label len start base F : specified f len start base F -> count a <> 1 \/ count b = 1 ->
  exists r, convolve_or_correlate O junk f label a (OtherSignal b) = Ok r /\ labels r = zrepeat label (count r).
Proof.
  intros S Hc.
  destruct (with_signal_ok junk f label len start base F (fun c t => F (row_of a c) (row_of b c) (t - base (offset a) (offset b))) a b)
    as (r & E & _ & Hl & Hs); auto.
  exists r. split; auto. rewrite Hl. destruct Hs as (_ & N & _). rewrite N. pose proof (wf_count a). pose proof (wf_count b). apply labels_repeated.
  unfold paired_count. destruct (count a =? 1) eqn:E1, (count b =? 1) eqn:E2; lia.
Qed.

(** ** One channel at a time *)

Lemma channel_row (x s : signal A) c : wf_signal x -> wf_signal s -> count x = 1 -> begins x = begins s -> ends x = ends s ->
  0 <= c -> (count s = 1 \/ c < count s) -> (forall t, at_time x 0 t = operand_at s c t) -> row_of x 0 = row_of s c.
Proof.
  intros Wx Ws Cx Bx Ex Hc Hs H. unfold begins, ends in *. apply zth_ext_in; rewrite !row_length by (auto; lia); [lia|]. intros k Hk.
  specialize (H (k + offset s)). unfold at_time, operand_at, at_time, row_of, paired_row in *. fold (count x) (count s) in *. rewrite Cx in *. change (1 =? 1) with true. cbv iota.
  rewrite !el_rowv in H by (fold (count x) (count s); destruct (count s =? 1) eqn:E; lia).
  replace (k + offset s - offset x) with k in H by lia. now replace (k + offset s - offset s) with k in H by lia.
Qed.

Lemma channel_by_channel f label len start base F c x y : specified f len start base F -> 0 <= c < paired_count a b ->
  wf_signal x -> wf_signal y -> count x = 1 -> count y = 1 -> begins x = begins a -> ends x = ends a -> begins y = begins b -> ends y = ends b ->
  (forall t, at_time x 0 t = operand_at a c t) -> (forall t, at_time y 0 t = operand_at b c t) ->
  exists r r', convolve_or_correlate O junk f label a (OtherSignal b) = Ok r /\ convolve_or_correlate O junk f label x (OtherSignal y) = Ok r' /\
    count r = paired_count a b /\ count r' = 1 /\ begins r' = begins r /\ ends r' = ends r /\ forall t, at_time r c t = at_time r' 0 t.
Proof.
  intros S Hc Wx Wy Cx Cy Bx Ex By Ey Hx Hy. destruct (paired_in a b c Hc) as [Ca Cb].
  assert (Rx : row_of x 0 = row_of a c) by (apply channel_row; auto; lia). assert (Ry : row_of y 0 = row_of b c) by (apply channel_row; auto; lia).
  unfold begins, ends in *. assert (Lx : length x = length a) by lia. assert (Ly : length y = length b) by lia.
  destruct (with_signal_ok junk f label len start base F (fun c t => F (row_of a c) (row_of b c) (t - base (offset a) (offset b))) a b)
    as (r & E & _ & _ & (Wr & Nr & Br & Er & Vr)); auto.
  destruct (with_signal_ok junk f label len start base F (fun c t => F (row_of x c) (row_of y c) (t - base (offset x) (offset y))) x y)
    as (r' & E' & _ & _ & (Wr' & Nr' & Br' & Er' & Vr')); auto; try lia.
  rewrite Bx, By, Lx, Ly in *. assert (P1 : paired_count x y = 1) by (unfold paired_count; rewrite Cx, Cy; reflexivity). rewrite P1 in *.
  exists r, r'. repeat (split; [auto; lia|]). split; [unfold begins in *; lia|]. split; [unfold ends in *; lia|].
  intros t. set (lo := base (offset a) (offset b) + start (length a) (length b)) in *. set (hi := lo + len (length a) (length b)) in *.
  destruct (Z_le_gt_dec lo t), (Z_lt_ge_dec t hi).
  - rewrite Vr, Vr' by lia. now rewrite Rx, Ry.
  - unfold at_time. unfold begins, ends in *. rewrite !el_out; auto; try apply Wr; try apply Wr'; unfold length in *; lia.
  - unfold at_time. unfold begins, ends in *. rewrite !el_out; auto; try apply Wr; try apply Wr'; unfold length in *; lia.
  - unfold at_time. unfold begins, ends in *. rewrite !el_out; auto; try apply Wr; try apply Wr'; unfold length in *; lia.
Qed.
End Two.

(** ** Arrays and numbers *)

Lemma with_array_ok f label a b r : offset b = 0 -> wf_signal a ->
  convolve_or_correlate O junk f label a (OtherSignal b) = Ok r ->
  exists r', convolve_or_correlate O junk f label a (Array2 (channels b)) = Ok r' /\ sampling_rate r' = sampling_rate r /\ same_samples r' r /\
    zlen (labels r') = count r' /\
    forall c l, 0 <= c < count r' -> zth (labels a) c = Some l -> zth (labels r') c = Some l.
Proof.
  intros Ob [_ La] H. cbn [convolve_or_correlate] in *. rewrite Ob in H.
  destruct (convolve_with_matrix _ _ _ _) as [[ch off]|] eqn:E; cbn [bind fst snd] in *; [|discriminate]. injection H as <-.
  eexists. split; [reflexivity|]. split; [reflexivity|]. split; [repeat split; reflexivity|].
  destruct (sanitize_labels_ok (Some (labels a)) (nrows ch) (nrows_nonneg ch)) as (L & V).
  split; [exact L|]. intros c l Hc Hl. unfold count in Hc. cbn in *. rewrite V by auto. now rewrite Hl.
Qed.

Lemma with_vector_ok f label a v : convolve_or_correlate O junk f label a (Array1 v) = convolve_or_correlate O junk f label a (Array2 (Arr [v] (zlen v))).
Proof. reflexivity. Qed.

Lemma with_number_ok f label a x : wf_signal a -> exists r, convolve_or_correlate O junk f label a (Number x) = Ok r /\ wf_signal r /\
  sampling_rate r = sampling_rate a /\ count r = count a /\ begins r = begins a /\ ends r = ends a /\ labels r = labels a /\
  forall c t, at_time r c t = option_map (fun y => o_mul O y x) (at_time a c t).
Proof.
  intros [W La]. pose proof (nrows_nonneg (channels a)) as N0. assert (C0 : 0 <= cols (channels a)) by apply W.
  cbn [convolve_or_correlate]. unfold convolve_with_scalar, count, length.
  destruct (allocate_ok junk (nrows (channels a)) (cols (channels a))) as (m & -> & Wm & Nm & Cm); auto. cbn [bind].
  destruct (ufunc2_into_ok (o_mul O) (channels a) (scalar x) m everything everything) as (r & -> & Wr & Nr & Cr & Vr);
    [assumption|split; cbn; [lia|repeat constructor]|assumption| | |right; reflexivity|right; reflexivity|].
  { rewrite lower_everything, upper_everything by lia. left. lia. }
  { rewrite lower_everything, upper_everything by lia. left. lia. }
  cbn [bind fst snd]. eexists. split; [reflexivity|].
  destruct (mk_signal_labels r (sampling_rate a) (offset a) (Some (labels a)) Wr) as (Wk & _). cbv zeta in Wk. split; [exact Wk|].
  split; [reflexivity|]. split; [cbn; lia|]. split; [reflexivity|]. split; [unfold ends, length; cbn; lia|]. split; [cbn; apply sanitize_same; lia|].
  intros c t. unfold at_time. cbn [channels offset mk_signal]. rewrite Vr, !lower_everything, !upper_everything by lia. rewrite Nm, Cm.
  destruct (_ && _) eqn:E.
  - destruct (el (channels a) c (t - offset a)) as [y|] eqn:Ey.
    + replace (el (channels a) _ _) with (Some y). 2:{ rewrite <- Ey. f_equal; zcases. } reflexivity.
    + exfalso. destruct (el_in (channels a) c (t - offset a)) as (y & Y); auto; try lia. congruence.
  - rewrite el_out by (auto; lia). rewrite el_out by (auto; lia). reflexivity.
Qed.

End Times.

(** Every mode is specified, when the samples are real numbers. *)
Lemma every_convolution power modulo junk mode :
  exists len start F, specified (convolution (real_ops power modulo) real_transforms junk mode) len start (fun oa ob => oa + ob) F.
Proof.
  pose proof (real_ring power modulo) as RT. pose proof (real_exact power modulo) as EX.
  destruct mode; do 3 eexists; [apply direct_convolution_ok; auto..|apply spectrum_convolution_ok; auto|apply padded_convolution_ok; auto].
Qed.
Lemma every_correlation power modulo junk mode :
  exists len start F, specified (correlation (real_ops power modulo) real_transforms junk mode) len start (fun oa ob => ob - oa) F.
Proof.
  pose proof (real_ring power modulo) as RT. pose proof (real_exact power modulo) as EX.
  destruct mode; do 3 eexists; [apply direct_correlation_ok; auto..|apply spectrum_correlation_ok; auto|apply padded_correlation_ok; auto].
Qed.

Section Real.
Variables (power modulo : R -> R -> R) (junk : Z -> Z -> R) (a b : signal R).
Hypothesis (Wa : wf_signal a) (Wb : wf_signal b) (Ha : 0 < length a) (Hb : 0 < length b).
Notation RO := (real_ops power modulo).

Lemma real_pairing op mode c x y : op = signal_convolve \/ op = signal_correlate -> 0 <= c < paired_count a b ->
  wf_signal x -> wf_signal y -> count x = 1 -> count y = 1 -> begins x = begins a -> ends x = ends a -> begins y = begins b -> ends y = ends b ->
  (forall t, at_time x 0 t = operand_at a c t) -> (forall t, at_time y 0 t = operand_at b c t) ->
  exists r r', op RO real_transforms junk a (OtherSignal b) mode = Ok r /\ op RO real_transforms junk x (OtherSignal y) mode = Ok r' /\
    count r = paired_count a b /\ count r' = 1 /\ begins r' = begins r /\ ends r' = ends r /\ forall t, at_time r c t = at_time r' 0 t.
Proof.
  intros [->| ->] Hc Wx Wy Cx Cy Bx Ex By Ey Hx Hy.
  - destruct (every_convolution power modulo junk mode) as (len & start & F & S). eapply (channel_by_channel RO junk a b); eauto.
  - destruct (every_correlation power modulo junk mode) as (len & start & F & S). eapply (channel_by_channel RO junk a b); eauto.
Qed.

Lemma real_labels op name mode : (op = signal_convolve /\ name = "Convolution"%string) \/ (op = signal_correlate /\ name = "Correlation"%string) ->
  count a <> 1 \/ count b = 1 ->
  exists r, op RO real_transforms junk a (OtherSignal b) mode = Ok r /\ labels r = zrepeat name (count r).
Proof.
  intros [[-> ->]|[-> ->]] Hc.
  - destruct (every_convolution power modulo junk mode) as (len & start & F & S). eapply (all_labelled RO junk a b); eauto.
  - destruct (every_correlation power modulo junk mode) as (len & start & F & S). eapply (all_labelled RO junk a b); eauto.
Qed.
End Real.

Lemma convolution_commutes {A} (O : ops A) (RT : commutative_ring O) a b c t : wf_signal a -> wf_signal b -> 0 <= c < paired_count a b ->
  convolution_at O a b c t = convolution_at O b a c t.
Proof.
  intros Wa Wb Hc. assert (P : paired_count b a = paired_count a b).
  { unfold paired_count. destruct (count a =? 1) eqn:E1, (count b =? 1) eqn:E2; lia. }
  rewrite !convolution_lin by (auto; lia). rewrite (lin_comm O RT). f_equal. lia.
Qed.
