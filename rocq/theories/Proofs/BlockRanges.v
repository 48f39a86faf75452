(** Where the blocks of a block-wise Fourier transform begin, and sums over these blocks. *)

From Coq Require Import String ZArith List Bool Lia ZifyBool Reals Lra Permutation.
From Verif.Model Require Import Py Numpy Vector Functions Signal Fft Fourier.
From Verif.Spec Require Import TimeSpec RealSpec ComplexSpec DftSpec FourierSpec ConvolutionSpec BlockSpec.
From Verif.Proofs Require Import PyFacts NumpyFacts SumFacts ComplexFacts DftFacts.
Import ListNotations.
Open Scope Z_scope.
Ltac Zify.zify_post_hook ::= idtac.

(** ** Ranges *)

Lemma in_zseq x lo n : In x (zseq lo n) <-> lo <= x < lo + n.
Proof.
  split.
  - intros H. apply In_zth in H. destruct H as [i H]. rewrite zth_seq in H. destruct ((0 <=? i) && (i <? n)) eqn:E; [|discriminate]. injection H as <-. lia.
  - intros H. apply zth_In with (i := x - lo). rewrite zth_seq. replace (_ && _) with true by lia. f_equal. lia.
Qed.

Lemma NoDup_zseq lo n : NoDup (zseq lo n).
Proof. unfold zseq. apply FinFun.Injective_map_NoDup; [|apply seq_NoDup]. intros a b H. lia. Qed.

(** The multiples of [step] from [i * step] on that are less than [stop] *)
Definition multiples (step i stop : Z) : list Z := map (fun k => (i + k) * step) (zseq 0 ((stop - i * step + step - 1) / step)).

Lemma in_multiples x step i stop : 0 < step -> In x (multiples step i stop) <-> x mod step = 0 /\ i * step <= x < stop.
Proof.
  intros Hs. unfold multiples. rewrite in_map_iff. split.
  - intros (k & <- & H). apply in_zseq in H. split; [apply Z.mod_mul; lia|].
    pose proof (Z.mul_div_le (stop - i * step + step - 1) step Hs). nia.
  - intros (M & H). apply Z.div_exact in M; [|lia]. exists (x / step - i). split; [lia|]. apply in_zseq. split; [nia|].
    assert (x / step - i < (stop - i * step + step - 1) / step); [|lia].
    apply Z.lt_le_trans with (x / step - i + 1); [lia|]. apply Z.div_le_lower_bound; [lia|]. nia.
Qed.

Lemma NoDup_multiples step i stop : 0 < step -> NoDup (multiples step i stop).
Proof. intros Hs. unfold multiples. apply FinFun.Injective_map_NoDup; [|apply NoDup_zseq]. intros a b H. nia. Qed.

Lemma range_multiples step i stop : 0 < step -> range (i * step) stop step = Ok (multiples step i stop).
Proof.
  intros Hs. unfold range, multiples. replace (step =? 0) with false by lia. replace (0 <? step) with true by lia. f_equal.
  apply map_ext. intros k. ring.
Qed.

Definition negative_multiples (l step : Z) : list Z := map (fun k => (- 1 - k) * step) (zseq 0 ((l - 1) / step)).

Lemma range_negative step l : 0 < step -> range (- step) (- l) (- step) = Ok (negative_multiples l step).
Proof.
  intros Hs. unfold range, negative_multiples. replace (- step =? 0) with false by lia. replace (0 <? - step) with false by lia. f_equal.
  replace (- step - - l - - step - 1) with (l - 1) by lia. rewrite Z.opp_involutive. apply map_ext. intros k. ring.
Qed.

Lemma in_negative x step l : 0 < step -> In x (negative_multiples l step) <-> x mod step = 0 /\ - l < x < 0.
Proof.
  intros Hs. unfold negative_multiples. rewrite in_map_iff. split.
  - intros (k & <- & H). apply in_zseq in H. split; [apply Z.mod_mul; lia|].
    pose proof (Z.mul_div_le (l - 1) step Hs). nia.
  - intros (M & H). apply Z.div_exact in M; [|lia]. exists (- (x / step) - 1). split; [lia|]. apply in_zseq. split; [nia|].
    assert (- (x / step) - 1 < (l - 1) / step); [|lia]. apply Z.lt_le_trans with (- (x / step)); [lia|]. apply Z.div_le_lower_bound; [lia|]. nia.
Qed.

Lemma NoDup_negative l step : 0 < step -> NoDup (negative_multiples l step).
Proof. intros Hs. unfold negative_multiples. apply FinFun.Injective_map_NoDup; [|apply NoDup_zseq]. intros a b H. nia. Qed.

Lemma last_map {A B} (f : A -> B) l d d' : l <> [] -> last (map f l) d' = f (last l d).
Proof. induction l as [|a [|b l] IH]; intros H; [congruence|reflexivity|]. apply IH. congruence. Qed.
Lemma last_zseq n d : 0 < n -> last (zseq 0 n) d = n - 1.
Proof.
  intros H. assert (E : zseq 0 n = zseq 0 (n - 1) ++ [n - 1]).
  { apply zth_ext. intros i. rewrite zth_app, !zth_seq, zlen_seq, zth_cons. destruct (i <? Z.max 0 (n - 1)) eqn:E; [zcases|]. rewrite zth_nil. zcases. f_equal. lia. }
  rewrite E. apply last_last.
Qed.

(** The index of the block after those that are completely inside of the signal *)
Lemma last_multiples step stop : 0 < step -> exists n, 1 <= n /\ last (multiples step 0 stop) 0 + step = n * step /\
  (if 0 <? stop then (n - 1) * step < stop <= n * step else n = 1).
Proof.
  intros Hs. unfold multiples. set (m := (stop - 0 * step + step - 1) / step).
  destruct (0 <? stop) eqn:E.
  - assert (Hm : 1 <= m). { apply Z.div_le_lower_bound; lia. }
    exists m. split; [exact Hm|]. split.
    + rewrite (last_map _ _ 0) by (rewrite zseq_cons by lia; congruence). rewrite last_zseq by lia. ring.
    + pose proof (Z.mul_div_le (stop - 0 * step + step - 1) step Hs) as H1. fold m in H1.
      pose proof (Z.mul_succ_div_gt (stop - 0 * step + step - 1) step Hs) as H2. fold m in H2. lia.
  - assert (Hm : m < 1). { apply Z.div_lt_upper_bound; lia. }
    exists 1. rewrite zseq_nil by lia. split; [lia|]. split; [cbn [last map]; lia|]. lia.
Qed.

(** ** The blocks *)

Lemma in_overlapping x l n step : In x (overlapping_blocks l n step) <-> x mod step = 0 /\ - l < x < n.
Proof. unfold overlapping_blocks. rewrite filter_In, in_zseq. lia. Qed.
Lemma in_inner x l n step : In x (inner_blocks l n step) <-> x mod step = 0 /\ 0 <= x <= n - l.
Proof. unfold inner_blocks. rewrite filter_In, in_zseq. lia. Qed.
Lemma NoDup_overlapping l n step : NoDup (overlapping_blocks l n step).
Proof. apply NoDup_filter, NoDup_zseq. Qed.
Lemma NoDup_inner l n step : NoDup (inner_blocks l n step).
Proof. apply NoDup_filter, NoDup_zseq. Qed.

Lemma NoDup_app_intro {A} (l m : list A) : NoDup l -> NoDup m -> (forall x, In x l -> In x m -> False) -> NoDup (l ++ m).
Proof.
  induction l as [|a l IH]; cbn; auto. intros H1 H2 H3. inversion_clear H1. constructor.
  - rewrite in_app_iff. intros [H'|H']; [auto|]. apply (H3 a); auto.
  - apply IH; auto. intros x Hx. apply H3. auto.
Qed.

(** The blocks that overlap the signal, except the block that begins with the signal, if the signal is shorter than the block *)
Definition computed_blocks (l n step : Z) : list Z := filter (fun b => negb (b =? 0) || (l <=? n)) (overlapping_blocks l n step).

Lemma padded_permutation l n step k : 0 < step <= l -> 0 <= n -> 1 <= k ->
  (if 0 <? n - l + 1 then (k - 1) * step < n - l + 1 <= k * step else k = 1) ->
  Permutation (negative_multiples l step ++ multiples step 0 (n - l + 1) ++ multiples step k n) (computed_blocks l n step).
Proof.
  intros Hs Hn Hk K. assert (Hs' : 0 < step) by lia.
  assert (M : forall x, x mod step = 0 -> x = x / step * step). { intros x H. apply Z.div_exact in H; lia. }
  apply NoDup_Permutation.
  - apply NoDup_app_intro; [apply NoDup_negative; lia|apply NoDup_app_intro; try apply NoDup_multiples; try lia|].
    + intros x H1 H2. apply in_multiples in H1; [|lia]. apply in_multiples in H2; [|lia]. destruct (0 <? n - l + 1) eqn:E; lia.
    + intros x H1 H2. apply in_negative in H1; [|lia]. apply in_app_iff in H2. destruct H2 as [H2|H2]; apply in_multiples in H2; try lia; nia.
  - apply NoDup_filter, NoDup_overlapping.
  - intros x. unfold computed_blocks. rewrite filter_In, in_overlapping, !in_app_iff, in_negative, !in_multiples by lia. split.
    + assert (step <= k * step) by nia.
      intros [[H1 H2]|[[H1 H2]|[H1 H2]]]; (split; [split; [exact H1|]|]); clear K; lia.
    + intros [[H1 H2] H3]. specialize (M x H1). destruct (Z.lt_ge_cases x 0); [left; lia|]. right. destruct (0 <? n - l + 1) eqn:E.
      * destruct (Z.lt_ge_cases x (n - l + 1)); [left; lia|right]. split; [exact H1|]. split; [|lia].
        assert ((k - 1) * step < x / step * step) by lia. assert (k - 1 < x / step) by nia. rewrite M. apply Z.mul_le_mono_nonneg_r; lia.
      * right. split; [exact H1|]. split; [|lia]. subst k. assert (x <> 0) by lia.
        assert (0 < x / step * step) by lia. assert (0 < x / step) by nia. rewrite M. apply Z.mul_le_mono_nonneg_r; lia.
Qed.

Lemma inner_permutation l n step : 0 < step -> Permutation (multiples step 0 (n - l + 1)) (inner_blocks l n step).
Proof.
  intros Hs. apply NoDup_Permutation; [now apply NoDup_multiples|apply NoDup_inner|]. intros x. rewrite in_multiples, in_inner by auto. lia.
Qed.

(** ** Sums *)

Definition Csum_list (l : list Z) (f : Z -> C) : C := fold_right (fun b a => Cadd (f b) a) C0 l.

Lemma Csum_permutation l m f : Permutation l m -> Csum_list l f = Csum_list m f.
Proof.
  unfold Csum_list. induction 1; cbn; auto.
  - now rewrite IHPermutation.
  - apply C_ext; cbn; ring.
  - congruence.
Qed.

Lemma Csum_list_ext l f g : (forall b, In b l -> f b = g b) -> Csum_list l f = Csum_list l g.
Proof. unfold Csum_list. induction l as [|a l IH]; cbn; auto. intros H. rewrite H, IH by auto. reflexivity. Qed.

Lemma Csum_list_app l m f : Csum_list (l ++ m) f = Cadd (Csum_list l f) (Csum_list m f).
Proof. unfold Csum_list. induction l as [|a l IH]; cbn; [|rewrite IH]; apply C_ext; cbn; ring. Qed.

Lemma Rsum_permutation l m f : Permutation l m -> Rsum_list l f = Rsum_list m f.
Proof. unfold Rsum_list. induction 1; cbn; lra. Qed.

Lemma Rsum_list_ext l f g : (forall b, In b l -> f b = g b) -> Rsum_list l f = Rsum_list l g.
Proof. unfold Rsum_list. induction l as [|a l IH]; cbn; auto. intros H. rewrite H, IH by auto. reflexivity. Qed.

Lemma Rsum_list_app l m f : Rsum_list (l ++ m) f = (Rsum_list l f + Rsum_list m f)%R.
Proof. unfold Rsum_list. induction l as [|a l IH]; cbn; [|rewrite IH]; ring. Qed.

Lemma Rsum_list_add l f g : Rsum_list l (fun b => f b + g b)%R = (Rsum_list l f + Rsum_list l g)%R.
Proof. unfold Rsum_list. induction l as [|a l IH]; cbn; [|rewrite IH]; ring. Qed.

Lemma Rsum_list_zero l : Rsum_list l (fun _ => 0%R) = 0%R.
Proof. unfold Rsum_list. induction l as [|a l IH]; cbn; [|rewrite IH]; ring. Qed.

Lemma Rsum_swap l m (f : Z -> Z -> R) : Rsum_list l (fun a => Rsum_list m (f a)) = Rsum_list m (fun b => Rsum_list l (fun a => f a b)).
Proof.
  induction l as [|a l IH]; cbn [Rsum_list fold_right]; [symmetry; apply Rsum_list_zero|]. fold (Rsum_list l (fun a => Rsum_list m (f a))). rewrite IH.
  symmetry. apply (Rsum_list_add m (f a) (fun b => Rsum_list l (fun a => f a b))).
Qed.

Lemma Rsum_list_mul l a f : Rsum_list l (fun b => a * f b)%R = (a * Rsum_list l f)%R.
Proof. unfold Rsum_list. induction l as [|x l IH]; cbn; [|rewrite IH]; ring. Qed.

(** The sum over a list without duplicates of a function, that is zero except for one value *)
Lemma Rsum_single l y f : NoDup l -> (forall b, b <> y -> f b = 0%R) -> Rsum_list l f = if in_dec Z.eq_dec y l then f y else 0%R.
Proof.
  intros N Z0. induction l as [|a l IH]; cbn [Rsum_list fold_right]; [reflexivity|]. inversion_clear N. fold (Rsum_list l f). rewrite IH by auto.
  destruct (Z.eq_dec a y) as [->|D].
  - destruct (in_dec Z.eq_dec y l); [contradiction|]. destruct (in_dec Z.eq_dec y (y :: l)) as [_|F]; [ring|]. elim F. now left.
  - rewrite Z0 by auto. destruct (in_dec Z.eq_dec y l), (in_dec Z.eq_dec y (a :: l)) as [i'|i']; try ring.
    + elim i'. now right.
    + destruct i'; [congruence|contradiction].
Qed.

(** The windows of all overlapping blocks are those, whose shift is a multiple of the step *)
Lemma overlap_all w c l n step t : l = length w -> 0 < step -> wf_signal w -> 0 <= t < n ->
  overlap_sum w c (overlapping_blocks l n step) t = Rsum_list (zseq 0 l) (fun m => if (m - t) mod step =? 0 then window_at w c m else 0%R).
Proof.
  intros -> Hs [W _] Ht. unfold overlap_sum.
  assert (OUT : forall m, ~ (0 <= m < length w) -> window_at w c m = 0%R). { intros m Hm. unfold window_at. rewrite el_out; auto. unfold length in Hm. tauto. }
  rewrite (Rsum_list_ext _ _ (fun b => Rsum_list (zseq 0 (length w)) (fun m => if m =? t - b then window_at w c m else 0%R))).
  - rewrite Rsum_swap. apply Rsum_list_ext. intros m Hm. apply in_zseq in Hm.
    rewrite (Rsum_single _ (t - m)); [|apply NoDup_overlapping|intros b Hb; replace (m =? t - b) with false by lia; reflexivity].
    replace (m =? t - (t - m)) with true by lia.
    assert (E : (m - t) mod step = 0 <-> (t - m) mod step = 0).
    { split; intros E; apply Z.mod_divide in E; try lia; apply Z.mod_divide; try lia; apply Z.divide_opp_r in E; (eapply eq_ind; [exact E|lia] || (replace (t - m) with (- (m - t)) by lia; exact E) || (replace (m - t) with (- (t - m)) by lia; exact E)). }
    destruct (in_dec Z.eq_dec (t - m) (overlapping_blocks (length w) n step)) as [H|H]; rewrite in_overlapping in H.
    + replace ((m - t) mod step =? 0) with true by lia. reflexivity.
    + replace ((m - t) mod step =? 0) with false by lia. reflexivity.
  - intros b _. rewrite (Rsum_single _ (t - b)); [|apply NoDup_zseq|intros m Hm; replace (m =? t - b) with false by lia; reflexivity].
    rewrite Z.eqb_refl. destruct (in_dec Z.eq_dec (t - b) (zseq 0 (length w))) as [H|H]; [reflexivity|]. rewrite in_zseq in H. rewrite OUT; [reflexivity|lia].
Qed.
