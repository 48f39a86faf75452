(** The functions of _convolution.py compute sums of products, each for its part of the time axis. *)

From Coq Require Import ZArith List Bool Lia ZifyBool Ring_theory Ring.
From Verif.Model Require Import Py Numpy Vector Signal Fft Convolution.
From Verif.Spec Require Import ConvolutionSpec.
From Verif.Proofs Require Import PyFacts NumpyFacts VectorFacts SumFacts ConvolveFacts PlacedFacts.
Import ListNotations.
Open Scope Z_scope.
Ltac Zify.zify_post_hook ::= idtac.

Section Methods.
Context {A : Type} (O : ops A) (RT : commutative_ring O).
Add Ring methods_ring : (RT : ring_theory (o_zero O) (o_one O) (o_add O) (o_mul O) (o_sub O) (o_neg O) eq).
Variable junk : Z -> Z -> A.
Implicit Types a b m : arr A.
Implicit Types v w : list A.
Notation val := (val O).
Notation lin := (lin O).
Notation cor := (cor O).
Notation placed := (placed O).
Notation placed_rows := (placed_rows O).
Notation sumz := (sumz O).
Notation mul := (o_mul O).
Notation add := (o_add O).

(** ** Loops over channels *)

Definition has m (n len : Z) (F : Z -> Z -> A) : Prop :=
  wf m /\ nrows m = n /\ cols m = len /\ forall c i, 0 <= c < n -> 0 <= i < len -> el m c i = Some (F c i).

Definition computes (res : result (arr A * Z)) (n len off : Z) (F : Z -> Z -> A) : Prop :=
  exists ch, res = Ok (ch, off) /\ has ch n len F.

Lemma fill_rows_ok computed len : forall channels F, zlen computed = zlen channels -> Forall (fun c => zlen c = len) channels ->
  (forall i x, zth computed i = Some x -> exists w, x = Ok w /\ zlen w = len /\ forall k, 0 <= k < len -> zth w k = Some (F i k)) ->
  exists rs, fill_rows computed channels = Ok rs /\ zlen rs = zlen channels /\ Forall (fun c => zlen c = len) rs /\
    forall i w, zth rs i = Some w -> forall k, 0 <= k < len -> zth w k = Some (F i k).
Proof.
  induction computed as [|r computed IH]; intros [|ch channels] F L W H.
  - exists []. split; [reflexivity|]. split; [reflexivity|]. split; [constructor|]. intros i w. rewrite zth_nil. discriminate.
  - rewrite zlen_nil, zlen_cons in L. pose proof (zlen_nonneg channels). lia.
  - rewrite zlen_nil, zlen_cons in L. pose proof (zlen_nonneg computed). lia.
  - rewrite !zlen_cons in L. inversion W as [|? ? W1 W2]; subst.
    destruct (H 0 r) as (w & -> & Lw & Vw); [reflexivity|]. cbn [fill_rows bind]. rewrite vset_everything by lia. cbn [bind].
    destruct (IH channels (fun i => F (i + 1))) as (rs & E & Lr & Wr & Vr); auto; try lia.
    { intros i x Hx. destruct (Z_lt_ge_dec i 0); [rewrite zth_out in Hx by lia; discriminate|].
      apply (H (i + 1)). rewrite zth_cons. replace (i + 1 =? 0) with false by lia. now replace (i + 1 - 1) with i by lia. }
    rewrite E. cbn [bind]. eexists. split; [reflexivity|]. rewrite !zlen_cons, Lr. split; [auto|]. split; [constructor; [lia|auto]|].
    intros i y Hy. rewrite zth_cons in Hy. destruct (i =? 0) eqn:E0.
    + intros k Hk. injection Hy as <-. replace i with 0 by lia. apply Vw. lia.
    + intros k Hk. specialize (Vr _ _ Hy k Hk). cbv beta in Vr. now replace (i - 1 + 1) with i in Vr by lia.
Qed.

Lemma rows_of_ok computed r len F : 0 <= len -> zlen computed = r ->
  (forall i x, zth computed i = Some x -> exists w, x = Ok w /\ zlen w = len /\ forall k, 0 <= k < len -> zth w k = Some (F i k)) ->
  exists m, rows_of junk r len computed = Ok m /\ has m r len F.
Proof.
  intros Hl L H. pose proof (zlen_nonneg computed). unfold rows_of. destruct (allocate_ok junk r len) as (m & -> & W & N & C); try lia. cbn [bind].
  destruct (fill_rows_ok computed len (rows m) F) as (rs & -> & Lr & Wr & Vr); auto.
  - rewrite L. symmetry. exact N.
  - destruct W as [_ W]. eapply Forall_impl; [|exact W]. cbn. intros x ->. auto.
  - cbn [bind]. eexists. split; [reflexivity|]. split; [split; auto|]. split; [unfold nrows in *; cbn; lia|]. split; [reflexivity|].
    intros c i Hc Hi. unfold el. cbn. destruct (zth_in rs c) as (w & E); [unfold nrows in *; lia|]. rewrite E. eapply Vr; eauto.
Qed.

(** What the three methods of a class have to compute *)
Record specified (f : @methods A) (len start : Z -> Z -> Z) (base : Z -> Z -> Z) (F : list A -> list A -> Z -> A) : Prop := {
  on_vector : forall m v oa ob, wf m -> 0 < cols m -> 0 < zlen v ->
    computes (with_vector f m v oa ob) (nrows m) (len (cols m) (zlen v)) (base oa ob + start (cols m) (zlen v))
      (fun c i => F (rowv m c) v (i + start (cols m) (zlen v)));
  on_vector2 : forall v m oa ob, wf m -> 0 < cols m -> 0 < zlen v ->
    computes (with_vector2 f v m oa ob) (nrows m) (len (zlen v) (cols m)) (base oa ob + start (zlen v) (cols m))
      (fun c i => F v (rowv m c) (i + start (zlen v) (cols m)));
  on_matrix : forall a b oa ob, wf a -> wf b -> 0 < cols a -> 0 < cols b ->
    computes (with_matrix f a b oa ob) (Z.min (nrows a) (nrows b)) (len (cols a) (cols b)) (base oa ob + start (cols a) (cols b))
      (fun c i => F (rowv a c) (rowv b c) (i + start (cols a) (cols b)))
}.

Lemma computes_ext res res' n len off off' F G : computes res n len off F -> res = res' -> off = off' ->
  (forall c i, 0 <= c < n -> 0 <= i < len -> F c i = G c i) -> computes res' n len off' G.
Proof.
  intros (ch & E & W & N & C & H) <- <- HF. exists ch. split; auto. split; [|split; [|split]]; auto. intros c i Hc Hi. rewrite H by auto. f_equal. auto.
Qed.

(** A class that inherits [with_vector2] *)
Lemma specified_commutative f g len start F :
  (forall m v oa ob, wf m -> 0 < cols m -> 0 < zlen v ->
    computes (f m v oa ob) (nrows m) (len (cols m) (zlen v)) (oa + ob + start (cols m) (zlen v)) (fun c i => F (rowv m c) v (i + start (cols m) (zlen v)))) ->
  (forall a b oa ob, wf a -> wf b -> 0 < cols a -> 0 < cols b ->
    computes (g a b oa ob) (Z.min (nrows a) (nrows b)) (len (cols a) (cols b)) (oa + ob + start (cols a) (cols b))
      (fun c i => F (rowv a c) (rowv b c) (i + start (cols a) (cols b)))) ->
  (forall p q, len p q = len q p) -> (forall p q, start p q = start q p) -> (forall v w j, F v w j = F w v j) ->
  specified (commutative f g) len start (fun oa ob => oa + ob) F.
Proof.
  intros HV HM HL HS HF. split; cbn; auto. intros v m oa ob W Cm Cv. specialize (HV m v oa ob W Cm Cv).
  rewrite (HL (zlen v)), (HS (zlen v)). eapply computes_ext; [exact HV|reflexivity|lia|]. intros c i _ _. apply HF.
Qed.

(** ** FULL, SAME and VALID *)

Lemma map_rows_ok (f : list A -> result (list A)) m len F : wf m -> 0 <= len ->
  (forall c, 0 <= c < nrows m -> exists w, f (rowv m c) = Ok w /\ zlen w = len /\ forall k, 0 <= k < len -> zth w k = Some (F c k)) ->
  exists ch, rows_of junk (nrows m) len (map f (rows m)) = Ok ch /\ has ch (nrows m) len F.
Proof.
  intros W Hl H. apply rows_of_ok; auto; [apply zlen_map|]. intros i x Hx. rewrite zth_map in Hx.
  destruct (zth (rows m) i) as [r|] eqn:E; cbn in Hx; [|discriminate]. injection Hx as <-. pose proof (zth_range _ _ _ E) as R.
  replace r with (rowv m i); [apply H; exact R|]. unfold rowv. now rewrite E.
Qed.

Lemma map2_rows_ok (f : list A -> list A -> result (list A)) a b len F : wf a -> wf b -> 0 <= len ->
  (forall c, 0 <= c < Z.min (nrows a) (nrows b) ->
     exists w, f (rowv a c) (rowv b c) = Ok w /\ zlen w = len /\ forall k, 0 <= k < len -> zth w k = Some (F c k)) ->
  exists ch, rows_of junk (Z.min (nrows a) (nrows b)) len (map2 f (rows a) (rows b)) = Ok ch /\ has ch (Z.min (nrows a) (nrows b)) len F.
Proof.
  intros Wa Wb Hl H. apply rows_of_ok; auto; [apply zlen_map2|]. intros i x Hx. rewrite zth_map2 in Hx.
  destruct (zth (rows a) i) as [r|] eqn:E; [|discriminate]. destruct (zth (rows b) i) as [r'|] eqn:E'; cbn in Hx; [|discriminate].
  injection Hx as <-. pose proof (zth_range _ _ _ E) as R. pose proof (zth_range _ _ _ E') as R'.
  replace r with (rowv a i); [|unfold rowv; now rewrite E]. replace r' with (rowv b i); [|unfold rowv; now rewrite E']. apply H. unfold nrows. lia.
Qed.

Definition the_numpy_mode (mode : convolution_mode) : numpy_mode := match mode with FULL => Full | SAME => Same | _ => Valid end.

Lemma mode_length_nonneg mode p q : 0 < p -> 0 < q -> 0 <= mode_length mode p q.
Proof. destruct mode; cbn; lia. Qed.

Lemma convolution_vector_ok mode m v off : wf m -> 0 < cols m -> 0 < zlen v ->
  computes (ch <- rows_of junk (nrows m) (mode_length mode (cols m) (zlen v)) (map (fun c => convolve O c v mode) (rows m)) ;; Ok (ch, off))
    (nrows m) (mode_length mode (cols m) (zlen v)) off (fun c i => lin (rowv m c) v (i + mode_start mode (cols m) (zlen v))).
Proof.
  intros W Hm Hv.
  destruct (map_rows_ok (fun c => convolve O c v mode) m (mode_length mode (cols m) (zlen v)) (fun c i => lin (rowv m c) v (i + mode_start mode (cols m) (zlen v))))
    as (ch & E & Hh); auto using mode_length_nonneg.
  - intros c Hc. pose proof (zlen_rowv m c W Hc) as Lr. destruct (convolve_ok O RT (rowv m c) v mode) as (w & E & L & V); try lia.
    exists w. rewrite Lr in *. split; auto. split; auto. intros k Hk. apply V. lia.
  - exists ch. rewrite E. split; auto.
Qed.

Lemma convolution_matrix_ok mode a b off : wf a -> wf b -> 0 < cols a -> 0 < cols b ->
  computes (ch <- rows_of junk (Z.min (nrows a) (nrows b)) (mode_length mode (cols a) (cols b)) (map2 (fun c d => convolve O c d mode) (rows a) (rows b)) ;; Ok (ch, off))
    (Z.min (nrows a) (nrows b)) (mode_length mode (cols a) (cols b)) off (fun c i => lin (rowv a c) (rowv b c) (i + mode_start mode (cols a) (cols b))).
Proof.
  intros Wa Wb Ha Hb.
  destruct (map2_rows_ok (fun c d => convolve O c d mode) a b (mode_length mode (cols a) (cols b)) (fun c i => lin (rowv a c) (rowv b c) (i + mode_start mode (cols a) (cols b))))
    as (ch & E & Hh); auto using mode_length_nonneg.
  - intros c Hc. pose proof (zlen_rowv a c Wa ltac:(lia)) as Lr. pose proof (zlen_rowv b c Wb ltac:(lia)) as Lr'.
    destruct (convolve_ok O RT (rowv a c) (rowv b c) mode) as (w & E & L & V); try lia.
    exists w. rewrite Lr, Lr' in *. split; auto. split; auto. intros k Hk. apply V. lia.
  - exists ch. rewrite E. split; auto.
Qed.

Lemma direct_convolution_ok {K} (X : transforms A K) mode : mode = FULL \/ mode = SAME \/ mode = VALID ->
  specified (convolution O X junk mode) (mode_length (the_numpy_mode mode)) (mode_start (the_numpy_mode mode)) (fun oa ob => oa + ob) lin.
Proof.
  intros [->|[->| ->]]; cbn [convolution the_numpy_mode]; apply specified_commutative; try (intros p q; cbn [mode_length]; lia); try (intros p q; cbn [mode_start]; now rewrite (Z.min_comm p q)); try (intros p q; reflexivity); try (intros; now apply lin_comm).
  - intros. eapply computes_ext; [apply (convolution_vector_ok Full); auto|unfold full_convolution_vector; reflexivity|cbn; lia|auto].
  - intros. eapply computes_ext; [apply (convolution_matrix_ok Full); auto|unfold full_convolution_matrix; reflexivity|cbn; lia|auto].
  - intros. eapply computes_ext; [apply (convolution_vector_ok Same); auto|unfold same_convolution_vector; reflexivity|reflexivity|auto].
  - intros. eapply computes_ext; [apply (convolution_matrix_ok Same); auto|unfold same_convolution_matrix; reflexivity|reflexivity|auto].
  - intros. eapply computes_ext; [apply (convolution_vector_ok Valid); auto|unfold valid_convolution_vector; reflexivity|reflexivity|auto].
  - intros. eapply computes_ext; [apply (convolution_matrix_ok Valid); auto|unfold valid_convolution_matrix; reflexivity|reflexivity|auto].
Qed.

(** The first lag of a correlation *)
Definition lag_start (mode : convolution_mode) (p q : Z) : Z :=
  match mode with
  | SAME => (Z.min p q - 1) / 2 + 1 - p
  | VALID => Z.min 0 (q - p)
  | _ => 1 - p
  end.

(** One channel *)
Definition correlate_in (mode : convolution_mode) v w : result (list A) :=
  match mode with SAME => convolve O (rev v) w Same | _ => correlate_reversed O v w (the_numpy_mode mode) end.

Lemma correlate_in_ok mode v w : mode = FULL \/ mode = SAME \/ mode = VALID -> 0 < zlen v -> 0 < zlen w ->
  exists r, correlate_in mode v w = Ok r /\ zlen r = mode_length (the_numpy_mode mode) (zlen v) (zlen w) /\
    forall k, 0 <= k < zlen r -> zth r k = Some (cor v w (k + lag_start mode (zlen v) (zlen w))).
Proof.
  intros HM Hv Hw. destruct HM as [->|[->| ->]]; cbn [correlate_in the_numpy_mode].
  - destruct (correlate_ok O RT v w Full) as (r & E & L & V); auto; [discriminate|]. exists r. auto.
  - destruct (convolve_ok O RT (rev v) w Same) as (r & E & L & V); auto; [rewrite zlen_rev; auto|]. rewrite zlen_rev in *. exists r. split; auto. split; auto.
    intros k Hk. rewrite V by auto. f_equal. rewrite (cor_lin O RT). f_equal. cbn [mode_start lag_start]. lia.
  - destruct (correlate_ok O RT v w Valid) as (r & E & L & V); auto; [discriminate|]. exists r. auto.
Qed.

Lemma correlation_vector_ok mode m v off : mode = FULL \/ mode = SAME \/ mode = VALID -> wf m -> 0 < cols m -> 0 < zlen v ->
  computes (ch <- rows_of junk (nrows m) (mode_length (the_numpy_mode mode) (cols m) (zlen v)) (map (fun c => correlate_in mode c v) (rows m)) ;; Ok (ch, off))
    (nrows m) (mode_length (the_numpy_mode mode) (cols m) (zlen v)) off (fun c i => cor (rowv m c) v (i + lag_start mode (cols m) (zlen v))).
Proof.
  intros HM W Hm Hv.
  destruct (map_rows_ok (fun c => correlate_in mode c v) m (mode_length (the_numpy_mode mode) (cols m) (zlen v))
    (fun c i => cor (rowv m c) v (i + lag_start mode (cols m) (zlen v)))) as (ch & E & Hh); auto using mode_length_nonneg.
  - intros c Hc. pose proof (zlen_rowv m c W Hc) as Lr. destruct (correlate_in_ok mode (rowv m c) v) as (w & E & L & V); auto; try lia.
    exists w. rewrite Lr in *. split; auto. split; auto. intros k Hk. apply V. lia.
  - exists ch. rewrite E. split; auto.
Qed.

Lemma correlation_vector2_ok mode v m off : mode = FULL \/ mode = SAME \/ mode = VALID -> wf m -> 0 < cols m -> 0 < zlen v ->
  computes (ch <- rows_of junk (nrows m) (mode_length (the_numpy_mode mode) (zlen v) (cols m)) (map (fun c => correlate_in mode v c) (rows m)) ;; Ok (ch, off))
    (nrows m) (mode_length (the_numpy_mode mode) (zlen v) (cols m)) off (fun c i => cor v (rowv m c) (i + lag_start mode (zlen v) (cols m))).
Proof.
  intros HM W Hm Hv.
  destruct (map_rows_ok (fun c => correlate_in mode v c) m (mode_length (the_numpy_mode mode) (zlen v) (cols m))
    (fun c i => cor v (rowv m c) (i + lag_start mode (zlen v) (cols m)))) as (ch & E & Hh); auto using mode_length_nonneg.
  - intros c Hc. pose proof (zlen_rowv m c W Hc) as Lr. destruct (correlate_in_ok mode v (rowv m c)) as (w & E & L & V); auto; try lia.
    exists w. rewrite Lr in *. split; auto. split; auto. intros k Hk. apply V. lia.
  - exists ch. rewrite E. split; auto.
Qed.

Lemma correlation_matrix_ok mode a b off : mode = FULL \/ mode = SAME \/ mode = VALID -> wf a -> wf b -> 0 < cols a -> 0 < cols b ->
  computes (ch <- rows_of junk (Z.min (nrows a) (nrows b)) (mode_length (the_numpy_mode mode) (cols a) (cols b)) (map2 (correlate_in mode) (rows a) (rows b)) ;; Ok (ch, off))
    (Z.min (nrows a) (nrows b)) (mode_length (the_numpy_mode mode) (cols a) (cols b)) off (fun c i => cor (rowv a c) (rowv b c) (i + lag_start mode (cols a) (cols b))).
Proof.
  intros HM Wa Wb Ha Hb.
  destruct (map2_rows_ok (correlate_in mode) a b (mode_length (the_numpy_mode mode) (cols a) (cols b))
    (fun c i => cor (rowv a c) (rowv b c) (i + lag_start mode (cols a) (cols b)))) as (ch & E & Hh); auto using mode_length_nonneg.
  - intros c Hc. pose proof (zlen_rowv a c Wa ltac:(lia)) as Lr. pose proof (zlen_rowv b c Wb ltac:(lia)) as Lr'.
    destruct (correlate_in_ok mode (rowv a c) (rowv b c)) as (w & E & L & V); auto; try lia.
    exists w. rewrite Lr, Lr' in *. split; auto. split; auto. intros k Hk. apply V. lia.
  - exists ch. rewrite E. split; auto.
Qed.

Lemma same_lag p q : 0 < p -> 0 < q -> q - Z.max p q - Z.min p q / 2 = (Z.min p q - 1) / 2 + 1 - p.
Proof.
  intros. pose proof (Z.div_mod (Z.min p q) 2 ltac:(lia)). pose proof (Z.div_mod (Z.min p q - 1) 2 ltac:(lia)).
  pose proof (Z.mod_pos_bound (Z.min p q) 2 ltac:(lia)). pose proof (Z.mod_pos_bound (Z.min p q - 1) 2 ltac:(lia)). lia.
Qed.
Lemma valid_lag p q : (p - q + (Z.abs (p - q) + 1)) / 2 = - Z.min 0 (q - p).
Proof. symmetry. apply Z.div_unique with 1; lia. Qed.


Lemma direct_correlation_ok {K} (X : transforms A K) mode : mode = FULL \/ mode = SAME \/ mode = VALID ->
  specified (correlation O X junk mode) (mode_length (the_numpy_mode mode)) (lag_start mode) (fun oa ob => ob - oa) cor.
Proof.
  intros HM. split; intros.
  - destruct HM as [->|[->| ->]]; (eapply computes_ext; [eapply correlation_vector_ok; eauto|..|auto]); try reflexivity; cbn [lag_start].
    + lia.
    + pose proof (same_lag (cols m) (zlen v)). lia.
    + rewrite valid_lag. lia.
  - destruct HM as [->|[->| ->]]; (eapply computes_ext; [eapply correlation_vector2_ok; eauto|..|auto]); cbn [lag_start the_numpy_mode mode_length].
    + cbn. unfold full_correlation_vector2. rewrite (Z.add_comm (cols m)). reflexivity.
    + lia.
    + cbn. unfold same_correlation_vector2. rewrite (Z.max_comm (cols m)). reflexivity.
    + pose proof (same_lag (zlen v) (cols m)). lia.
    + reflexivity.
    + rewrite valid_lag. lia.
  - destruct HM as [->|[->| ->]]; (eapply computes_ext; [eapply correlation_matrix_ok; eauto|..|auto]); try reflexivity; cbn [lag_start].
    + lia.
    + pose proof (same_lag (cols a) (cols b)). lia.
    + rewrite valid_lag. lia.
Qed.

End Methods.
