(** The modes SPECTRUM and SPECTRUM_PADDED: products of spectrums are circular convolutions and correlations. *)

From Coq Require Import ZArith List Bool Lia ZifyBool Ring_theory Ring Reals.
From Verif.Model Require Import Py Numpy Vector Signal Fft Convolution.
From Verif.Spec Require Import RealSpec ComplexSpec DftSpec ConvolutionSpec.
From Verif.Proofs Require Import PyFacts NumpyFacts VectorFacts SumFacts ConvolveFacts PlacedFacts MethodFacts DftFacts.
Import ListNotations.
Open Scope Z_scope.
Ltac Zify.zify_post_hook ::= idtac.

Section Circular.
Context {A K : Type} (O : ops A) (RT : commutative_ring O).
Add Ring circular_ring : (RT : ring_theory (o_zero O) (o_one O) (o_add O) (o_mul O) (o_sub O) (o_neg O) eq).
Variable X : transforms A K.
Variable junk : Z -> Z -> A.
Implicit Types a b m : arr A.
Implicit Types v w x y : list A.
Notation val := (val O).
Notation lin := (lin O).
Notation cor := (cor O).
Notation placed := (placed O).
Notation placed_rows := (placed_rows O).
Notation sumz := (sumz O).
Notation mul := (o_mul O).
Notation add := (o_add O).

(** The two theorems about the transforms that are needed *)
Record exact_transforms : Prop := {
  ex_length : forall x, 0 < zlen x -> zlen (x_rfft X x) = zlen x / 2 + 1;
  ex_inverse_length : forall p n, 0 < n -> zlen (x_irfft X p n) = n;
  ex_convolution : forall x y p n, 0 < n -> zlen x = n -> zlen y = n -> zlen p = n / 2 + 1 ->
    (forall k s t, zth (x_rfft X x) k = Some s -> zth (x_rfft X y) k = Some t -> zth p k = Some (x_mul X s t)) ->
    forall i, 0 <= i < n -> zth (x_irfft X p n) i = Some (sumz 0 n (fun k => mul (val x k) (val y ((i - k) mod n))));
  ex_correlation : forall x y p n, 0 < n -> zlen x = n -> zlen y = n -> zlen p = n / 2 + 1 ->
    (forall k s t, zth (x_rfft X x) k = Some s -> zth (x_rfft X y) k = Some t -> zth p k = Some (x_mul X (x_conj X s) t)) ->
    forall i, 0 <= i < n -> zth (x_irfft X p n) i = Some (sumz 0 n (fun k => mul (val x k) (val y ((k + i) mod n))));
}.
Hypothesis EX : exact_transforms.

(** ** Circular and linear sums *)

Definition ccon v w (n j : Z) : A := sumz 0 n (fun k => mul (val v k) (val w ((j - k) mod n))).
Definition ccor v w (n j : Z) : A := sumz 0 n (fun k => mul (val v k) (val w ((k + j) mod n))).

Lemma mod_minus_mod p q n : (p mod n - q) mod n = (p - q) mod n.
Proof. apply Zminus_mod_idemp_l. Qed.

Lemma mod_period p n : 0 < n -> (p + n) mod n = p mod n.
Proof. intros H. replace (p + n) with (p + 1 * n) by lia. apply Z_mod_plus_full. Qed.

Lemma sumz_shift_period n f s : 0 < n -> (forall k, f (k + n) = f k) -> sumz 0 n (fun k => f (k + s)) = sumz 0 n f.
Proof. intros Hn H. rewrite (sumz_shift O 0 n s f). now apply (sumz_period O RT). Qed.

Lemma ccon_placed x y v w n s t i : 0 < n -> placed x v n s -> placed y w n t -> ccon x y n i = ccon v w n (i - s - t).
Proof.
  intros Hn (Lx & Lv & Vx) (Ly & Lw & Vy). unfold ccon.
  transitivity (sumz 0 n (fun k => (fun q => mul (val v (q mod n)) (val w ((i - s - t - q) mod n))) (k + - s))).
  - apply sumz_ext. intros k Hk. rewrite Vx by lia. rewrite Vy by (apply Z.mod_pos_bound; lia). rewrite mod_minus_mod. f_equal; do 2 f_equal; lia.
  - rewrite (sumz_shift_period n (fun q => mul (val v (q mod n)) (val w ((i - s - t - q) mod n)))); auto.
    + apply sumz_ext. intros k Hk. now rewrite (Z.mod_small k) by lia.
    + intros k. rewrite mod_period by lia. do 2 f_equal. rewrite <- (mod_period (i - s - t - (k + n))) by lia. f_equal. lia.
Qed.

Lemma ccor_placed x y v w n s t i : 0 < n -> placed x v n s -> placed y w n t -> ccor x y n i = ccor v w n (i + s - t).
Proof.
  intros Hn (Lx & Lv & Vx) (Ly & Lw & Vy). unfold ccor.
  transitivity (sumz 0 n (fun k => (fun q => mul (val v (q mod n)) (val w ((q + (i + s - t)) mod n))) (k + - s))).
  - apply sumz_ext. intros k Hk. rewrite Vx by lia. rewrite Vy by (apply Z.mod_pos_bound; lia). rewrite mod_minus_mod. f_equal; do 2 f_equal; lia.
  - rewrite (sumz_shift_period n (fun q => mul (val v (q mod n)) (val w ((q + (i + s - t)) mod n)))); auto.
    + apply sumz_ext. intros k Hk. now rewrite (Z.mod_small k) by lia.
    + intros k. rewrite mod_period by lia. do 2 f_equal. rewrite <- (mod_period (k + _)) by lia. f_equal. lia.
Qed.

Lemma ccor_period v w n j : 0 < n -> ccor v w n (j + n) = ccor v w n j.
Proof. intros Hn. apply sumz_ext. intros k _. do 2 f_equal. rewrite <- (mod_period (k + j)) by lia. f_equal. lia. Qed.

Lemma ccon_lin v w n j : zlen v <= n -> zlen w <= n -> 0 <= j < n -> ccon v w n j = add (lin v w j) (lin v w (j + n)).
Proof.
  intros Lv Lw Hj. pose proof (zlen_nonneg v). unfold ccon, ConvolveFacts.lin.
  rewrite <- (sumz_add O RT). rewrite (sumz_support O RT 0 (zlen v) 0 n); try lia.
  - apply sumz_ext. intros k Hk. rewrite mod_near by lia. destruct (j - k <? 0) eqn:E.
    + rewrite (val_out O w (j - k)) by lia. replace (j - k + n) with (j + n - k) by lia. ring.
    + rewrite (val_out O w (j + n - k)) by lia. ring.
  - intros k Hk. rewrite (val_out O v k) by lia. ring.
  - intros k Hk. destruct (Z_lt_ge_dec k 0); [rewrite (val_out O v k) by lia; ring|]. rewrite (val_out O v k) by lia. ring.
Qed.

Lemma ccor_cor v w n j : zlen v <= n -> zlen w <= n -> 1 - zlen v <= j <= n - zlen v -> ccor v w n j = add (cor v w j) (cor v w (j + n)).
Proof.
  intros Lv Lw Hj. pose proof (zlen_nonneg v). unfold ccor, ConvolveFacts.cor.
  rewrite <- (sumz_add O RT). rewrite <- (sumz_support O RT 0 (zlen v) 0 n); try lia.
  - apply sumz_ext. intros k Hk. rewrite mod_near by lia. destruct (k + j <? 0) eqn:E.
    + rewrite (val_out O w (k + j)) by lia. replace (k + (j + n)) with (k + j + n) by lia. ring.
    + rewrite (val_out O w (k + (j + n))) by lia. ring.
  - intros k Hk. rewrite (val_out O v k) by lia. ring.
  - intros k Hk. destruct (Z_lt_ge_dec k (zlen v)); rewrite (val_out O v k) by lia; ring.
Qed.

(** ** Products of spectrums *)

Lemma rfft_rows_ok m : wf m -> 0 < cols m ->
  exists s, rfft_rows X m = Ok s /\ wf s /\ nrows s = nrows m /\ cols s = cols m / 2 + 1 /\
    forall i k, 0 <= i < nrows m -> el s i k = zth (x_rfft X (rowv m i)) k.
Proof.
  intros W H. unfold rfft_rows. replace (cols m <? 1) with false by lia. eexists. split; [reflexivity|]. split; [|split; [|split]].
  - split; cbn; [pose proof (Z.div_pos (cols m) 2); lia|]. rewrite Forall_map. destruct W as [_ W]. eapply Forall_impl; [|exact W].
    cbn. intros r E. rewrite (ex_length EX), E; lia.
  - unfold nrows. cbn. apply zlen_map.
  - reflexivity.
  - intros i k Hi. unfold el. cbn. rewrite zth_map, rowv_zth by auto. reflexivity.
Qed.

(** The rows of a product of spectrums *)
Definition products (f g : K -> K) (p : arr K) (r n : Z) (R1 R2 : Z -> list A) : Prop :=
  wf p /\ nrows p = r /\ cols p = n / 2 + 1 /\ forall i, 0 <= i < r -> zlen (rowv p i) = n / 2 + 1 /\
    forall k s t, zth (x_rfft X (R1 i)) k = Some s -> zth (x_rfft X (R2 i)) k = Some t -> zth (rowv p i) k = Some (x_mul X (f s) (g t)).

Lemma one_row v : 0 <= zlen v -> wf (Arr [v] (zlen v)) /\ nrows (Arr [v] (zlen v)) = 1 /\ cols (Arr [v] (zlen v)) = zlen v /\ rowv (Arr [v] (zlen v)) 0 = v.
Proof. intros H. split; [split; cbn; [lia|repeat constructor]|]. split; [reflexivity|]. split; reflexivity. Qed.

Lemma vector_product_ok f g m v n : wf m -> 0 < n -> cols m = n -> zlen v = n ->
  exists p, vector_product X f g m v = Ok p /\ products f g p (nrows m) n (rowv m) (fun _ => v).
Proof.
  intros W Hn C L. unfold vector_product. pose proof (nrows_nonneg m) as Nn. assert (Dn : 0 <= n / 2) by (apply Z.div_pos; lia).
  destruct (rfft_rows_ok m) as (s & -> & Ws & Ns & Cs & Vs); auto; [lia|]. cbn [bind].
  destruct (one_row v (zlen_nonneg v)) as (Wv & Nv & Cv & Rv).
  destruct (rfft_rows_ok (Arr [v] (zlen v))) as (t & -> & Wt & Nt & Ct & Vt); auto; [lia|]. cbn [bind].
  rewrite C in Cs. rewrite Cv, L in Ct.
  destruct (ufunc2_ok (x_mul X) (ufunc1 f s) (ufunc1 g t) (nrows m) (cols s)) as (p & E & Wp & Np & Cp & Vp);
    rewrite ?nrows_ufunc1; auto using ufunc1_wf; try (cbn; lia).
  exists p. split; auto. split; [|split; [|split]]; auto; try lia. intros i Hi.
  assert (Lr : zlen (rowv p i) = n / 2 + 1) by (rewrite zlen_rowv by (auto; lia); lia). split; auto.
  intros k x y Hx Hy. pose proof (zth_range _ _ _ Hx) as R. rewrite (ex_length EX) in R by (rewrite zlen_rowv; auto; lia). rewrite zlen_rowv, C in R by (auto; lia).
  rewrite <- el_rowv by lia. rewrite Vp by lia. rewrite !el_ufunc1, !nrows_ufunc1. cbn [ufunc1 cols].
  replace (el s _ _) with (Some x). 2:{ rewrite Vs by zcases. rewrite <- Hx. do 2 f_equal; try (do 2 f_equal); zcases. }
  replace (el t _ _) with (Some y). 2:{ rewrite Vt by zcases. rewrite Nt, Nv. change (1 =? 1) with true. cbv iota. rewrite <- Hy. rewrite Rv. f_equal. zcases. }
  reflexivity.
Qed.

Lemma vector_product2_ok f g m v n : wf m -> 0 < n -> cols m = n -> zlen v = n ->
  exists p, vector_product2 X f g v m = Ok p /\ products f g p (nrows m) n (fun _ => v) (rowv m).
Proof.
  intros W Hn C L. unfold vector_product2. pose proof (nrows_nonneg m) as Nn. assert (Dn : 0 <= n / 2) by (apply Z.div_pos; lia).
  destruct (one_row v (zlen_nonneg v)) as (Wv & Nv & Cv & Rv).
  destruct (rfft_rows_ok (Arr [v] (zlen v))) as (t & -> & Wt & Nt & Ct & Vt); auto; [lia|]. cbn [bind].
  destruct (rfft_rows_ok m) as (s & -> & Ws & Ns & Cs & Vs); auto; [lia|]. cbn [bind].
  rewrite C in Cs. rewrite Cv, L in Ct.
  destruct (ufunc2_ok (x_mul X) (ufunc1 f t) (ufunc1 g s) (nrows m) (cols t)) as (p & E & Wp & Np & Cp & Vp);
    rewrite ?nrows_ufunc1; auto using ufunc1_wf; try (cbn; lia).
  exists p. split; auto. split; [|split; [|split]]; auto; try lia. intros i Hi.
  assert (Lr : zlen (rowv p i) = n / 2 + 1) by (rewrite zlen_rowv by (auto; lia); lia). split; auto.
  intros k x y Hx Hy. pose proof (zth_range _ _ _ Hy) as R. rewrite (ex_length EX) in R by (rewrite zlen_rowv; auto; lia). rewrite zlen_rowv, C in R by (auto; lia).
  rewrite <- el_rowv by lia. rewrite Vp by lia. rewrite !el_ufunc1, !nrows_ufunc1. cbn [ufunc1 cols].
  replace (el s _ _) with (Some y). 2:{ rewrite Vs by zcases. rewrite <- Hy. do 2 f_equal; try (do 2 f_equal); zcases. }
  replace (el t _ _) with (Some x). 2:{ rewrite Vt by zcases. rewrite Nt, Nv. change (1 =? 1) with true. cbv iota. rewrite <- Hx. rewrite Rv. f_equal. zcases. }
  reflexivity.
Qed.

Lemma rowv_top m c i : wf m -> 0 <= c <= nrows m -> 0 <= i < c -> rowv (block m (between 0 c) everything) i = rowv m i.
Proof.
  intros W Hc Hi. destruct W as [Cm W]. destruct (top_ok m c everything 0 (cols m) (conj Cm W) Hc) as (Wb & Nb & Cb & Vb);
    [apply lower_everything|now apply upper_everything|]. cbv zeta in *.
  apply zth_ext_in.
  - rewrite !zlen_rowv; auto; try lia. split; auto.
  - intros k Hk. rewrite zlen_rowv in Hk by (auto; lia). rewrite <- !el_rowv by lia. rewrite Vb by lia. zcases. f_equal. lia.
Qed.

Lemma matrix_product_ok f g a b c n : wf a -> wf b -> 0 < n -> cols a = n -> cols b = n -> 0 <= c <= nrows a -> c <= nrows b ->
  exists p, matrix_product X f g a b c = Ok p /\ products f g p c n (rowv a) (rowv b).
Proof.
  intros Wa Wb Hn Ca Cb Na Nb. unfold matrix_product. assert (Dn : 0 <= n / 2) by (apply Z.div_pos; lia).
  destruct (top_ok a c everything 0 (cols a) Wa Na) as (Wa' & Na' & Ca' & _); [apply lower_everything|apply upper_everything; lia|].
  destruct (top_ok b c everything 0 (cols b) Wb ltac:(lia)) as (Wb' & Nb' & Cb' & _); [apply lower_everything|apply upper_everything; lia|].
  pose proof (fun i => rowv_top a c i Wa Na) as Ra. pose proof (fun i => rowv_top b c i Wb ltac:(lia)) as Rb.
  cbv zeta in *. set (a' := block a _ _) in *. set (b' := block b _ _) in *. clearbody a' b'.
  destruct (rfft_rows_ok a') as (s & -> & Ws & Ns & Cs & Vs); auto; [lia|]. cbn [bind].
  destruct (rfft_rows_ok b') as (t & -> & Wt & Nt & Ct & Vt); auto; [lia|]. cbn [bind].
  rewrite Z.sub_0_r in *. rewrite Ca', Ca in Cs. rewrite Cb', Cb in Ct.
  destruct (ufunc2_ok (x_mul X) (ufunc1 f s) (ufunc1 g t) (nrows s) (cols s)) as (p & E & Wp & Np & Cp & Vp);
    rewrite ?nrows_ufunc1; auto using ufunc1_wf; try (cbn; lia); try (destruct Ws; auto; fail).
  exists p. split; auto. split; [|split; [|split]]; auto; try lia. intros i Hi.
  assert (Lr : zlen (rowv p i) = n / 2 + 1) by (rewrite zlen_rowv by (auto; lia); lia). split; auto.
  intros k x y Hx Hy. pose proof (zth_range _ _ _ Hx) as R. rewrite (ex_length EX) in R by (rewrite zlen_rowv; auto; lia). rewrite zlen_rowv, Ca in R by (auto; lia).
  rewrite <- el_rowv by lia. rewrite Vp by lia. rewrite !el_ufunc1, !nrows_ufunc1. cbn [ufunc1 cols].
  replace (el s _ _) with (Some x). 2:{ rewrite Vs by zcases. rewrite Ra by zcases. rewrite <- Hx. do 2 f_equal; try (do 2 f_equal); zcases. }
  replace (el t _ _) with (Some y). 2:{ rewrite Vt by zcases. rewrite Rb by zcases. rewrite <- Hy. do 2 f_equal; try (do 2 f_equal); zcases. }
  reflexivity.
Qed.

Lemma inverse_into_ok (p : arr K) r rl n part l u (F : Z -> Z -> A) : wf p -> nrows p = r -> cols p = n / 2 + 1 -> 0 < n -> n mod 2 = 0 ->
  lower part n = l -> upper part n = u -> u - l = rl ->
  (forall i k, 0 <= i < r -> 0 <= k < rl -> zth (x_irfft X (rowv p i) n) (k + l) = Some (F i k)) ->
  exists ch, inverse_into X junk r rl p part = Ok ch /\ has ch r rl F.
Proof.
  intros W N C Hn He Hl Hu Hrl HF. unfold inverse_into. pose proof (nrows_nonneg p) as Nn.
  pose proof (Z.div_mod n 2 ltac:(lia)) as D. pose proof (lower_range part n ltac:(lia)). pose proof (upper_range part n ltac:(lia)).
  destruct (allocate_ok junk r rl) as (m & -> & Wm & Nm & Cm); [lia|lia|]. cbn [bind].
  unfold irfft_rows, irfft_rows_n. replace (2 * (cols p - 1)) with n by lia. replace (n <? 1) with false by lia. cbn [bind].
  set (q := Arr (map (fun r0 => x_irfft X r0 n) (rows p)) n).
  assert (Wq : wf q). { split; cbn; [lia|]. rewrite Forall_map. apply Forall_forall. intros x _. now apply (ex_inverse_length EX). }
  assert (Nq : nrows q = r). { unfold nrows, q; cbn. rewrite zlen_map. exact N. }
  assert (Vq : forall i k, 0 <= i < r -> el q i k = zth (x_irfft X (rowv p i) n) k).
  { intros i k Hi. unfold el, q; cbn. rewrite zth_map, rowv_zth by lia. reflexivity. }
  assert (Cq : cols q = n) by reflexivity. clearbody q.
  assert (Bn : nrows (block q everything part) = r). { rewrite nrows_block, lower_everything, upper_everything by lia. lia. }
  assert (Bc : cols (block q everything part) = rl). { rewrite cols_block, Cq. lia. }
  destruct (set_cols_ok m everything (block q everything part) 0 rl) as (ch & E & Wc & Nc & Cc & Vc); auto using wf_block.
  { rewrite Cm. apply upper_everything. lia. }
  { lia. }
  { lia. }
  exists ch. split; auto. split; [|split; [|split]]; auto; try lia. intros i k Hi Hk. rewrite Vc by lia. replace (_ && _) with true by lia.
  rewrite el_block by auto. rewrite lower_everything, upper_everything by lia. rewrite Cq, Hl, Hu, Z.add_0_r. replace (_ && _) with true by lia.
  rewrite Vq by lia. rewrite <- HF by lia. f_equal. lia.
Qed.

Lemma convolved f g p r n R1 R2 v w s t i j : products f g p r n R1 R2 -> f = same -> g = same -> 0 < n -> 0 <= i < r -> 0 <= j < n ->
  placed (R1 i) v n s -> placed (R2 i) w n t -> zth (x_irfft X (rowv p i) n) j = Some (ccon v w n (j - s - t)).
Proof.
  intros (_ & _ & _ & H) -> -> Hn Hi Hj P1 P2. destruct (H i Hi) as (L & V).
  rewrite (ex_convolution EX (R1 i) (R2 i)); auto; [|apply P1|apply P2]. f_equal. now apply ccon_placed.
Qed.

Lemma correlated f g p r n R1 R2 v w s t i j : products f g p r n R1 R2 -> f = x_conj X -> g = same -> 0 < n -> 0 <= i < r -> 0 <= j < n ->
  placed (R1 i) v n s -> placed (R2 i) w n t -> zth (x_irfft X (rowv p i) n) j = Some (ccor v w n (j + s - t)).
Proof.
  intros (_ & _ & _ & H) -> -> Hn Hi Hj P1 P2. destruct (H i Hi) as (L & V).
  rewrite (ex_correlation EX (R1 i) (R2 i)); auto; [|apply P1|apply P2]. f_equal. now apply ccor_placed.
Qed.

End Circular.
