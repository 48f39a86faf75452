(** The discrete Fourier transform: orthogonality, inversion, circular convolution. *)

From Coq Require Import ZArith List Bool Lia ZifyBool Reals Lra Ring_theory Field_theory Ring.
From Verif.Model Require Import Py Signal Fft.
From Verif.Spec Require Import RealSpec ConvolutionSpec ComplexSpec DftSpec.
From Verif.Proofs Require Import PyFacts SumFacts ComplexFacts.
Import ListNotations.
Open Scope Z_scope.

Definition CO : ops C := complex_ops (fun z _ => z) (fun z _ => z).
Definition RO : ops R := real_ops (fun z _ => z) (fun z _ => z).

Lemma CO_ring : commutative_ring CO.
Proof. exact (F_R (complex_field (fun z _ => z) (fun z _ => z))). Qed.
Lemma real_ring power modulo : commutative_ring (real_ops power modulo).
Proof. constructor; intros; cbn; ring. Qed.

Notation C0 := (C_of_R 0).
Notation C1 := (C_of_R 1).
Lemma C_ring : ring_theory C0 C1 Cadd Cmul Csub Cneg eq.
Proof. exact CO_ring. Qed.
Add Ring C_ring : C_ring.

(** ** Powers of the root of unity *)

Lemma cis_add a b : cis (a + b) = Cmul (cis a) (cis b).
Proof. apply C_ext; cbn; [apply cos_plus|rewrite sin_plus; ring]. Qed.

Lemma cis_0 : cis 0 = C1.
Proof. apply C_ext; cbn; [apply cos_0|apply sin_0]. Qed.

Lemma cis_2PI : cis (2 * PI) = C1.
Proof. apply C_ext; cbn; [apply cos_2PI|apply sin_2PI]. Qed.

Lemma Cconj_cis t : Cconj (cis t) = cis (- t).
Proof. apply C_ext; cbn; [now rewrite cos_neg|now rewrite sin_neg]. Qed.

Section Root.
Variable n : Z.
Hypothesis Hn : 0 < n.

Lemma n_not_0 : IZR n <> 0%R.
Proof. intros H. apply (eq_IZR n 0) in H. lia. Qed.

Lemma root_add e f : root n (e + f) = Cmul (root n e) (root n f).
Proof. unfold root. rewrite <- cis_add. f_equal. rewrite plus_IZR. field. apply n_not_0. Qed.

Lemma root_0 : root n 0 = C1.
Proof. unfold root. rewrite <- cis_0. f_equal. field. apply n_not_0. Qed.

Lemma root_n : root n n = C1.
Proof. unfold root. rewrite <- cis_2PI. f_equal. field. apply n_not_0. Qed.

Lemma root_neg e : root n (- e) = Cconj (root n e).
Proof. unfold root. rewrite Cconj_cis. f_equal. rewrite opp_IZR. field. apply n_not_0. Qed.

Lemma root_mul_n e : root n (e * n) = C1.
Proof.
  assert (P : forall m, 0 <= m -> root n (m * n) = C1).
  { apply natlike_ind; [apply root_0|]. intros m Hm IH. unfold Z.succ. rewrite Z.mul_add_distr_r, root_add, IH, Z.mul_1_l, root_n. ring. }
  destruct (Z_le_gt_dec 0 e); [apply P; lia|]. replace (e * n) with (- ((- e) * n)) by lia. rewrite root_neg, P by lia. apply C_ext; cbn; ring.
Qed.

Lemma root_mod e : root n (e mod n) = root n e.
Proof.
  rewrite (Z_div_mod_eq_full e n) at 2. rewrite root_add, Z.mul_comm, root_mul_n. ring.
Qed.

Lemma root_not_1 e : e mod n <> 0 -> root n e <> C1.
Proof.
  intros H. rewrite <- root_mod. pose proof (Z.mod_pos_bound e n Hn) as B. set (f := e mod n) in *. assert (F : 0 < f < n) by lia. clearbody f.
  intros E. apply (f_equal re) in E. cbn in E.
  set (t := (PI * IZR f / IZR n)%R).
  assert (T : (0 < t < PI)%R).
  { pose proof PI_RGT_0. assert (0 < IZR f < IZR n)%R by (split; apply IZR_lt; lia). unfold t. split.
    - apply Rdiv_lt_0_compat; [apply Rmult_lt_0_compat|]; lra.
    - apply (Rmult_lt_reg_r (IZR n)); [lra|]. unfold Rdiv. rewrite Rmult_assoc, Rinv_l, Rmult_1_r by lra. apply Rmult_lt_compat_l; lra. }
  replace (2 * PI * IZR f / IZR n)%R with (2 * t)%R in E by (unfold t; field; apply n_not_0).
  rewrite cos_2a_sin in E. pose proof (sin_gt_0 t ltac:(lra) ltac:(lra)) as S. nra.
Qed.

Lemma C_integral z w : Cmul z w = C0 -> z = C0 \/ w = C0.
Proof.
  intros H. destruct (Req_EM_T (norm2 z) 0) as [Z|Z]; [left; now apply norm2_zero|]. right.
  assert (E : Cmul (Cmul (Cinv z) z) w = C0). { transitivity (Cmul (Cinv z) (Cmul z w)); [ring|]. rewrite H. ring. }
  rewrite Cmul_inv in E by (intros ->; apply Z; unfold norm2; cbn; ring). change (1%R, 0%R) with C1 in E. rewrite <- E. ring.
Qed.

Notation sumC := (sumz CO).
Lemma Csum_sumz m f : Csum m f = sumC 0 m f.
Proof. reflexivity. Qed.

(** Orthogonality *)
Lemma root_sum e : sumC 0 n (fun k => root n (e * k)) = if e mod n =? 0 then C_of_R (IZR n) else C0.
Proof.
  destruct (e mod n =? 0) eqn:E.
  - assert (R1 : forall k, root n (e * k) = C1).
    { intros k. rewrite (Z_div_mod_eq_full e n). replace (e mod n) with 0 by lia. rewrite Z.add_0_r. replace (n * (e / n) * k) with ((e / n * k) * n) by lia. apply root_mul_n. }
    rewrite (sumz_ext CO _ _ _ (fun _ => C1)) by auto. clear R1 E.
    assert (P : forall m, 0 <= m -> sumC 0 m (fun _ => C1) = C_of_R (IZR m)).
    { apply (count_ind (fun m => sumC 0 m (fun _ => C1) = C_of_R (IZR m))); [reflexivity|]. intros m Hm IH.
      rewrite (sumz_snoc CO CO_ring) by lia. replace (m + 1 - 1) with m by lia. rewrite IH, plus_IZR. apply C_ext; cbn; ring. }
    apply P. lia.
  - set (S := sumC 0 n _). assert (Q : Cmul (root n e) S = S).
    { unfold S at 1. change (Cmul) with (o_mul CO). rewrite <- (sumz_mul_l CO CO_ring).
      rewrite (sumz_ext CO _ _ _ (fun k => root n (e * (k + 1)))).
      2:{ intros k _. cbn. rewrite <- root_add. f_equal. lia. }
      rewrite (sumz_shift CO 0 n 1 (fun k => root n (e * k))).
      rewrite (sumz_period CO CO_ring n (fun k => root n (e * k)) (0 + 1)); auto.
      intros k. replace (e * (k + n)) with (e * k + e * n) by lia. rewrite root_add, root_mul_n. ring. }
    assert (Z0 : Cmul (Csub (root n e) C1) S = C0). { transitivity (Csub (Cmul (root n e) S) S); [ring|]. rewrite Q. ring. }
    apply C_integral in Z0. destruct Z0 as [Z0|Z0]; auto. exfalso. apply (root_not_1 e); [lia|].
    transitivity (Cadd (Csub (root n e) C1) C1); [ring|]. rewrite Z0. ring.
Qed.

(** ** Sums of real and complex numbers *)

Lemma sumC_re lo m f : re (sumC lo m f) = sumz RO lo m (fun k => re (f k)).
Proof. unfold sumz. induction (zseq lo m) as [|k l IH]; cbn in *; auto. now rewrite IH. Qed.

Lemma sumC_im lo m f : im (sumC lo m f) = sumz RO lo m (fun k => im (f k)).
Proof. unfold sumz. induction (zseq lo m) as [|k l IH]; cbn in *; auto. now rewrite IH. Qed.

Lemma sumC_conj lo m f : Cconj (sumC lo m f) = sumC lo m (fun k => Cconj (f k)).
Proof.
  unfold sumz. induction (zseq lo m) as [|k l IH]; cbn [fold_right]; [apply C_ext; cbn; ring|]. rewrite <- IH. apply C_ext; cbn; ring.
Qed.

Lemma sumC_real lo m (f : Z -> R) : sumC lo m (fun k => C_of_R (f k)) = C_of_R (sumz RO lo m f).
Proof. apply C_ext; [rewrite sumC_re; reflexivity|]. rewrite sumC_im. apply (sumz_zero RO (real_ring _ _)). reflexivity. Qed.

Lemma Cconj_mul z w : Cconj (Cmul z w) = Cmul (Cconj z) (Cconj w).
Proof. apply C_ext; cbn; ring. Qed.
Lemma Cconj_real x : Cconj (C_of_R x) = C_of_R x.
Proof. apply C_ext; cbn; ring. Qed.
Lemma Cconj_involutive z : Cconj (Cconj z) = z.
Proof. apply C_ext; cbn; ring. Qed.

(** ** The half of a Hermitian-symmetric spectrum *)

Definition symmetric (F : Z -> C) : Prop := (forall k, F (k + n) = F k) /\ (forall k, F (- k) = Cconj (F k)).

Lemma self_conj z : z = Cconj z -> C_of_R (re z) = z.
Proof. intros H. apply (f_equal im) in H. destruct z as [x y]. unfold Cconj, im in H. cbn in H. apply C_ext; cbn; [reflexivity|lra]. Qed.

Lemma symmetric_flip F k : symmetric F -> F (n - k) = Cconj (F k).
Proof. intros [P H]. replace (n - k) with (- k + n) by lia. now rewrite P, H. Qed.

Lemma hermitian_ok F k : symmetric F -> 0 <= k < n -> hermitian (map F (zseq 0 (n / 2 + 1))) n k = F k.
Proof.
  intros S Hk. pose proof (Z.div_mod n 2 ltac:(lia)) as D. pose proof (Z.mod_pos_bound n 2 ltac:(lia)) as B.
  assert (V : forall q, 0 <= q <= n / 2 -> at_C (map F (zseq 0 (n / 2 + 1))) q = F q).
  { intros q Hq. unfold at_C. rewrite zth_map, zth_seq. replace (_ && _) with true by lia. cbn. f_equal. }
  unfold hermitian. destruct (k =? 0) eqn:E0.
  - rewrite V by lia. replace k with 0 by lia. apply self_conj. destruct S as [_ H]. apply (H 0).
  - destruct (2 * k <? n) eqn:E1; [apply V; lia|]. destruct (2 * k =? n) eqn:E2.
    + rewrite V by lia. apply self_conj. rewrite <- symmetric_flip by auto. f_equal. lia.
    + rewrite V by lia. rewrite symmetric_flip by auto. apply Cconj_involutive.
Qed.

(** The inverse transform of the terms [F k] *)
Definition idft (F : Z -> C) (m : Z) : C := sumC 0 n (fun k => Cmul (F k) (root n (m * k))).

Lemma irfft_ok F m : symmetric F -> 0 <= m < n ->
  zth (irfft (map F (zseq 0 (n / 2 + 1))) n) m = Some (re (idft F m) / IZR n)%R.
Proof.
  intros S Hm. unfold irfft. rewrite zth_map, zth_seq. replace (_ && _) with true by lia. cbn [option_map]. do 3 f_equal.
  rewrite Csum_sumz. apply sumz_ext. intros k Hk. rewrite hermitian_ok by (auto; lia). reflexivity.
Qed.

Lemma zlen_irfft y m : zlen (irfft y m) = Z.max 0 m.
Proof. unfold irfft. now rewrite zlen_map, zlen_seq. Qed.

Lemma zlen_rfft x : zlen (rfft x) = zlen x / 2 + 1.
Proof. unfold rfft. rewrite zlen_map, zlen_seq. pose proof (zlen_nonneg x). pose proof (Z.div_pos (zlen x) 2). lia. Qed.

(** ** The transform of a sequence with [n] elements *)

Lemma dft_sum x k : zlen x = n -> dft x k = sumC 0 n (fun m => Cmul (C_of_R (at_R x m)) (root n (- (m * k)))).
Proof. intros <-. reflexivity. Qed.

Lemma dft_symmetric x : zlen x = n -> symmetric (dft x).
Proof.
  intros L. split; intros k; rewrite !dft_sum by auto.
  - apply sumz_ext. intros m _. f_equal. replace (- (m * (k + n))) with (- (m * k) + - m * n) by lia. rewrite root_add, root_mul_n. ring.
  - rewrite sumC_conj. apply sumz_ext. intros m _. rewrite Cconj_mul, Cconj_real. f_equal. rewrite <- root_neg. f_equal. lia.
Qed.

(** The product of two transforms, transformed back: [s] and [t] are the signs of the exponents. *)
Lemma double_sum (a b : Z -> C) (s t m : Z) :
  idft (fun k => Cmul (sumC 0 n (fun p => Cmul (a p) (root n (s * (p * k))))) (sumC 0 n (fun q => Cmul (b q) (root n (t * (q * k)))))) m
  = Cmul (C_of_R (IZR n)) (sumC 0 n (fun p => sumC 0 n (fun q => if (m + s * p + t * q) mod n =? 0 then Cmul (a p) (b q) else C0))).
Proof.
  unfold idft.
  transitivity (sumC 0 n (fun k => sumC 0 n (fun p => sumC 0 n (fun q => Cmul (Cmul (a p) (b q)) (root n ((m + s * p + t * q) * k)))))).
  - apply sumz_ext. intros k _. change Cmul with (o_mul CO).
    rewrite <- (sumz_mul_r CO CO_ring), <- (sumz_mul_r CO CO_ring). apply sumz_ext. intros p _.
    rewrite <- (sumz_mul_l CO CO_ring), <- (sumz_mul_r CO CO_ring). apply sumz_ext. intros q _.
    cbn. replace ((m + s * p + t * q) * k) with (s * (p * k) + t * (q * k) + m * k) by lia. rewrite !root_add. ring.
  - rewrite (sumz_swap CO CO_ring). change Cmul with (o_mul CO). rewrite <- (sumz_mul_l CO CO_ring). apply sumz_ext. intros p _.
    rewrite (sumz_swap CO CO_ring). rewrite <- (sumz_mul_l CO CO_ring). apply sumz_ext. intros q _.
    rewrite (sumz_mul_l CO CO_ring). rewrite root_sum. cbn. destruct (_ =? 0); ring.
Qed.

Lemma pick_one (f : Z -> C) (e : Z -> Z) (j : Z) : 0 <= j < n -> (forall q, 0 <= q < n -> (e q mod n =? 0) = (q =? j)) ->
  sumC 0 n (fun q => if e q mod n =? 0 then f q else C0) = f j.
Proof.
  intros Hj H. rewrite (sumz_single CO CO_ring 0 n j); [|lia|].
  - rewrite H by lia. now rewrite Z.eqb_refl.
  - intros k Hk Hne. rewrite H by lia. replace (k =? j) with false by lia. reflexivity.
Qed.

Lemma symmetric_mul F G : symmetric F -> symmetric G -> symmetric (fun k => Cmul (F k) (G k)).
Proof. intros [P S] [Q T]. split; intros k; [now rewrite P, Q|now rewrite S, T, Cconj_mul]. Qed.
Lemma symmetric_conj F : symmetric F -> symmetric (fun k => Cconj (F k)).
Proof. intros [P S]. split; intros k; [now rewrite P|now rewrite S]. Qed.

Lemma re_div_n (z : C) r : z = Cmul (C_of_R (IZR n)) (C_of_R r) -> (re z / IZR n)%R = r.
Proof. intros ->. cbn. field. apply n_not_0. Qed.

Lemma list_of_terms (p : list C) F : zlen p = n / 2 + 1 -> (forall k, 0 <= k < n / 2 + 1 -> zth p k = Some (F k)) -> p = map F (zseq 0 (n / 2 + 1)).
Proof.
  intros L H. apply zth_ext_in; [rewrite zlen_map, zlen_seq; pose proof (Z.div_pos n 2); lia|]. intros k Hk. rewrite zth_map, zth_seq.
  replace (_ && _) with true by lia. rewrite H by lia. reflexivity.
Qed.

Lemma zth_rfft x k : zlen x = n -> 0 <= k < n / 2 + 1 -> zth (rfft x) k = Some (dft x k).
Proof. intros L Hk. unfold rfft. rewrite L, zth_map, zth_seq. replace (_ && _) with true by lia. reflexivity. Qed.

Section Product.
Variables x y : list R.
Hypothesis Lx : zlen x = n.
Hypothesis Ly : zlen y = n.
Variable p : list C.
Hypothesis Lp : zlen p = n / 2 + 1.

Lemma circular_convolution i :
  (forall k u v, zth (rfft x) k = Some u -> zth (rfft y) k = Some v -> zth p k = Some (Cmul u v)) -> 0 <= i < n ->
  zth (irfft p n) i = Some (sumz RO 0 n (fun k => at_R x k * at_R y ((i - k) mod n))%R).
Proof.
  intros H Hi. rewrite (list_of_terms p (fun k => Cmul (dft x k) (dft y k))); auto.
  2:{ intros k Hk. apply H; apply zth_rfft; auto. }
  rewrite irfft_ok by (auto using symmetric_mul, dft_symmetric). f_equal. apply re_div_n.
  transitivity (idft (fun k => Cmul (sumC 0 n (fun p => Cmul (C_of_R (at_R x p)) (root n (-1 * (p * k)))))
                                    (sumC 0 n (fun q => Cmul (C_of_R (at_R y q)) (root n (-1 * (q * k)))))) i).
  { apply sumz_ext. intros k _. rewrite !dft_sum by auto. do 2 f_equal; apply sumz_ext; intros m _; do 2 f_equal; lia. }
  rewrite double_sum. f_equal. rewrite <- sumC_real. apply sumz_ext. intros k Hk.
  rewrite (pick_one (fun q => Cmul (C_of_R (at_R x k)) (C_of_R (at_R y q))) (fun q => i + -1 * k + -1 * q) ((i - k) mod n)).
  - apply C_ext; cbn; ring.
  - apply Z.mod_pos_bound. lia.
  - intros q Hq. destruct (q =? (i - k) mod n) eqn:E.
    + apply Z.eqb_eq. replace (i + -1 * k + -1 * q) with (i - k - q) by lia. replace q with ((i - k) mod n) by lia.
      rewrite Zminus_mod_idemp_r, Z.sub_diag. apply Zmod_0_l.
    + apply Z.eqb_neq. intros M. replace (i + -1 * k + -1 * q) with (i - k - q) in M by lia. apply Z.mod_divide in M; [|lia]. destruct M as [d D].
      assert ((i - k) mod n = q) by (symmetry; apply Z.mod_unique with d; lia). lia.
Qed.

Lemma circular_correlation i :
  (forall k u v, zth (rfft x) k = Some u -> zth (rfft y) k = Some v -> zth p k = Some (Cmul (Cconj u) v)) -> 0 <= i < n ->
  zth (irfft p n) i = Some (sumz RO 0 n (fun k => at_R x k * at_R y ((k + i) mod n))%R).
Proof.
  intros H Hi. rewrite (list_of_terms p (fun k => Cmul (Cconj (dft x k)) (dft y k))); auto.
  2:{ intros k Hk. apply H; apply zth_rfft; auto. }
  rewrite irfft_ok; [|apply symmetric_mul; [apply symmetric_conj|]; now apply dft_symmetric|auto]. f_equal. apply re_div_n.
  transitivity (idft (fun k => Cmul (sumC 0 n (fun p => Cmul (C_of_R (at_R x p)) (root n (1 * (p * k)))))
                                    (sumC 0 n (fun q => Cmul (C_of_R (at_R y q)) (root n (-1 * (q * k)))))) i).
  { apply sumz_ext. intros k _. rewrite !dft_sum by auto. rewrite sumC_conj. f_equal. f_equal. apply sumz_ext. intros m _.
    rewrite Cconj_mul, Cconj_real, <- root_neg. do 2 f_equal. lia. }
  rewrite double_sum. f_equal. rewrite <- sumC_real. apply sumz_ext. intros k Hk.
  rewrite (pick_one (fun q => Cmul (C_of_R (at_R x k)) (C_of_R (at_R y q))) (fun q => i + 1 * k + -1 * q) ((k + i) mod n)).
  - apply C_ext; cbn; ring.
  - apply Z.mod_pos_bound. lia.
  - intros q Hq. destruct (q =? (k + i) mod n) eqn:E.
    + apply Z.eqb_eq. replace (i + 1 * k + -1 * q) with (k + i - q) by lia. replace q with ((k + i) mod n) by lia.
      rewrite Zminus_mod_idemp_r, Z.sub_diag. apply Zmod_0_l.
    + apply Z.eqb_neq. intros M. replace (i + 1 * k + -1 * q) with (k + i - q) in M by lia. apply Z.mod_divide in M; [|lia]. destruct M as [d D].
      assert ((k + i) mod n = q) by (symmetry; apply Z.mod_unique with d; lia). lia.
Qed.
End Product.

(** The transform of the inverse transform *)
Lemma dft_idft F k (a : Z -> C) : symmetric F -> (forall m, a m = Cmul (C_of_R (/ IZR n)) (idft F m)) -> 0 <= k < n ->
  sumC 0 n (fun m => Cmul (a m) (root n (- (m * k)))) = F k.
Proof.
  intros S Ha Hk.
  transitivity (sumC 0 n (fun m => sumC 0 n (fun q => Cmul (Cmul (C_of_R (/ IZR n)) (F q)) (root n ((q - k) * m))))).
  - apply sumz_ext. intros m _. rewrite Ha. unfold idft. change Cmul with (o_mul CO). rewrite <- (sumz_mul_l CO CO_ring), <- (sumz_mul_r CO CO_ring).
    apply sumz_ext. intros q _. cbn. replace ((q - k) * m) with (m * q + - (m * k)) by lia. rewrite root_add. ring.
  - rewrite (sumz_swap CO CO_ring).
    rewrite (sumz_ext CO _ _ _ (fun q => if (q - k) mod n =? 0 then F q else C0)).
    + apply (pick_one F (fun q => q - k)); auto. intros q Hq. destruct (q =? k) eqn:E.
      * replace (q - k) with 0 by lia. rewrite Zmod_0_l. reflexivity.
      * apply Z.eqb_neq. intros M. apply Z.mod_divide in M; [|lia]. destruct M as [d D]. assert (d = 0) by nia. lia.
    + intros q _. change Cmul with (o_mul CO). rewrite (sumz_mul_l CO CO_ring), root_sum. cbn. destruct (_ =? 0); [|ring].
      pose proof n_not_0. apply C_ext; cbn; field; auto.
Qed.

Lemma idft_real F m : symmetric F -> C_of_R (re (idft F m)) = idft F m.
Proof.
  intros S. apply self_conj. unfold idft. rewrite sumC_conj.
  (* k -> - k *)
  transitivity (sumC 0 n (fun k => (fun q => Cmul (F q) (root n (m * q))) (0 - k))).
  - rewrite (sumz_flip CO CO_ring 0 n 0 (fun q => Cmul (F q) (root n (m * q)))) by lia. symmetry. apply (sumz_period CO CO_ring); auto. intros k. destruct S as [P _]. rewrite P. f_equal.
    replace (m * (k + n)) with (m * k + m * n) by lia. rewrite root_add, root_mul_n. ring.
  - apply sumz_ext. intros k _. cbv beta. destruct S as [_ H]. rewrite Cconj_mul, <- root_neg, Z.sub_0_l, H. do 2 f_equal. lia.
Qed.

(** [rfft(irfft(F))] *)
Lemma dft_irfft F k : symmetric F -> 0 <= k < n -> dft (irfft (map F (zseq 0 (n / 2 + 1))) n) k = F k.
Proof.
  intros S Hk. rewrite dft_sum by (rewrite zlen_irfft; lia).
  rewrite (sumz_ext CO _ _ _ (fun m => Cmul ((fun m => Cmul (C_of_R (/ IZR n)) (idft F m)) m) (root n (- (m * k))))).
  - apply dft_idft; auto.
  - intros m Hm. f_equal. unfold at_R. rewrite irfft_ok by (auto; lia). cbv beta. rewrite <- idft_real by auto.
    apply C_ext; cbn; field; apply n_not_0.
Qed.

(** [irfft(rfft(x))] *)
Lemma irfft_rfft x : zlen x = n -> irfft (rfft x) n = x.
Proof.
  intros L. apply zth_ext_in; [rewrite zlen_irfft; lia|]. intros m Hm. rewrite zlen_irfft in Hm.
  unfold rfft. rewrite L, irfft_ok by (auto using dft_symmetric; lia).
  destruct (zth_in x m) as (v & Ev); [lia|]. rewrite Ev. f_equal. apply re_div_n. unfold idft.
  transitivity (sumC 0 n (fun k => sumC 0 n (fun q => Cmul (C_of_R (at_R x q)) (root n ((m - q) * k))))).
  - apply sumz_ext. intros k _. rewrite dft_sum by auto. change Cmul with (o_mul CO). rewrite <- (sumz_mul_r CO CO_ring).
    apply sumz_ext. intros q _. cbn. replace ((m - q) * k) with (- (q * k) + m * k) by lia. rewrite root_add. ring.
  - rewrite (sumz_swap CO CO_ring).
    rewrite (sumz_ext CO _ _ _ (fun q => if (m - q) mod n =? 0 then Cmul (C_of_R (IZR n)) (C_of_R (at_R x q)) else C0)).
    + rewrite (pick_one _ (fun q => m - q) m); [|lia|].
      * unfold at_R. now rewrite Ev.
      * intros q Hq. destruct (q =? m) eqn:E.
        -- replace (m - q) with 0 by lia. rewrite Zmod_0_l. reflexivity.
        -- apply Z.eqb_neq. intros M. apply Z.mod_divide in M; [|lia]. destruct M as [d D]. assert (d = 0) by nia. lia.
    + intros q _. change Cmul with (o_mul CO). rewrite (sumz_mul_l CO CO_ring), root_sum. cbn. destruct (_ =? 0); ring.
Qed.

End Root.
