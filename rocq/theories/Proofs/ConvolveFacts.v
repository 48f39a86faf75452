(** numpy.convolve and numpy.correlate compute sums of products. *)

From Coq Require Import ZArith List Bool Lia ZifyBool Ring_theory Ring.
From Verif.Model Require Import Py Signal Fft Convolution.
From Verif.Spec Require Import ConvolutionSpec.
From Verif.Proofs Require Import PyFacts SumFacts.
Import ListNotations.
Open Scope Z_scope.
Ltac Zify.zify_post_hook ::= Z.to_euclidean_division_equations.

Section Convolve.
Context {A : Type} (O : ops A) (RT : commutative_ring O).
Add Ring convolve_ring : (RT : ring_theory (o_zero O) (o_one O) (o_add O) (o_mul O) (o_sub O) (o_neg O) eq).
Implicit Types a b l : list A.

(** The element number [k], zero outside *)
Definition val l (k : Z) : A := match zth l k with Some x => x | None => o_zero O end.

(** The linear convolution and correlation of two sequences, for each integer *)
Definition lin a b (j : Z) : A := sumz O 0 (zlen a) (fun k => o_mul O (val a k) (val b (j - k))).
Definition cor a b (j : Z) : A := sumz O 0 (zlen a) (fun k => o_mul O (val a k) (val b (k + j))).

Lemma val_out l k : ~ (0 <= k < zlen l) -> val l k = o_zero O.
Proof. intros H. unfold val. now rewrite zth_out. Qed.

Lemma zth_val l k : 0 <= k < zlen l -> zth l k = Some (val l k).
Proof. intros H. destruct (zth_in l k H) as (x & E). unfold val. now rewrite E. Qed.

Lemma val_zth l k x : zth l k = Some x -> val l k = x.
Proof. unfold val. now intros ->. Qed.

Lemma val_rev l k : val (rev l) k = val l (zlen l - 1 - k).
Proof. unfold val. now rewrite zth_rev. Qed.

Lemma mul_0_l x : o_mul O (o_zero O) x = o_zero O. Proof. ring. Qed.
Lemma mul_0_r x : o_mul O x (o_zero O) = o_zero O. Proof. ring. Qed.

Lemma lin_comm a b j : lin a b j = lin b a j.
Proof.
  unfold lin. pose proof (zlen_nonneg a). pose proof (zlen_nonneg b).
  rewrite (sumz_support O RT 0 (zlen a) (j - zlen b + 1) (zlen b)); try lia.
  - replace (j - zlen b + 1) with (j - 0 - zlen b + 1) by lia. rewrite <- (sumz_flip O RT) by lia.
    apply sumz_ext. intros k Hk. replace (j - (j - k)) with k by lia. ring.
  - intros k Hk. rewrite val_out by lia. apply mul_0_l.
  - intros k Hk. rewrite (val_out b) by lia. apply mul_0_r.
Qed.

Lemma lin_out a b j : ~ (0 <= j < zlen a + zlen b - 1) -> lin a b j = o_zero O.
Proof.
  intros H. apply (sumz_zero O RT). intros k Hk. rewrite (val_out b) by lia. apply mul_0_r.
Qed.

Lemma cor_lin a b j : cor a b j = lin (rev a) b (j + zlen a - 1).
Proof.
  unfold cor, lin. pose proof (zlen_nonneg a). rewrite zlen_rev.
  replace 0 with (zlen a - 1 - 0 - zlen a + 1) at 2 by lia. rewrite <- (sumz_flip O RT) by lia.
  apply sumz_ext. intros k Hk. rewrite val_rev. replace (zlen a - 1 - (zlen a - 1 - k)) with k by lia. do 2 f_equal. lia.
Qed.

Lemma cor_out a b j : ~ (- zlen a < j < zlen b) -> cor a b j = o_zero O.
Proof. intros H. rewrite cor_lin. apply lin_out. rewrite zlen_rev. lia. Qed.

Lemma overlap_cor long short d : overlap_product O long short d = cor short long d.
Proof.
  unfold overlap_product, cor. transitivity (sumz O 0 (zlen short) (fun k => match zth long (d + k), zth short k with
    | Some x, Some y => o_mul O x y | _, _ => o_zero O end)); [reflexivity|].
  apply sumz_ext. intros k Hk. rewrite Z.add_comm. unfold val. destruct (zth long (k + d)), (zth short k); try ring.
Qed.

(** The inverse: correlating is convolving with the reversed sequence *)
Lemma lin_cor short long e : cor (rev short) long e = lin short long (e + zlen short - 1).
Proof. rewrite cor_lin, rev_involutive, zlen_rev. reflexivity. Qed.

(** The number of elements and the index of the first one within the linear convolution *)
Definition mode_length (mode : numpy_mode) (m n : Z) : Z :=
  match mode with Full => m + n - 1 | Same => Z.max m n | Valid => Z.abs (m - n) + 1 end.
Definition mode_start (mode : numpy_mode) (m n : Z) : Z :=
  match mode with Full => 0 | Same => (Z.min m n - 1) / 2 | Valid => Z.min m n - 1 end.

Lemma convolve_ok a b mode : 0 < zlen a -> 0 < zlen b ->
  exists w, convolve O a b mode = Ok w /\ zlen w = mode_length mode (zlen a) (zlen b) /\
    forall i, 0 <= i < zlen w -> zth w i = Some (lin a b (i + mode_start mode (zlen a) (zlen b))).
Proof.
  intros Ha Hb. unfold convolve.
  assert (Core : forall long short, 0 < zlen short -> zlen short <= zlen long ->
    let w := correlate_ O long (rev short) mode in zlen w = mode_length mode (zlen long) (zlen short) /\
    forall i, 0 <= i < zlen w -> zth w i = Some (lin long short (i + mode_start mode (zlen long) (zlen short)))).
  { intros long short Hs Hl w. unfold w, correlate_. rewrite zlen_rev. 
    destruct mode; cbn [mode_length mode_start]; rewrite zlen_map, zlen_seq; split; try lia; intros i Hi; rewrite zth_map, zth_seq;
      replace (_ && _) with true by lia; cbn [option_map]; f_equal; rewrite overlap_cor, lin_cor, lin_comm; f_equal; lia. }
  destruct (zlen a <? zlen b) eqn:E.
  - replace (_ || _) with false by lia. eexists. split; [reflexivity|]. destruct (Core b a) as (L & V); try lia. split; [rewrite L; destruct mode; cbn; lia|].
    intros i Hi. rewrite V by auto. rewrite lin_comm. do 2 f_equal. destruct mode; cbn; lia.
  - replace (_ || _) with false by lia. eexists. split; [reflexivity|]. apply Core; lia.
Qed.

(** The first lag of a reversed correlation *)
Definition first_lag (mode : numpy_mode) (m n : Z) : Z :=
  match mode with Full => 1 - m | Same => 0 | Valid => Z.min 0 (n - m) end.

Lemma cor_swap a b j : cor a b j = cor b a (- j).
Proof.
  unfold cor. pose proof (zlen_nonneg a). pose proof (zlen_nonneg b).
  rewrite (sumz_support O RT 0 (zlen a) (- j) (zlen b)); try lia.
  - rewrite <- (Z.add_0_l (- j)) at 1. rewrite <- (sumz_shift O). apply sumz_ext. intros k Hk.
    replace (k + - j + j) with k by lia. ring.
  - intros k Hk. rewrite val_out by lia. apply mul_0_l.
  - intros k Hk. rewrite (val_out b) by lia. apply mul_0_r.
Qed.

Lemma correlate_ok a b mode : 0 < zlen a -> 0 < zlen b -> mode <> Same ->
  exists w, correlate_reversed O a b mode = Ok w /\ zlen w = mode_length mode (zlen a) (zlen b) /\
    forall i, 0 <= i < zlen w -> zth w i = Some (cor a b (i + first_lag mode (zlen a) (zlen b))).
Proof.
  intros Ha Hb Hm. unfold correlate_reversed, correlate. replace (_ || _) with false by lia.
  assert (Core : forall long short, 0 < zlen short -> zlen short <= zlen long ->
    let w := correlate_ O long short mode in zlen w = mode_length mode (zlen long) (zlen short) /\
    forall i, 0 <= i < zlen w -> zth w i = Some (cor short long (i + match mode with Full => 1 - zlen short | _ => 0 end))).
  { intros long short Hs Hl w. unfold w, correlate_. 
    destruct mode; [| congruence |]; cbn [mode_length]; rewrite zlen_map, zlen_seq; split; try lia; intros i Hi; rewrite zth_map, zth_seq;
      replace (_ && _) with true by lia; cbn [option_map]; f_equal; rewrite overlap_cor; f_equal; lia. }
  destruct (zlen a <? zlen b) eqn:E; cbn [rmap].
  - eexists. split; [reflexivity|]. rewrite rev_involutive. destruct (Core b a) as (L & V); try lia. split; [rewrite L; destruct mode; cbn; lia|].
    intros i Hi. rewrite V by auto. do 2 f_equal. destruct mode; cbn; lia.
  - eexists. split; [reflexivity|]. destruct (Core a b) as (L & V); try lia. split; [rewrite zlen_rev, L; destruct mode; cbn; lia|].
    intros i Hi. rewrite zlen_rev in Hi. rewrite zth_rev, V by lia. rewrite cor_swap, L. do 2 f_equal.
    destruct mode; [|congruence|]; cbn [mode_length first_lag]; lia.
Qed.

End Convolve.
