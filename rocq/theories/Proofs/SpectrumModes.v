(** The modes SPECTRUM and SPECTRUM_PADDED of _convolution.py. *)

From Coq Require Import ZArith List Bool Lia ZifyBool Ring_theory Ring Reals.
From Verif.Model Require Import Py Numpy Vector Signal Fft Convolution.
From Verif.Spec Require Import RealSpec ComplexSpec DftSpec ConvolutionSpec.
From Verif.Proofs Require Import PyFacts NumpyFacts VectorFacts SumFacts ConvolveFacts PlacedFacts MethodFacts DftFacts CircularFacts.
Import ListNotations.
Open Scope Z_scope.
Ltac Zify.zify_post_hook ::= idtac.

Section Modes.
Context {A K : Type} (O : ops A) (RT : commutative_ring O).
Add Ring modes_ring : (RT : ring_theory (o_zero O) (o_one O) (o_add O) (o_mul O) (o_sub O) (o_neg O) eq).
Variable X : transforms A K.
Variable junk : Z -> Z -> A.
Hypothesis EX : exact_transforms O X.
Implicit Types a b m : arr A.
Implicit Types v w x y : list A.
Notation val := (val O).
Notation lin := (lin O).
Notation cor := (cor O).
Notation placed := (placed O).
Notation placed_rows := (placed_rows O).
Notation add := (o_add O).
Notation ccon := (ccon O).
Notation ccor := (ccor O).

Definition even_up (n : Z) : Z := if n mod 2 =? 0 then n else n + 1.

Lemma even_up_even n : even_up n mod 2 = 0.
Proof.
  unfold even_up. destruct (n mod 2 =? 0) eqn:E; [lia|]. pose proof (Z.mod_pos_bound n 2 ltac:(lia)).
  rewrite <- Zplus_mod_idemp_l. replace (n mod 2) with 1 by lia. reflexivity.
Qed.
Lemma even_up_range n : n <= even_up n <= n + 1.
Proof. unfold even_up. destruct (n mod 2 =? 0); lia. Qed.
Lemma odd_even n : (n mod 2 =? 1) = negb (n mod 2 =? 0).
Proof. pose proof (Z.mod_pos_bound n 2 ltac:(lia)). lia. Qed.

Lemma maybe_pad_matrix m c n : wf m -> 0 <= c <= nrows m -> cols m <= n ->
  exists r, (if cols m <? n then pad_matrix O junk m (cols m) c n else Ok m) = Ok r /\ wf r /\ c <= nrows r /\ (c = nrows m -> nrows r = c) /\ cols r = n /\
    forall i, 0 <= i < c -> placed (rowv r i) (rowv m i) n 0.
Proof.
  intros W Hc Hn. destruct (cols m <? n) eqn:E.
  - destruct (pad_matrix_ok O junk m c n W Hc Hn) as (r & -> & Wr & Nr & Cr & Pr). exists r. repeat (split; [auto; lia|]). auto.
  - exists m. assert (cols m = n) by lia. repeat (split; [auto; lia|]). intros i Hi. apply placed_self. rewrite zlen_rowv by (auto; lia). auto.
Qed.

Lemma maybe_pad_vector v n : zlen v <= n ->
  exists r, (if zlen v <? n then pad_vector O junk v (zlen v) n else Ok v) = Ok r /\ placed r v n 0.
Proof.
  intros Hn. destruct (zlen v <? n) eqn:E; [now apply pad_vector_ok|]. exists v. split; auto. apply placed_self. lia.
Qed.

Ltac ranges := repeat match goal with H : wf ?m |- _ => lazymatch goal with _ : 0 <= nrows m |- _ => fail | _ => pose proof (nrows_nonneg m) end end.

(** ** Convolution *)

Definition folded_lin v w (j : Z) : A := add (lin v w j) (lin v w (j + even_up (Z.max (zlen v) (zlen w)))).

Lemma spectrum_convolution_ok :
  specified (convolution O X junk SPECTRUM) (fun p q => Z.max p q) (fun _ _ => 0) (fun oa ob => oa + ob) folded_lin.
Proof.
  cbn [convolution]. apply specified_commutative; auto; try (intros; lia).
  - intros m v oa ob W Hm Hv. unfold spectrum_convolution_vector. cbv zeta. fold (even_up (Z.max (cols m) (zlen v))). set (n := even_up _).
    pose proof (even_up_range (Z.max (cols m) (zlen v))) as B. pose proof (even_up_even (Z.max (cols m) (zlen v))) as Ev. fold n in B, Ev. ranges.
    destruct (maybe_pad_matrix m (nrows m) n) as (m' & -> & Wm & _ & Nm & Cm & Pm); auto; try lia. cbn [bind].
    destruct (maybe_pad_vector v n) as (v' & -> & Pv); try lia. cbn [bind].
    destruct (vector_product_ok O X EX same same m' v' n) as (p & -> & Pp); auto; try lia; [apply Pv|]. cbn [bind]. rewrite (Nm eq_refl) in Pp.
    destruct (inverse_into_ok O X junk EX p (nrows m) (Z.max (cols m) (zlen v)) n (between 0 (Z.max (cols m) (zlen v))) 0 (Z.max (cols m) (zlen v))
      (fun c i => folded_lin (rowv m c) v (i + 0))) as (ch & -> & Hh); try lia; try apply Pp.
    + apply lower_between; lia.
    + apply upper_between; lia.
    + intros i k Hi Hk. rewrite Z.add_0_r. rewrite (convolved O RT X EX _ _ _ _ _ _ _ (rowv m i) v 0 0 i k Pp) by (auto; lia). f_equal.
      rewrite !Z.sub_0_r. unfold folded_lin. rewrite zlen_rowv by auto. fold n. apply (ccon_lin O RT); try lia. rewrite zlen_rowv by auto. lia.
    + cbn [bind]. exists ch. rewrite Z.add_0_r. split; auto.
  - intros a b oa ob Wa Wb Ha Hb. unfold spectrum_convolution_matrix. cbv zeta. fold (even_up (Z.max (cols a) (cols b))). set (n := even_up _).
    pose proof (even_up_range (Z.max (cols a) (cols b))) as B. pose proof (even_up_even (Z.max (cols a) (cols b))) as Ev. fold n in B, Ev. ranges.
    set (c := Z.min (nrows a) (nrows b)).
    destruct (maybe_pad_matrix a c n) as (a' & -> & Wa' & Na' & _ & Ca' & Pa'); auto; try lia. cbn [bind].
    destruct (maybe_pad_matrix b c n) as (b' & -> & Wb' & Nb' & _ & Cb' & Pb'); auto; try lia. cbn [bind].
    destruct (matrix_product_ok O X EX same same a' b' c n) as (p & -> & Pp); auto; try lia. cbn [bind].
    destruct (inverse_into_ok O X junk EX p c (Z.max (cols a) (cols b)) n (between 0 (Z.max (cols a) (cols b))) 0 (Z.max (cols a) (cols b))
      (fun c i => folded_lin (rowv a c) (rowv b c) (i + 0))) as (ch & -> & Hh); try lia; try apply Pp.
    + apply lower_between; lia.
    + apply upper_between; lia.
    + intros i k Hi Hk. rewrite Z.add_0_r. rewrite (convolved O RT X EX _ _ _ _ _ _ _ (rowv a i) (rowv b i) 0 0 i k Pp) by (auto; lia). f_equal.
      rewrite !Z.sub_0_r. unfold folded_lin. rewrite !zlen_rowv by (auto; lia). fold n. apply (ccon_lin O RT); try lia; rewrite zlen_rowv by (auto; lia); lia.
    + cbn [bind]. exists ch. rewrite Z.add_0_r. split; auto.
  - intros v w j. unfold folded_lin. rewrite (Z.max_comm (zlen w)), !(lin_comm O RT w v). reflexivity.
Qed.

Definition padded_length (rl : Z) : Z := if rl mod 2 =? 1 then rl + 1 else rl + 2.
Lemma padded_length_even rl : padded_length rl mod 2 = 0.
Proof.
  unfold padded_length. pose proof (Z.mod_pos_bound rl 2 ltac:(lia)). rewrite odd_even. destruct (rl mod 2 =? 0) eqn:E; cbn [negb].
  - replace (rl + 2) with (rl + 1 * 2) by lia. rewrite Z_mod_plus_full. lia.
  - rewrite <- Zplus_mod_idemp_l. replace (rl mod 2) with 1 by lia. reflexivity.
Qed.
Lemma padded_length_range rl : rl + 1 <= padded_length rl <= rl + 2.
Proof. unfold padded_length. destruct (rl mod 2 =? 1); lia. Qed.

Lemma ccon_padded v w n j : 0 < zlen v -> 0 < zlen w -> zlen v + zlen w <= n -> 0 <= j < zlen v + zlen w - 1 -> ccon v w n j = lin v w j.
Proof.
  intros Hv Hw Hn Hj. rewrite (ccon_lin O RT) by lia. rewrite (lin_out O RT v w (j + n)) by lia. ring.
Qed.

Lemma padded_convolution_ok :
  specified (convolution O X junk SPECTRUM_PADDED) (fun p q => p + q - 1) (fun _ _ => 0) (fun oa ob => oa + ob) lin.
Proof.
  cbn [convolution]. apply specified_commutative; auto; try (intros; lia); try (intros; now apply lin_comm).
  - intros m v oa ob W Hm Hv. unfold padded_convolution_vector. cbv zeta. set (rl := cols m + zlen v - 1). fold (padded_length rl). set (n := padded_length rl).
    pose proof (padded_length_range rl) as B. pose proof (padded_length_even rl) as Ev. fold n in B, Ev. ranges.
    destruct (pad_matrix_ok O junk m (nrows m) n) as (m' & -> & Wm & Nm & Cm & Pm); auto; try lia. cbn [bind].
    destruct (pad_vector_ok O junk v n) as (v' & -> & Pv); try lia. cbn [bind].
    destruct (vector_product_ok O X EX same same m' v' n) as (p & -> & Pp); auto; try lia; [apply Pv|]. cbn [bind]. rewrite Nm in Pp.
    destruct (inverse_into_ok O X junk EX p (nrows m) rl n (between 0 rl) 0 rl (fun c i => lin (rowv m c) v (i + 0))) as (ch & -> & Hh); try lia; try apply Pp.
    + apply lower_between; lia.
    + apply upper_between; lia.
    + intros i k Hi Hk. rewrite Z.add_0_r. rewrite (convolved O RT X EX _ _ _ _ _ _ _ (rowv m i) v 0 0 i k Pp) by (auto; lia). f_equal.
      rewrite !Z.sub_0_r. apply ccon_padded; rewrite ?zlen_rowv by auto; lia.
    + cbn [bind]. exists ch. rewrite Z.add_0_r. split; auto.
  - intros a b oa ob Wa Wb Ha Hb. unfold padded_convolution_matrix. cbv zeta. set (rl := cols a + cols b - 1). fold (padded_length rl). set (n := padded_length rl).
    pose proof (padded_length_range rl) as B. pose proof (padded_length_even rl) as Ev. fold n in B, Ev. ranges.
    set (c := Z.min (nrows a) (nrows b)).
    destruct (pad_matrix_ok O junk a c n) as (a' & -> & Wa' & Na' & Ca' & Pa'); auto; try lia. cbn [bind].
    destruct (pad_matrix_ok O junk b c n) as (b' & -> & Wb' & Nb' & Cb' & Pb'); auto; try lia. cbn [bind].
    destruct (matrix_product_ok O X EX same same a' b' c n) as (p & -> & Pp); auto; try lia. cbn [bind].
    destruct (inverse_into_ok O X junk EX p c rl n (between 0 rl) 0 rl (fun c i => lin (rowv a c) (rowv b c) (i + 0))) as (ch & -> & Hh); try lia; try apply Pp.
    + apply lower_between; lia.
    + apply upper_between; lia.
    + intros i k Hi Hk. rewrite Z.add_0_r. rewrite (convolved O RT X EX _ _ _ _ _ _ _ (rowv a i) (rowv b i) 0 0 i k Pp) by (auto; lia). f_equal.
      rewrite !Z.sub_0_r. apply ccon_padded; rewrite ?zlen_rowv by (auto; lia); lia.
    + cbn [bind]. exists ch. rewrite Z.add_0_r. split; auto.
Qed.

(** ** Correlation *)

Definition folded_cor v w (j : Z) : A := add (cor v w j) (cor v w (j + even_up (Z.max (zlen v) (zlen w)))).

(** The arguments are placed on a ring with [n] elements, such that index [skip + k] of the correlation is the lag [k + 1 - p]. *)
Definition ring_ok (p rl n s t : Z) : Prop := n = even_up rl /\ (s - t + (n - rl) + p - 1) mod n = 0.

Lemma ccor_shift v w n d j : 0 < n -> d mod n = 0 -> ccor v w n (j + d) = ccor v w n j.
Proof.
  intros Hn Hd. apply sumz_ext. intros k _. do 2 f_equal. rewrite (Z_div_mod_eq_full d n), Hd, Z.add_0_r.
  replace (k + (j + n * (d / n))) with (k + j + d / n * n) by lia. apply Z_mod_plus_full.
Qed.

Lemma ccor_lag v w n rl s t k : rl = Z.max (zlen v) (zlen w) -> 0 < zlen v -> 0 < zlen w -> ring_ok (zlen v) rl n s t -> 0 <= k < rl ->
  ccor v w n (k + (n - rl) + s - t) = folded_cor v w (k + (1 - zlen v)).
Proof.
  intros -> Hv Hw (En & Hd) Hk. pose proof (even_up_range (Z.max (zlen v) (zlen w))) as B. unfold folded_cor. rewrite <- En in *.
  replace (k + (n - Z.max (zlen v) (zlen w)) + s - t) with (k + (1 - zlen v) + (s - t + (n - Z.max (zlen v) (zlen w)) + zlen v - 1)) by lia.
  rewrite ccor_shift by (auto; lia). apply (ccor_cor O RT); lia.
Qed.

Lemma ring_odd p rl : 0 < p <= rl -> rl mod 2 = 1 -> ring_ok p rl (rl + 1) (rl + 1 - p) 0.
Proof.
  intros Hp H. split; [unfold even_up; now rewrite H|]. replace (rl + 1 - p - 0 + (rl + 1 - rl) + p - 1) with (1 * (rl + 1)) by lia. apply Z_mod_mult.
Qed.
Lemma ring_even p rl s t : 0 < rl -> rl mod 2 = 0 -> (s - t + p - 1) mod rl = 0 -> ring_ok p rl rl s t.
Proof. intros Hr H E. split; [unfold even_up; now rewrite H|]. rewrite <- E. f_equal. lia. Qed.

Lemma even_case rl : (rl mod 2 =? 1) = false -> rl mod 2 = 0.
Proof. pose proof (Z.mod_pos_bound rl 2 ltac:(lia)). lia. Qed.

Ltac inverted O RT X EX junk p r rl n F := 
  destruct (inverse_into_ok O X junk EX p r rl n (from (- rl)) (n - rl) n F) as (ch & -> & Hh).

Lemma upper_from_last rl n : 0 < rl <= n -> upper (from (- rl)) n = n /\ lower (from (- rl)) n = n - rl.
Proof. intros H. split; [apply upper_negative_from; lia|rewrite lower_negative; lia]. Qed.

Lemma spectrum_correlation_ok :
  specified (correlation O X junk SPECTRUM) (fun p q => Z.max p q) (fun p _ => 1 - p) (fun oa ob => ob - oa) folded_cor.
Proof.
  cbn [correlation]. split; cbn [with_vector with_vector2 with_matrix].
  - intros m v oa ob W Hm Hv. unfold spectrum_correlation_vector. cbv zeta. set (rl := Z.max (cols m) (zlen v)). ranges.
    assert (P : exists m' v' n s t, (if rl mod 2 =? 1 then
       m0 <- shift_matrix O junk m (cols m) (nrows m) (rl + 1);; v0 <- pad_vector O junk v (zlen v) (rl + 1);; Ok (m0, v0)
      else if cols m <? rl then m0 <- shift_and_cycle_matrix O junk m (cols m) (nrows m) rl 1;; Ok (m0, v)
      else if zlen v <? rl then v0 <- pad_and_cycle_vector O junk v (zlen v) rl (-1);; Ok (m, v0)
      else v0 <- cycle_vector junk v (zlen v) (-1);; Ok (m, v0)) = Ok (m', v') /\ placed_rows m' m (nrows m) n s /\ placed v' v n t /\ ring_ok (cols m) rl n s t).
    { destruct (rl mod 2 =? 1) eqn:E1.
      - destruct (shift_matrix_ok O junk m (nrows m) (rl + 1) W) as (m' & -> & Pm); try lia. cbn [bind].
        destruct (pad_vector_ok O junk v (rl + 1)) as (v' & -> & Pv); try lia. cbn [bind].
        do 5 eexists. split; [reflexivity|]. split; [exact Pm|]. split; [exact Pv|]. apply ring_odd; lia.
      - apply even_case in E1. destruct (cols m <? rl) eqn:E2.
        + destruct (shift_and_cycle_matrix_ok O junk m (nrows m) rl W) as (m' & -> & Pm); try lia. cbn [bind].
          do 5 eexists. split; [reflexivity|]. split; [exact Pm|]. split; [apply placed_self; lia|]. apply ring_even; auto; [lia|].
          replace (1 - cols m - 0 + cols m - 1) with 0 by lia. apply Zmod_0_l.
        + assert (Self : placed_rows m m (nrows m) rl 0).
          { split; [|split; [|split]]; auto; try lia. intros i Hi. apply placed_self. rewrite zlen_rowv by (auto; lia). lia. }
          assert (R : ring_ok (cols m) rl rl 0 (-1)). { apply ring_even; auto; [lia|]. replace (0 - -1 + cols m - 1) with (1 * rl) by lia. apply Z_mod_mult. }
          destruct (zlen v <? rl) eqn:E3.
          * destruct (pad_and_cycle_vector_ok O junk v rl) as (v' & -> & Pv); try lia. cbn [bind].
            do 5 eexists. split; [reflexivity|]. split; [exact Self|]. split; [exact Pv|exact R].
          * destruct (cycle_vector_ok O junk v) as (v' & -> & Pv); try lia. cbn [bind].
            do 5 eexists. split; [reflexivity|]. split; [exact Self|]. assert (Erl : zlen v = rl) by lia. rewrite Erl in Pv. split; [exact Pv|exact R]. }
    destruct P as (m' & v' & n & s & t & -> & (Wm & Nm & Cm & Pm) & Pv & Hr). cbn [bind fst snd].
    assert (Bn : rl <= n <= rl + 1) by (destruct Hr as (-> & _); apply even_up_range).
    assert (Ev : n mod 2 = 0) by (destruct Hr as (-> & _); apply even_up_even).
    destruct (vector_product_ok O X EX (x_conj X) same m' v' n) as (p & -> & Pp); auto; try lia; [apply Pv|]. cbn [bind]. rewrite Nm in Pp.
    destruct (upper_from_last rl n) as (U & L); [lia|].
    destruct (inverse_into_ok O X junk EX p (nrows m) rl n (from (- rl)) (n - rl) n (fun c i => folded_cor (rowv m c) v (i + (1 - cols m)))) as (ch & -> & Hh);
      try lia; try apply Pp.
    + intros i k Hi Hk. rewrite (correlated O RT X EX _ _ _ _ _ _ _ (rowv m i) v s t i (k + (n - rl)) Pp) by (auto; lia). f_equal.
      pose proof (zlen_rowv m i W Hi) as Rl. replace (1 - cols m) with (1 - zlen (rowv m i)) by lia. apply ccor_lag; try rewrite Rl; auto; lia.
    + cbn [bind]. exists ch. split; auto. do 2 f_equal. lia.
  - intros v m oa ob W Hm Hv. unfold spectrum_correlation_vector2. cbv zeta. rewrite (Z.max_comm (cols m)). set (rl := Z.max (zlen v) (cols m)). ranges.
    assert (P : exists v' m' n s t, (if rl mod 2 =? 1 then
       v0 <- shift_vector O junk v (zlen v) (rl + 1);; m0 <- pad_matrix O junk m (cols m) (nrows m) (rl + 1);; Ok (v0, m0)
      else if zlen v <? rl then v0 <- shift_and_cycle_vector O junk v (zlen v) rl 1;; Ok (v0, m)
      else if cols m <? rl then m0 <- pad_and_cycle_matrix O junk m (cols m) (nrows m) rl (-1);; Ok (v, m0)
      else m0 <- cycle_matrix junk m (zlen v) (nrows m) (-1);; Ok (v, m0)) = Ok (v', m') /\ placed v' v n s /\ placed_rows m' m (nrows m) n t /\ ring_ok (zlen v) rl n s t).
    { destruct (rl mod 2 =? 1) eqn:E1.
      - destruct (shift_vector_ok O junk v (rl + 1)) as (v' & -> & Pv); try lia. cbn [bind].
        destruct (pad_matrix_ok O junk m (nrows m) (rl + 1) W) as (m' & -> & Pm); try lia. cbn [bind].
        do 5 eexists. split; [reflexivity|]. split; [exact Pv|]. split; [exact Pm|]. apply ring_odd; lia.
      - apply even_case in E1. destruct (zlen v <? rl) eqn:E2.
        + destruct (shift_and_cycle_vector_ok O junk v rl) as (v' & -> & Pv); try lia. cbn [bind].
          do 5 eexists. split; [reflexivity|]. split; [exact Pv|]. split.
          { split; [|split; [|split]]; eauto; try lia. intros i Hi. apply placed_self. rewrite zlen_rowv by (auto; lia). lia. }
          apply ring_even; auto; [lia|]. replace (1 - zlen v - 0 + zlen v - 1) with 0 by lia. apply Zmod_0_l.
        + assert (Self : placed v v rl 0) by (apply placed_self; lia).
          assert (R : ring_ok (zlen v) rl rl 0 (-1)). { apply ring_even; auto; [lia|]. replace (0 - -1 + zlen v - 1) with (1 * rl) by lia. apply Z_mod_mult. }
          destruct (cols m <? rl) eqn:E3.
          * destruct (pad_and_cycle_matrix_ok O junk m (nrows m) rl W) as (m' & -> & Pm); try lia. cbn [bind].
            do 5 eexists. split; [reflexivity|]. split; [exact Self|]. split; [exact Pm|exact R].
          * assert (Ev : zlen v = cols m) by lia. assert (Ec : cycle_matrix junk m (zlen v) (nrows m) (-1) = cycle_matrix junk m (cols m) (nrows m) (-1)) by congruence.
            rewrite Ec. destruct (cycle_matrix_ok O junk m (nrows m) W) as (m' & -> & Pm); try lia. cbn [bind].
            do 5 eexists. split; [reflexivity|]. split; [exact Self|]. assert (Erl : cols m = rl) by lia. rewrite Erl in Pm. split; [exact Pm|exact R]. }
    destruct P as (v' & m' & n & s & t & -> & Pv & (Wm & Nm & Cm & Pm) & Hr). cbn [bind fst snd].
    assert (Bn : rl <= n <= rl + 1) by (destruct Hr as (-> & _); apply even_up_range).
    assert (Ev : n mod 2 = 0) by (destruct Hr as (-> & _); apply even_up_even).
    destruct (vector_product2_ok O X EX (x_conj X) same m' v' n) as (p & -> & Pp); auto; try lia; [apply Pv|]. cbn [bind]. rewrite Nm in Pp.
    destruct (upper_from_last rl n) as (U & L); [lia|].
    destruct (inverse_into_ok O X junk EX p (nrows m) rl n (from (- rl)) (n - rl) n (fun c i => folded_cor v (rowv m c) (i + (1 - zlen v)))) as (ch & -> & Hh);
      try lia; try apply Pp.
    + intros i k Hi Hk. rewrite (correlated O RT X EX _ _ _ _ _ _ _ v (rowv m i) s t i (k + (n - rl)) Pp) by (auto; lia). f_equal.
      apply ccor_lag; auto; rewrite zlen_rowv by auto; lia.
    + cbn [bind]. exists ch. split; auto. do 2 f_equal. lia.
  - intros a b oa ob Wa Wb Ha Hb. unfold spectrum_correlation_matrix. cbv zeta. set (rl := Z.max (cols a) (cols b)). set (c := Z.min (nrows a) (nrows b)). ranges.
    assert (SelfR : forall m, wf m -> c <= nrows m -> cols m = rl -> wf m /\ c <= nrows m /\ cols m = rl /\ forall i, 0 <= i < c -> placed (rowv m i) (rowv m i) rl 0).
    { intros m W Nm Cm. split; [|split; [|split]]; auto. intros i Hi. apply placed_self. rewrite zlen_rowv by (auto; lia). lia. }
    assert (Weak : forall r m n s, placed_rows r m c n s -> wf r /\ c <= nrows r /\ cols r = n /\ forall i, 0 <= i < c -> placed (rowv r i) (rowv m i) n s).
    { intros r m n s (W & N & C & P). split; [|split; [|split]]; auto. lia. }
    assert (P : exists a' b' n s t, (if rl mod 2 =? 1 then
       a0 <- shift_matrix O junk a (cols a) c (rl + 1);; b0 <- pad_matrix O junk b (cols b) c (rl + 1);; Ok (a0, b0)
      else if cols a <? rl then a0 <- shift_and_cycle_matrix O junk a (cols a) c rl 1;; Ok (a0, b)
      else if cols b <? rl then b0 <- pad_and_cycle_matrix O junk b (cols b) c rl (-1);; Ok (a, b0)
      else b0 <- cycle_matrix junk b (cols b) c (-1);; Ok (a, b0)) = Ok (a', b') /\
      (wf a' /\ c <= nrows a' /\ cols a' = n /\ forall i, 0 <= i < c -> placed (rowv a' i) (rowv a i) n s) /\
      (wf b' /\ c <= nrows b' /\ cols b' = n /\ forall i, 0 <= i < c -> placed (rowv b' i) (rowv b i) n t) /\ ring_ok (cols a) rl n s t).
    { destruct (rl mod 2 =? 1) eqn:E1.
      - destruct (shift_matrix_ok O junk a c (rl + 1) Wa) as (a' & -> & Pa); try lia. cbn [bind].
        destruct (pad_matrix_ok O junk b c (rl + 1) Wb) as (b' & -> & Pb); try lia. cbn [bind].
        do 5 eexists. split; [reflexivity|]. split; [apply Weak; exact Pa|]. split; [apply Weak; exact Pb|]. apply ring_odd; lia.
      - apply even_case in E1. destruct (cols a <? rl) eqn:E2.
        + destruct (shift_and_cycle_matrix_ok O junk a c rl Wa) as (a' & -> & Pa); try lia. cbn [bind].
          do 5 eexists. split; [reflexivity|]. split; [apply Weak; exact Pa|]. split; [apply SelfR; auto; lia|]. apply ring_even; auto; [lia|].
          replace (1 - cols a - 0 + cols a - 1) with 0 by lia. apply Zmod_0_l.
        + assert (R : ring_ok (cols a) rl rl 0 (-1)). { apply ring_even; auto; [lia|]. replace (0 - -1 + cols a - 1) with (1 * rl) by lia. apply Z_mod_mult. }
          destruct (cols b <? rl) eqn:E3.
          * destruct (pad_and_cycle_matrix_ok O junk b c rl Wb) as (b' & -> & Pb); try lia. cbn [bind].
            do 5 eexists. split; [reflexivity|]. split; [apply SelfR; auto; lia|]. split; [apply Weak; exact Pb|exact R].
          * destruct (cycle_matrix_ok O junk b c Wb) as (b' & -> & Pb); try lia. cbn [bind].
            do 5 eexists. split; [reflexivity|]. split; [apply SelfR; auto; lia|]. assert (Erl : cols b = rl) by lia. rewrite Erl in Pb. split; [apply Weak; exact Pb|exact R]. }
    destruct P as (a' & b' & n & s & t & -> & (Wa' & Na' & Ca' & Pa') & (Wb' & Nb' & Cb' & Pb') & Hr). cbn [bind fst snd].
    assert (Bn : rl <= n <= rl + 1) by (destruct Hr as (-> & _); apply even_up_range).
    assert (Ev : n mod 2 = 0) by (destruct Hr as (-> & _); apply even_up_even).
    destruct (matrix_product_ok O X EX (x_conj X) same a' b' c n) as (p & -> & Pp); auto; try lia. cbn [bind].
    destruct (upper_from_last rl n) as (U & L); [lia|].
    destruct (inverse_into_ok O X junk EX p c rl n (from (- rl)) (n - rl) n (fun c i => folded_cor (rowv a c) (rowv b c) (i + (1 - cols a)))) as (ch & -> & Hh);
      try lia; try apply Pp.
    + intros i k Hi Hk. rewrite (correlated O RT X EX _ _ _ _ _ _ _ (rowv a i) (rowv b i) s t i (k + (n - rl)) Pp) by (auto; lia). f_equal.
      pose proof (zlen_rowv a i Wa ltac:(lia)) as Rl. pose proof (zlen_rowv b i Wb ltac:(lia)) as Rl'. replace (1 - cols a) with (1 - zlen (rowv a i)) by lia. apply ccor_lag; try rewrite Rl; try rewrite Rl'; auto; lia.
    + cbn [bind]. exists ch. split; auto. do 2 f_equal. lia.
Qed.

Lemma ccor_padded v w n j : 0 < zlen v -> 0 < zlen w -> zlen v + zlen w <= n -> 1 - zlen v <= j < zlen w -> ccor v w n j = cor v w j.
Proof.
  intros Hv Hw Hn Hj. rewrite (ccor_cor O RT) by lia. rewrite (cor_out O RT v w (j + n)) by lia. ring.
Qed.

Lemma padded_correlation_ok :
  specified (correlation O X junk SPECTRUM_PADDED) (fun p q => p + q - 1) (fun p _ => 1 - p) (fun oa ob => ob - oa) cor.
Proof.
  cbn [correlation]. split; cbn [with_vector with_vector2 with_matrix].
  - intros m v oa ob W Hm Hv. unfold padded_correlation_vector. cbv zeta. set (rl := cols m + zlen v - 1). set (n := padded_length rl).
    pose proof (padded_length_range rl) as B. pose proof (padded_length_even rl) as Ev. fold n in B, Ev. ranges.
    assert (P : exists m', (if rl mod 2 =? 1 then m0 <- pad_and_shift_matrix O junk m (cols m) (nrows m) (rl + 1) 1 ;; Ok (rl + 1, m0)
         else m0 <- pad_and_shift_matrix O junk m (cols m) (nrows m) (rl + 2) 2 ;; Ok (rl + 2, m0)) = Ok (n, m') /\ placed_rows m' m (nrows m) n (n - rl)).
    { unfold n, padded_length. destruct (rl mod 2 =? 1).
      - destruct (pad_and_shift_matrix_ok O junk m (nrows m) (rl + 1) W ltac:(lia) 1) as (m' & -> & Pm); try lia. cbn [bind]. exists m'. split; auto.
        replace (rl + 1 - rl) with 1 by lia. auto.
      - destruct (pad_and_shift_matrix_ok O junk m (nrows m) (rl + 2) W ltac:(lia) 2) as (m' & -> & Pm); try lia. cbn [bind]. exists m'. split; auto.
        replace (rl + 2 - rl) with 2 by lia. auto. }
    destruct P as (m' & -> & (Wm & Nm & Cm & Pm)). cbn [bind fst snd].
    destruct (shift_vector_ok O junk v n) as (v' & -> & Pv); try lia. cbn [bind].
    destruct (vector_product_ok O X EX (x_conj X) same m' v' n) as (p & -> & Pp); auto; try lia; [apply Pv|]. cbn [bind]. rewrite Nm in Pp.
    destruct (inverse_into_ok O X junk EX p (nrows m) rl n (between 0 rl) 0 rl (fun c i => cor (rowv m c) v (i + (1 - cols m)))) as (ch & -> & Hh); try lia; try apply Pp.
    + apply lower_between; lia.
    + apply upper_between; lia.
    + intros i k Hi Hk. rewrite Z.add_0_r. rewrite (correlated O RT X EX _ _ _ _ _ _ _ (rowv m i) v (n - rl) (n - zlen v) i k Pp) by (auto; lia). f_equal.
      replace (k + (n - rl) - (n - zlen v)) with (k + (1 - cols m)) by lia. apply ccor_padded; rewrite ?zlen_rowv by auto; lia.
    + cbn [bind]. exists ch. split; auto. do 2 f_equal. lia.
  - intros v m oa ob W Hm Hv. unfold padded_correlation_vector2. cbv zeta. rewrite (Z.add_comm (cols m)). set (rl := zlen v + cols m - 1). set (n := padded_length rl).
    pose proof (padded_length_range rl) as B. pose proof (padded_length_even rl) as Ev. fold n in B, Ev. ranges.
    assert (P : exists v', (if rl mod 2 =? 1 then v0 <- pad_and_shift_vector O junk v (zlen v) (rl + 1) 1 ;; Ok (rl + 1, v0)
         else v0 <- pad_and_shift_vector O junk v (zlen v) (rl + 2) 2 ;; Ok (rl + 2, v0)) = Ok (n, v') /\ placed v' v n (n - rl)).
    { unfold n, padded_length. destruct (rl mod 2 =? 1).
      - destruct (pad_and_shift_vector_ok O junk v (rl + 1) 1) as (v' & -> & Pm); try lia. cbn [bind]. exists v'. split; auto.
        replace (rl + 1 - rl) with 1 by lia. auto.
      - destruct (pad_and_shift_vector_ok O junk v (rl + 2) 2) as (v' & -> & Pm); try lia. cbn [bind]. exists v'. split; auto.
        replace (rl + 2 - rl) with 2 by lia. auto. }
    destruct P as (v' & -> & Pv). cbn [bind fst snd].
    destruct (shift_matrix_ok O junk m (nrows m) n W) as (m' & -> & (Wm & Nm & Cm & Pm)); try lia. cbn [bind].
    destruct (vector_product2_ok O X EX (x_conj X) same m' v' n) as (p & -> & Pp); auto; try lia; [apply Pv|]. cbn [bind]. rewrite Nm in Pp.
    destruct (inverse_into_ok O X junk EX p (nrows m) rl n (between 0 rl) 0 rl (fun c i => cor v (rowv m c) (i + (1 - zlen v)))) as (ch & -> & Hh); try lia; try apply Pp.
    + apply lower_between; lia.
    + apply upper_between; lia.
    + intros i k Hi Hk. rewrite Z.add_0_r. rewrite (correlated O RT X EX _ _ _ _ _ _ _ v (rowv m i) (n - rl) (n - cols m) i k Pp) by (auto; lia). f_equal.
      replace (k + (n - rl) - (n - cols m)) with (k + (1 - zlen v)) by lia. apply ccor_padded; rewrite ?zlen_rowv by auto; lia.
    + cbn [bind]. exists ch. split; auto. do 2 f_equal. lia.
  - intros a b oa ob Wa Wb Ha Hb. unfold padded_correlation_matrix. cbv zeta. set (rl := cols a + cols b - 1). set (n := padded_length rl).
    pose proof (padded_length_range rl) as B. pose proof (padded_length_even rl) as Ev. fold n in B, Ev. ranges. set (c := Z.min (nrows a) (nrows b)).
    assert (P : exists a', (if rl mod 2 =? 1 then a0 <- pad_and_shift_matrix O junk a (cols a) c (rl + 1) 1 ;; Ok (rl + 1, a0)
         else a0 <- pad_and_shift_matrix O junk a (cols a) c (rl + 2) 2 ;; Ok (rl + 2, a0)) = Ok (n, a') /\ placed_rows a' a c n (n - rl)).
    { unfold n, padded_length. destruct (rl mod 2 =? 1).
      - destruct (pad_and_shift_matrix_ok O junk a c (rl + 1) Wa ltac:(lia) 1) as (m' & -> & Pm); try lia. cbn [bind]. exists m'. split; auto.
        replace (rl + 1 - rl) with 1 by lia. auto.
      - destruct (pad_and_shift_matrix_ok O junk a c (rl + 2) Wa ltac:(lia) 2) as (m' & -> & Pm); try lia. cbn [bind]. exists m'. split; auto.
        replace (rl + 2 - rl) with 2 by lia. auto. }
    destruct P as (a' & -> & (Wa' & Na' & Ca' & Pa')). cbn [bind fst snd].
    destruct (shift_matrix_ok O junk b c n Wb) as (b' & -> & (Wb' & Nb' & Cb' & Pb')); try lia. cbn [bind].
    destruct (matrix_product_ok O X EX (x_conj X) same a' b' c n) as (p & -> & Pp); auto; try lia. cbn [bind].
    destruct (inverse_into_ok O X junk EX p c rl n (between 0 rl) 0 rl (fun c i => cor (rowv a c) (rowv b c) (i + (1 - cols a)))) as (ch & -> & Hh); try lia; try apply Pp.
    + apply lower_between; lia.
    + apply upper_between; lia.
    + intros i k Hi Hk. rewrite Z.add_0_r. rewrite (correlated O RT X EX _ _ _ _ _ _ _ (rowv a i) (rowv b i) (n - rl) (n - cols b) i k Pp) by (auto; lia). f_equal.
      replace (k + (n - rl) - (n - cols b)) with (k + (1 - cols a)) by lia. apply ccor_padded; rewrite ?zlen_rowv by (auto; lia); lia.
    + cbn [bind]. exists ch. split; auto. do 2 f_equal. lia.
Qed.

End Modes.

(** The discrete Fourier transform of real numbers *)
Lemma real_exact power modulo : exact_transforms (real_ops power modulo) real_transforms.
Proof.
  split; cbn [real_transforms x_rfft x_irfft x_mul x_conj].
  - intros x _. apply zlen_rfft.
  - intros p n Hn. rewrite zlen_irfft. lia.
  - intros x y p n Hn Lx Ly Lp H i Hi. apply (circular_convolution n Hn x y Lx Ly p Lp); auto.
  - intros x y p n Hn Lx Ly Lp H i Hi. apply (circular_correlation n Hn x y Lx Ly p Lp); auto.
Qed.
