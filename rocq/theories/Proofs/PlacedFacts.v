(** The padding and shifting helpers of the convolution module place a sequence on a ring. *)

From Coq Require Import ZArith List Bool Lia ZifyBool.
From Verif.Model Require Import Py Numpy Vector Signal Fft Convolution.
From Verif.Proofs Require Import PyFacts NumpyFacts VectorFacts ConvolveFacts.
Import ListNotations.
Open Scope Z_scope.
Ltac Zify.zify_post_hook ::= idtac.

Lemma mod_near x n : - n <= x < n -> x mod n = if x <? 0 then x + n else x.
Proof.
  intros H. destruct (x <? 0) eqn:E; [|apply Z.mod_small; lia].
  symmetry. apply Z.mod_unique with (-1); lia.
Qed.

Lemma lower_bound a b len l : 0 <= len -> 0 <= a <= len -> a = l -> lower (between a b) len = l.
Proof. intros ? ? <-. apply lower_between. auto. Qed.
Lemma upper_negative a b len : 0 <= a -> b < 0 -> a <= len + b -> upper (between a b) len = len + b.
Proof. unfold_bounds; intros; zcases. Qed.
Lemma lower_negative a len : a < 0 -> 0 <= a + len -> lower (from a) len = len + a.
Proof. unfold_bounds; intros; zcases. Qed.
Lemma upper_negative_from a len : a < 0 -> 0 <= a + len -> upper (from a) len = len.
Proof. unfold_bounds; intros; zcases. Qed.

Ltac bound := first
  [ apply lower_everything | apply upper_everything; lia
  | apply lower_between; lia | apply upper_between; lia | apply upper_negative; lia
  | apply lower_from; lia | apply upper_from; lia
  | apply lower_negative; lia | apply upper_negative_from; lia ].
Ltac bounds := etransitivity; [bound|lia].

Section Placed.
Context {A : Type} (O : ops A) (junk : Z -> Z -> A).
Implicit Types v w : list A.
Implicit Types m r : arr A.
Notation val := (val O).

(** The sequence [v] begins at the index [s] of the ring with [n] elements [w]. *)
Definition placed w v (n s : Z) : Prop :=
  zlen w = n /\ zlen v <= n /\ forall k, 0 <= k < n -> val w k = val v ((k - s) mod n).

(** Row number [i] *)
Definition rowv m (i : Z) : list A := match zth (rows m) i with Some r => r | None => [] end.

Lemma rowv_zth m i : 0 <= i < nrows m -> zth (rows m) i = Some (rowv m i).
Proof. intros H. unfold rowv. destruct (zth_in (rows m) i H) as (x & ->). reflexivity. Qed.

Lemma zlen_rowv m i : wf m -> 0 <= i < nrows m -> zlen (rowv m i) = cols m.
Proof. intros W H. eapply wf_zlen; eauto. now apply rowv_zth. Qed.

Lemma el_rowv m i k : 0 <= i < nrows m -> el m i k = zth (rowv m i) k.
Proof. intros H. unfold el. now rewrite rowv_zth. Qed.

Lemma el_val m i k : wf m -> 0 <= i < nrows m -> 0 <= k < cols m -> el m i k = Some (val (rowv m i) k).
Proof. intros W H K. rewrite el_rowv by auto. apply zth_val. now rewrite zlen_rowv. Qed.

Definition placed_rows r m (c n s : Z) : Prop :=
  wf r /\ nrows r = c /\ cols r = n /\ forall i, 0 <= i < c -> placed (rowv r i) (rowv m i) n s.

(** ** Vectors *)

Lemma vset_step v b src l u : lower b (zlen v) = l -> upper b (zlen v) = u -> zlen src = u - l ->
  exists w, vset v b src = Ok w /\ zlen w = zlen v /\ forall i, zth w i = if (l <=? i) && (i <? u) then zth src (i - l) else zth v i.
Proof. apply vset_ok. Qed.

Ltac newvec r L := match goal with |- context [vector ?j ?n] => let E := fresh in
  destruct (vector_ok j n) as (r & E & L); [lia|]; rewrite E; clear E; cbn [bind] end.
Ltac set_as r' L H l u := match goal with |- context [vset ?v ?b ?src] => let E := fresh in
  destruct (vset_ok v b src l u) as (r' & E & L & H);
  [bounds | bounds | try lia | rewrite E; clear E; cbn [bind] ] end.
Ltac fill_as r' L H l u := match goal with |- context [vfill ?v ?b ?x] =>
  destruct (vfill_ok v b x l u) as (L & H); [bounds | bounds |];
  set (r' := vfill v b x) in *; clearbody r' end.

Lemma val_of_zth w v k k' : zth w k = Some (val v k') -> val w k = val v k'.
Proof. apply val_zth. Qed.

Lemma placed_intro w v n s : zlen w = n -> zlen v <= n -> 
  (forall k, 0 <= k < n -> zth w k = Some (val v ((k - s) mod n))) -> placed w v n s.
Proof. intros H1 H2 H3. split; [|split]; auto. intros k Hk. now apply val_zth, H3. Qed.

Lemma placed_self v n : zlen v = n -> placed v v n 0.
Proof. intros H. split; [|split]; auto; try lia. intros k Hk. now rewrite Z.sub_0_r, Z.mod_small by lia. Qed.

(** The last step: element [k] is either copied or zero. *)
Ltac settle := match goal with
  | |- zth ?v ?a = Some (val ?v ?b) => transitivity (Some (val v a)); [apply zth_val; lia|do 2 f_equal; rewrite ?mod_near by lia; zcases]
  | |- Some ?z = Some (val ?v ?b) => f_equal; symmetry; apply val_out; rewrite ?mod_near by lia; zcases
  end.

Lemma pad_vector_ok v n : zlen v <= n -> exists w, pad_vector O junk v (zlen v) n = Ok w /\ placed w v n 0.
Proof.
  intros H. pose proof (zlen_nonneg v). unfold pad_vector. newvec r0 L0.
  set_as r1 L1 H1 0 (zlen v). fill_as r2 L2 H2 (zlen v) n.
  eexists. split; [reflexivity|]. apply placed_intro; auto; try lia. intros k Hk. rewrite H2, H1.
  zcases; rewrite ?Z.sub_0_r; settle.
Qed.

Lemma sub_ok v b l u : lower b (zlen v) = l -> upper b (zlen v) = u ->
  zlen (subseq b v) = u - l /\ forall i, zth (subseq b v) i = if (0 <=? i) && (i <? u - l) then zth v (i + l) else None.
Proof. intros <- <-. split; [apply zlen_subseq|]. intros i. apply zth_subseq. Qed.

Ltac sub_as w L H l u := match goal with |- context [subseq ?b ?v] =>
  destruct (sub_ok v b l u) as (L & H); [bounds | bounds |]; set (w := subseq b v) in *; clearbody w end.

Lemma shift_vector_ok v n : 0 < zlen v <= n -> exists w, shift_vector O junk v (zlen v) n = Ok w /\ placed w v n (n - zlen v).
Proof.
  intros H. unfold shift_vector. newvec r0 L0. fill_as r1 L1 H1 0 (n - zlen v). set_as r2 L2 H2 (n - zlen v) n.
  eexists. split; [reflexivity|]. apply placed_intro; auto; try lia. intros k Hk. rewrite H2, H1.
  zcases; settle.
Qed.

Lemma pad_and_shift_vector_ok v n s : 0 <= s -> zlen v + s <= n ->
  exists w, pad_and_shift_vector O junk v (zlen v) n s = Ok w /\ placed w v n s.
Proof.
  intros S H. pose proof (zlen_nonneg v). unfold pad_and_shift_vector. newvec r0 L0. fill_as r1 L1 H1 0 s.
  set_as r2 L2 H2 s (zlen v + s). fill_as r3 L3 H3 (zlen v + s) n.
  eexists. split; [reflexivity|]. apply placed_intro; auto; try lia. intros k Hk. rewrite H3, H2, H1.
  zcases; settle.
Qed.

Lemma cycle_vector_ok v : 0 < zlen v -> exists w, cycle_vector junk v (zlen v) (-1) = Ok w /\ placed w v (zlen v) (-1).
Proof.
  intros H. unfold cycle_vector. newvec r0 L0. change (- (-1)) with 1. sub_as s1 K1 S1 1 (zlen v). set_as r1 L1 H1 0 (zlen v - 1).
  sub_as s2 K2 S2 0 1. set_as r2 L2 H2 (zlen v - 1) (zlen v).
  eexists. split; [reflexivity|]. apply placed_intro; auto; try lia. intros k Hk. rewrite H2, H1, S1, S2.
  destruct (k =? zlen v - 1) eqn:E.
  - replace ((zlen v - 1 <=? k) && (k <? zlen v)) with true by lia. replace (_ && _) with true by lia. replace (_ mod _) with 0.
    + replace (k - (zlen v - 1) + 0) with 0 by lia. apply zth_val. lia.
    + replace (k - -1) with (zlen v) by lia. symmetry. apply Z.mod_same. lia.
  - replace ((zlen v - 1 <=? k) && (k <? zlen v)) with false by lia. replace ((0 <=? k) && (k <? zlen v - 1)) with true by lia.
    replace (_ && _) with true by lia. settle.
Qed.

Lemma pad_and_cycle_vector_ok v n : 0 < zlen v < n ->
  exists w, pad_and_cycle_vector O junk v (zlen v) n (-1) = Ok w /\ placed w v n (-1).
Proof.
  intros H. unfold pad_and_cycle_vector. newvec r0 L0. replace (-1 <? zlen v) with true by lia. change (- (-1)) with 1. cbv zeta.
  sub_as s1 K1 S1 1 (zlen v). set_as r1 L1 H1 0 (zlen v - 1). fill_as r2 L2 H2 (zlen v - 1) (n - 1).
  sub_as s2 K2 S2 0 1. set_as r3 L3 H3 (n - 1) n.
  eexists. split; [reflexivity|]. apply placed_intro; auto; try lia. intros k Hk. rewrite H3, H2, H1, S1, S2.
  destruct (k =? n - 1) eqn:E.
  - replace ((n - 1 <=? k) && (k <? n)) with true by lia. replace (_ && _) with true by lia. replace (_ mod _) with 0.
    + replace (k - (n - 1) + 0) with 0 by lia. apply zth_val. lia.
    + replace (k - -1) with n by lia. symmetry. apply Z.mod_same. lia.
  - zcases; settle.
Qed.

Lemma shift_and_cycle_vector_ok v n : 0 < zlen v < n ->
  exists w, shift_and_cycle_vector O junk v (zlen v) n 1 = Ok w /\ placed w v n (1 - zlen v).
Proof.
  intros H. unfold shift_and_cycle_vector. newvec r0 L0. sub_as s1 K1 S1 (zlen v - 1) (zlen v). set_as r1 L1 H1 0 1.
  destruct (1 <? zlen v) eqn:E1.
  - cbv zeta. fill_as r2 L2 H2 1 (n - (zlen v - 1)). sub_as s2 K2 S2 0 (zlen v - 1). set_as r3 L3 H3 (n - (zlen v - 1)) n.
    eexists. split; [reflexivity|]. apply placed_intro; auto; try lia. intros k Hk. rewrite H3, H2, H1, S1, S2.
    assert (M : (k - (1 - zlen v)) mod n = if k + zlen v - 1 <? n then k + zlen v - 1 else k + zlen v - 1 - n).
    { zcases; [rewrite Z.mod_small; lia|]. symmetry. apply Z.mod_unique with 1; lia. }
    rewrite M. zcases; settle.
  - fill_as r2 L2 H2 1 n. eexists. split; [reflexivity|]. apply placed_intro; auto; try lia. intros k Hk. rewrite H2, H1, S1.
    assert (M : (k - (1 - zlen v)) mod n = k) by (rewrite Z.mod_small; lia). rewrite M. zcases; settle.
Qed.

(** ** Matrices *)

Lemma set_cols_ok m b src l u : wf m -> wf src -> lower b (cols m) = l -> upper b (cols m) = u -> nrows src = nrows m -> cols src = u - l ->
  exists r, set_block m everything b src = Ok r /\ wf r /\ nrows r = nrows m /\ cols r = cols m /\
    forall i j, 0 <= i < nrows m -> el r i j = if (l <=? j) && (j <? u) then el src i (j - l) else el m i j.
Proof.
  intros W WS L U N C. pose proof (nrows_nonneg m). destruct W as [Cm Wm].
  pose proof (lower_range b _ Cm). pose proof (upper_range b _ Cm).
  destruct (set_block_ok m everything b src) as (r & E & Wr & Nr & Cr & H'); auto.
  - split; auto.
  - rewrite lower_everything, upper_everything by auto. left. lia.
  - left. lia.
  - exists r. repeat (split; [assumption|]). intros i j Hi. rewrite H', lower_everything, upper_everything, L, U by auto.
    replace (0 <=? i) with true by lia. replace (i <? nrows m) with true by lia. cbn [andb].
    destruct ((l <=? j) && (j <? u)) eqn:E'; auto. f_equal; zcases.
Qed.

Lemma fill_cols_ok m b x l u : wf m -> lower b (cols m) = l -> upper b (cols m) = u ->
  exists r, set_block m everything b (scalar x) = Ok r /\ wf r /\ nrows r = nrows m /\ cols r = cols m /\
    forall i j, 0 <= i < nrows m -> el r i j = if (l <=? j) && (j <? u) then Some x else el m i j.
Proof.
  intros W L U. pose proof (nrows_nonneg m). destruct (set_scalar_ok m everything b x W) as (r & E & Wr & Nr & Cr & H').
  exists r. repeat (split; [assumption|]). intros i j Hi. rewrite H', lower_everything, upper_everything, L, U by auto.
  replace (0 <=? i) with true by lia. replace (i <? nrows m) with true by lia. reflexivity.
Qed.

Lemma top_ok m n b l u : wf m -> 0 <= n <= nrows m -> lower b (cols m) = l -> upper b (cols m) = u ->
  let s := block m (between 0 n) b in wf s /\ nrows s = n /\ cols s = u - l /\
    forall i j, 0 <= i < n -> el s i j = if (0 <=? j) && (j <? u - l) then el m i (j + l) else None.
Proof.
  intros W N L U. split; [now apply wf_block|]. split.
  - rewrite nrows_block, lower_between, upper_between by lia. lia.
  - split; [rewrite cols_block; lia|]. intros i j Hi. rewrite el_block, lower_between, upper_between, L, U by (auto; lia).
    replace (0 <=? i) with true by lia. replace (i <? n - 0) with true by lia. cbn [andb]. now rewrite Z.add_0_r.
Qed.

Ltac newmat r := match goal with |- context [allocate ?j ?n ?k] => let E := fresh in
  destruct (allocate_ok j n k) as (r & E & ? & ? & ?); [lia|lia|]; rewrite E; clear E; cbn [bind] end.
Ltac top_as s H l u := match goal with |- context [block ?m ?a ?b] =>
  destruct (top_ok m _ b l u ltac:(assumption) ltac:(eassumption)) as (? & ? & ? & H); [bounds|bounds|]; set (s := block m a b) in *; clearbody s end.
Ltac mset_as r H l u := match goal with |- context [set_block ?m everything ?b ?src] => let E := fresh in
  lazymatch src with
  | scalar ?x => destruct (fill_cols_ok m b x l u) as (r & E & ? & ? & ? & H); [assumption|bounds|bounds|rewrite E; clear E; cbn [bind]]
  | _ => destruct (set_cols_ok m b src l u) as (r & E & ? & ? & ? & H); [assumption|assumption|bounds|bounds|lia|lia|rewrite E; clear E; cbn [bind]]
  end end.

Lemma placed_rows_intro r m c n s : wf r -> wf m -> nrows r = c -> cols r = n -> c <= nrows m -> cols m <= n ->
  (forall i k, 0 <= i < c -> 0 <= k < n -> el r i k = Some (val (rowv m i) ((k - s) mod n))) -> placed_rows r m c n s.
Proof.
  intros W Wm N C Nm Cm H. split; [|split; [|split]]; auto. intros i Hi. apply placed_intro.
  - rewrite zlen_rowv by (auto; lia). auto.
  - rewrite zlen_rowv by (auto; lia). auto.
  - intros k Hk. rewrite <- el_rowv by lia. auto.
Qed.

Ltac msettle := match goal with
  | |- el ?m ?i ?a = Some (val (rowv ?m ?i) ?b) => transitivity (Some (val (rowv m i) a)); [apply el_val; auto; lia|do 2 f_equal; rewrite ?mod_near by lia; zcases]
  | |- Some ?z = Some (val (rowv ?m ?i) ?b) => f_equal; symmetry; apply val_out; rewrite zlen_rowv by (auto; lia); rewrite ?mod_near by lia; zcases
  end.
Ltac mgoal := eexists; split; [reflexivity|]; apply placed_rows_intro; auto; try lia; intros i k Hi Hk.

Section Rows.
Variables (m : arr A) (c n : Z).
Hypothesis (W : wf m) (Hc : 0 <= c <= nrows m).

Lemma pad_matrix_ok : cols m <= n -> exists r, pad_matrix O junk m (cols m) c n = Ok r /\ placed_rows r m c n 0.
Proof.
  intros H. destruct W as [Cm _]. unfold pad_matrix. newmat r0. top_as s1 S1 0 (cols m). mset_as r1 Q1 0 (cols m). mset_as r2 Q2 (cols m) n.
  mgoal. rewrite Q2, Q1, S1 by lia. zcases; msettle.
Qed.

Lemma shift_matrix_ok : 0 < cols m <= n -> exists r, shift_matrix O junk m (cols m) c n = Ok r /\ placed_rows r m c n (n - cols m).
Proof.
  intros H. unfold shift_matrix. newmat r0. mset_as r1 Q1 0 (n - cols m). top_as s1 S1 0 (cols m). mset_as r2 Q2 (n - cols m) n.
  mgoal. rewrite Q2, Q1, S1 by lia. zcases; msettle.
Qed.

Lemma pad_and_shift_matrix_ok s : 0 <= s -> cols m + s <= n ->
  exists r, pad_and_shift_matrix O junk m (cols m) c n s = Ok r /\ placed_rows r m c n s.
Proof.
  intros S H. destruct W as [Cm _]. unfold pad_and_shift_matrix. cbv zeta. newmat r0. mset_as r1 Q1 0 s. top_as s1 S1 0 (cols m).
  mset_as r2 Q2 s (cols m + s). mset_as r3 Q3 (cols m + s) n.
  mgoal. rewrite Q3, Q2, Q1, S1 by lia. zcases; msettle.
Qed.

Lemma cycle_matrix_ok : 0 < cols m -> exists r, cycle_matrix junk m (cols m) c (-1) = Ok r /\ placed_rows r m c (cols m) (-1).
Proof.
  intros H. unfold cycle_matrix. newmat r0. change (- (-1)) with 1. top_as s1 S1 1 (cols m). mset_as r1 Q1 0 (cols m - 1).
  top_as s2 S2 0 1. mset_as r2 Q2 (cols m - 1) (cols m).
  mgoal. rewrite Q2, Q1, S1, S2 by lia.
  destruct (k =? cols m - 1) eqn:E.
  - replace ((cols m - 1 <=? k) && (k <? cols m)) with true by lia. replace (_ && _) with true by lia. replace (_ mod _) with 0.
    + replace (k - (cols m - 1) + 0) with 0 by lia. apply el_val; auto; lia.
    + replace (k - -1) with (cols m) by lia. symmetry. apply Z.mod_same. lia.
  - replace ((cols m - 1 <=? k) && (k <? cols m)) with false by lia. replace ((0 <=? k) && (k <? cols m - 1)) with true by lia.
    replace (_ && _) with true by lia. msettle.
Qed.

Lemma pad_and_cycle_matrix_ok : 0 < cols m < n ->
  exists r, pad_and_cycle_matrix O junk m (cols m) c n (-1) = Ok r /\ placed_rows r m c n (-1).
Proof.
  intros H. unfold pad_and_cycle_matrix. newmat r0. replace (-1 <? cols m) with true by lia. change (- (-1)) with 1. cbv zeta.
  top_as s1 S1 1 (cols m). mset_as r1 Q1 0 (cols m - 1). mset_as r2 Q2 (cols m - 1) (n - 1).
  top_as s2 S2 0 1. mset_as r3 Q3 (n - 1) n.
  mgoal. rewrite Q3, Q2, Q1, S1, S2 by lia.
  destruct (k =? n - 1) eqn:E.
  - replace ((n - 1 <=? k) && (k <? n)) with true by lia. replace (_ && _) with true by lia. replace (_ mod _) with 0.
    + replace (k - (n - 1) + 0) with 0 by lia. apply el_val; auto; lia.
    + replace (k - -1) with n by lia. symmetry. apply Z.mod_same. lia.
  - zcases; msettle.
Qed.

Lemma shift_and_cycle_matrix_ok : 0 < cols m < n ->
  exists r, shift_and_cycle_matrix O junk m (cols m) c n 1 = Ok r /\ placed_rows r m c n (1 - cols m).
Proof.
  intros H. unfold shift_and_cycle_matrix. newmat r0. top_as s1 S1 (cols m - 1) (cols m). mset_as r1 Q1 0 1.
  destruct (1 <? cols m) eqn:E1.
  - cbv zeta. mset_as r2 Q2 1 (n - (cols m - 1)). top_as s2 S2 0 (cols m - 1). mset_as r3 Q3 (n - (cols m - 1)) n.
    mgoal. rewrite Q3, Q2, Q1, S1, S2 by lia.
    assert (M : (k - (1 - cols m)) mod n = if k + cols m - 1 <? n then k + cols m - 1 else k + cols m - 1 - n).
    { zcases; [rewrite Z.mod_small; lia|]. symmetry. apply Z.mod_unique with 1; lia. }
    rewrite M. zcases; msettle.
  - mset_as r2 Q2 1 n. mgoal. rewrite Q2, Q1, S1 by lia.
    assert (M : (k - (1 - cols m)) mod n = k) by (rewrite Z.mod_small; lia). rewrite M. zcases; msettle.
Qed.

End Rows.

End Placed.
