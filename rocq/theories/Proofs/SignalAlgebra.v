(** The binary operators of signals: proofs for C02, C03, C04. *)

From Coq Require Import String ZArith List Bool Lia ZifyBool.
From Verif.Model Require Import Py Numpy Functions Signal.
From Verif.Spec Require Import TimeSpec.
From Verif.Proofs Require Import PyFacts NumpyFacts.
Import ListNotations.
Open Scope Z_scope.

(** ** Loops over ranges *)

Lemma zseq_cons a n : 0 < n -> zseq a n = a :: zseq (a + 1) (n - 1).
Proof.
  intros H. apply zth_ext. intros i. rewrite zth_cons, !zth_seq.
  destruct (Z.eqb_spec i 0); [subst|]; zcases; f_equal; lia.
Qed.

Lemma zseq_empty a n : n <= 0 -> zseq a n = [].
Proof. intros H. apply zlen_zero. rewrite zlen_seq. lia. Qed.

Lemma for_each_seq {S} (I : Z -> S -> Prop) (f : S -> Z -> result S) n : forall a s,
  0 <= n -> I a s ->
  (forall k s, a <= k < a + n -> I k s -> exists s', f s k = Ok s' /\ I (k + 1) s') ->
  exists s', for_each (zseq a n) f s = Ok s' /\ I (a + n) s'.
Proof.
  intros a s N. revert a s. pattern n. apply natlike_ind; auto; clear n N.
  - intros a s H _. rewrite zseq_empty by lia. cbn. exists s. split; auto. now replace (a + 0) with a by lia.
  - intros n N IH a s H Step. rewrite zseq_cons by lia. cbn [for_each].
    destruct (Step a s) as (s1 & E1 & I1); auto; try lia. rewrite E1. cbn [bind].
    replace (Z.succ n - 1) with n by lia.
    destruct (IH (a + 1) s1) as (s2 & E2 & I2); auto.
    + intros k s' K. apply Step. lia.
    + exists s2. split; auto. now replace (a + Z.succ n) with (a + 1 + n) by lia.
Qed.

Global Arguments sanitize_labels : simpl never.

Section Algebra.
Context {A : Type}.
Variable O : ops A.
Variable junk : Z -> Z -> A.
Implicit Types s o : signal A.

Lemma mk_signal_wf (m : arr A) r off l : wf m -> wf_signal (mk_signal m r off l).
Proof.
  intros W. split; auto. cbn. unfold sanitize_labels. pose proof (nrows_nonneg m).
  destruct l as [l|].
  - pose proof (zlen_nonneg l). zcases.
    + rewrite zlen_app, zlen_repeat. lia.
    + rewrite zlen_subseq, lower_between, upper_between by lia. lia.
  - rewrite zlen_repeat. lia.
Qed.

Lemma sanitize_same l n : zlen l = n -> sanitize_labels (Some l) n = l.
Proof. intros <-. unfold sanitize_labels. rewrite Z.ltb_irrefl. reflexivity. Qed.

Lemma wf_length s : wf_signal s -> 0 <= length s.
Proof. intros [[H _] _]. exact H. Qed.

Lemma wf_count s : 0 <= count s.
Proof. apply nrows_nonneg. Qed.

Lemma in_span s c t : wf_signal s -> 0 <= c ->
  (offset s <=? t) && (t <? offset s + length s) && ((count s =? 1) || (c <? count s)) = true ->
  exists x, operand_at s c t = Some x.
Proof.
  intros [W _] C H. unfold operand_at, at_time. apply el_in; auto; unfold count, length in *.
  - zcases.
  - lia.
Qed.

Lemma out_span s c t : wf_signal s -> 0 <= c ->
  (offset s <=? t) && (t <? offset s + length s) && ((count s =? 1) || (c <? count s)) = false ->
  operand_at s c t = None.
Proof.
  intros [W _] C H. unfold operand_at, at_time. apply el_out; auto; unfold count, length in *. zcases.
Qed.

Ltac bnd := rewrite ?lower_everything, ?upper_everything, ?lower_between, ?upper_between, ?lower_from, ?upper_from by lia.
Ltac bnd_in H := rewrite ?lower_everything, ?upper_everything, ?lower_between, ?upper_between, ?lower_from, ?upper_from in H by lia.

(** The loop that copies a row to all the other rows. *)
Lemma spread_rows (src : arr A) a b (m : arr A) :
  wf m -> wf src -> 1 <= nrows m -> 1 <= nrows src -> 0 <= a <= b -> b <= cols m -> cols src = b - a ->
  exists m', for_each (zseq 1 (nrows m - 1)) (fun m c => v <- row src 0 ;; set_row_block m c (between a b) v) m = Ok m'
    /\ wf m' /\ nrows m' = nrows m /\ cols m' = cols m /\
    forall i j, el m' i j = if (1 <=? i) && (i <? nrows m) && (a <=? j) && (j <? b) then el src 0 (j - a) else el m i j.
Proof.
  intros W Ws N Ns B Bc C.
  destruct (row_ok src 0) as (v & Ev & Wv & Nv & Cv & Hv); auto; [lia|].
  destruct (for_each_seq (fun k m' => wf m' /\ nrows m' = nrows m /\ cols m' = cols m /\
      forall i j, el m' i j = if (1 <=? i) && (i <? k) && (a <=? j) && (j <? b) then el src 0 (j - a) else el m i j)
      (fun m c => v <- row src 0 ;; set_row_block m c (between a b) v) (nrows m - 1) 1 m) as (m' & E & H).
  - lia.
  - repeat split; auto; try apply W. intros i j. zcases.
  - intros k m1 K (W1 & N1 & C1 & H1). rewrite Ev. cbn [bind].
    destruct (set_row_block_ok m1 k (between a b) v) as (m2 & E2 & W2 & N2 & C2 & H2); auto; try lia.
    + left. bnd. lia.
    + exists m2. split; auto. repeat split; try apply W2; try lia. intros i j. rewrite H2. bnd. rewrite H1.
      destruct ((i =? k) && (a <=? j) && (j <? b)) eqn:E1.
      * replace ((1 <=? i) && (i <? k + 1) && (a <=? j) && (j <? b)) with true by lia.
        rewrite Hv. f_equal. zcases.
      * replace ((1 <=? i) && (i <? k + 1) && (a <=? j) && (j <? b)) with ((1 <=? i) && (i <? k) && (a <=? j) && (j <? b)) by lia.
        reflexivity.
  - destruct H as (W' & N' & C' & H'). exists m'. split; auto. repeat split; auto; try apply W'.
    intros i j. rewrite H'. replace (1 + (nrows m - 1)) with (nrows m) by lia. reflexivity.
Qed.

(** The loop that copies the array's own first row to all the other rows. *)
Lemma spread_own_row a b (m : arr A) :
  wf m -> 1 <= nrows m -> 0 <= a <= b -> b <= cols m ->
  exists m', for_each (zseq 1 (nrows m - 1))
       (fun m c => v <- row m 0 ;; set_row_block m c (between a b) (block v everything (between a b))) m = Ok m'
    /\ wf m' /\ nrows m' = nrows m /\ cols m' = cols m /\
    forall i j, el m' i j = if (1 <=? i) && (i <? nrows m) && (a <=? j) && (j <? b) then el m 0 j else el m i j.
Proof.
  intros W N B Bc.
  destruct (for_each_seq (fun k m' => wf m' /\ nrows m' = nrows m /\ cols m' = cols m /\
      forall i j, el m' i j = if (1 <=? i) && (i <? k) && (a <=? j) && (j <? b) then el m 0 j else el m i j)
      (fun m c => v <- row m 0 ;; set_row_block m c (between a b) (block v everything (between a b))) (nrows m - 1) 1 m) as (m' & E & H).
  - lia.
  - repeat split; auto; try apply W. intros i j. zcases.
  - intros k m1 K (W1 & N1 & C1 & H1).
    destruct (row_ok m1 0) as (v & Ev & Wv & Nv & Cv & Hv); auto; [lia|]. rewrite Ev. cbn [bind].
    destruct (set_row_block_ok m1 k (between a b) (block v everything (between a b))) as (m2 & E2 & W2 & N2 & C2 & H2); auto; try lia.
    + now apply wf_block.
    + rewrite nrows_block. bnd. lia.
    + left. rewrite cols_block. rewrite Cv. reflexivity.
    + exists m2. split; auto. repeat split; try apply W2; try lia. intros i j. rewrite H2. bnd. rewrite H1.
      destruct ((i =? k) && (a <=? j) && (j <? b)) eqn:E1.
      * replace ((1 <=? i) && (i <? k + 1) && (a <=? j) && (j <? b)) with true by lia.
        rewrite el_block, cols_block by auto. bnd. rewrite ?Nv, ?Cv. bnd.
        replace (_ && _) with true by zcases. rewrite Hv, H1. cbn [Z.leb Z.compare andb].
        f_equal. zcases.
      * replace ((1 <=? i) && (i <? k + 1) && (a <=? j) && (j <? b)) with ((1 <=? i) && (i <? k) && (a <=? j) && (j <? b)) by lia.
        reflexivity.
  - destruct H as (W' & N' & C' & H'). exists m'. split; auto. repeat split; auto; try apply W'.
    intros i j. rewrite H'. replace (1 + (nrows m - 1)) with (nrows m) by lia. reflexivity.
Qed.

Definition right_only (f : A -> A -> A) (pivot : option A) (y : A) : A :=
  match pivot with None => y | Some p => f p y end.

(** The result of an operator on two signals. *)
Definition op_result (f : A -> A -> A) (pivot : option A) (label : string) s o (r : signal A) : Prop :=
  wf_signal r /\
  sampling_rate r = sampling_rate s /\
  count r = Z.max (count s) (count o) /\
  begins r = Z.min (begins s) (begins o) /\
  ends r = Z.max (ends s) (ends o) /\
  labels r = zrepeat label (count r) /\
  forall c t, 0 <= c < count r -> begins r <= t < ends r ->
    at_time r c t = Some (combination f (right_only f pivot) (o_zero O) (operand_at s c t) (operand_at o c t)).

Lemma different_shapes_ok f pivot label s o :
  wf_signal s -> wf_signal o -> 1 <= count s -> 1 <= count o ->
  exists r, algebra_different_shapes O junk f pivot label s o = Ok r /\ op_result f pivot label s o r.
Proof.
  intros Ws Wo Cs Co. pose proof (wf_length s Ws) as Ls. pose proof (wf_length o Wo) as Lo.
  unfold algebra_different_shapes.
  set (start := Z.min (offset s) (offset o)).
  set (stop := Z.max (offset s + length s) (offset o + length o)).
  set (n := Z.max (count s) (count o)).
  destruct (allocate_ok junk n (stop - start)) as (m0 & -> & W0 & N0 & C0); try lia.
  cbn [bind].
  (* zeros *)
  destruct (set_block_ok m0 everything everything (scalar (o_zero O))) as (m1 & -> & W1 & N1 & C1 & H1);
    [auto|apply wf_scalar|right; reflexivity|right; reflexivity|].
  cbn [bind]. rewrite N0, C0 in *. bnd_in H1.
  (* copy of the left operand *)
  assert (S2 : exists m2, (m <- set_block m1 (between 0 (count s)) (between (offset s - start) (offset s + length s - start)) (channels s) ;;
       (if count s =? 1 then
          for_each (zseq 1 (nrows m - 1))
                   (fun m c => v <- row (channels s) 0 ;; set_row_block m c (between (offset s - start) (offset s + length s - start)) v) m
        else Ok m)) = Ok m2 /\ wf m2 /\ nrows m2 = n /\ cols m2 = stop - start /\
      forall c t, 0 <= c < n -> start <= t < stop ->
        el m2 c (t - start) = match operand_at s c t with Some x => Some x | None => Some (o_zero O) end).
  { destruct (set_block_ok m1 (between 0 (count s)) (between (offset s - start) (offset s + length s - start)) (channels s))
      as (m2 & -> & W2 & N2 & C2 & H2).
    - auto.
    - apply Ws.
    - left. bnd. unfold count; lia.
    - left. bnd. unfold length; lia.
    - cbn [bind]. rewrite N1, C1 in *. bnd_in H2.
      assert (G : forall c t, 0 <= c < n -> start <= t < stop -> el m2 c (t - start) =
         if (c <? count s) && (offset s <=? t) && (t <? offset s + length s)
         then at_time s c t else Some (o_zero O)).
      { intros c t Hc Ht. rewrite H2, H1. fold (count s) (length s).
        replace ((0 <=? c) && (c <? count s) && (offset s - start <=? t - start) && (t - start <? offset s + length s - start))
          with ((c <? count s) && (offset s <=? t) && (t <? offset s + length s)) by lia.
        destruct ((c <? count s) && (offset s <=? t) && (t <? offset s + length s)) eqn:E.
        - unfold at_time. f_equal; zcases.
        - replace (_ && _) with true by lia. reflexivity. }
      destruct (Z.eqb_spec (count s) 1) as [E1|E1].
      + destruct (spread_rows (channels s) (offset s - start) (offset s + length s - start) m2)
          as (m3 & -> & W3 & N3 & C3 & H3); auto; try lia.
        * apply Ws.
        * unfold length; lia.
        * exists m3. split; auto. repeat split; try apply W3; try lia.
          intros c t Hc Ht. rewrite H3. rewrite N2.
          destruct ((1 <=? c) && (c <? n) && (offset s - start <=? t - start) && (t - start <? offset s + length s - start)) eqn:E.
          -- destruct (in_span s c t) as [x X]; auto; try lia.
             rewrite X. unfold operand_at, at_time in X. rewrite E1 in X. cbn [Z.eqb Pos.eqb] in X. rewrite <- X. f_equal. lia.
          -- rewrite G by auto. 
             destruct ((c <? count s) && (offset s <=? t) && (t <? offset s + length s)) eqn:E'.
             ++ destruct (in_span s c t) as [x X]; auto; try lia. rewrite X.
                unfold operand_at in X. rewrite E1 in X. cbn [Z.eqb Pos.eqb] in X. rewrite <- X. f_equal. lia.
             ++ rewrite out_span; auto; lia.
      + exists m2. split; auto. repeat split; try apply W2; try lia.
        intros c t Hc Ht. rewrite G by auto.
        destruct ((c <? count s) && (offset s <=? t) && (t <? offset s + length s)) eqn:E'.
        * destruct (in_span s c t) as [x X]; auto; try lia. rewrite X.
          unfold operand_at in X. destruct (Z.eqb_spec (count s) 1); [lia|auto].
        * rewrite out_span; auto; lia. }
  destruct S2 as (m2 & E2 & W2 & N2 & C2 & H2).
  apply bind_ok in E2 as (m2' & -> & E2). cbn [bind]. rewrite E2. cbn [bind]. clear E2 m2'.
  (* copy of the right operand *)
  set (ocols := between (offset o - start) (offset o + length o - start)).
  assert (S3 : exists m3, (match pivot with
        | None =>
            m <- set_block m2 (between 0 (count o)) ocols (channels o) ;;
            if count o =? 1 then
              for_each (zseq 1 (nrows m - 1))
                       (fun m c => v <- row (channels o) 0 ;; set_row_block m c ocols v) m
            else Ok m
        | Some p =>
            m <- ufunc2_into f (scalar p) (channels o) m2 (between 0 (count o)) ocols ;;
            if count o =? 1 then
              for_each (zseq 1 (nrows m - 1))
                       (fun m c => v <- row m 0 ;; set_row_block m c ocols (block v everything ocols)) m
            else Ok m
        end) = Ok m3 /\ wf m3 /\ nrows m3 = n /\ cols m3 = stop - start /\
      forall c t, 0 <= c < n -> start <= t < stop ->
        el m3 c (t - start) = match operand_at o c t with
                              | Some y => Some (right_only f pivot y)
                              | None => el m2 c (t - start) end).
  { destruct pivot as [p|].
    - destruct (ufunc2_into_ok f (scalar p) (channels o) m2 (between 0 (count o)) ocols)
        as (m3 & -> & W3 & N3 & C3 & H3); auto; try (apply wf_scalar); try apply Wo; try (right; reflexivity).
      { left. bnd. unfold count; lia. }
      { left. unfold ocols. rewrite C2. bnd. unfold length; lia. }
      cbn [bind]. rewrite N2, C2 in *. unfold ocols in *. bnd_in H3.
      assert (G : forall c t, 0 <= c < n -> start <= t < stop -> el m3 c (t - start) =
         if (c <? count o) && (offset o <=? t) && (t <? offset o + length o)
         then option_map (f p) (at_time o c t) else el m2 c (t - start)).
      { intros c t Hc Ht. rewrite H3. fold (count o) (length o). rewrite nrows_scalar, cols_scalar, el_scalar.
        replace ((0 <=? c) && (c <? count o) && (offset o - start <=? t - start) && (t - start <? offset o + length o - start))
          with ((c <? count o) && (offset o <=? t) && (t <? offset o + length o)) by lia.
        destruct ((c <? count o) && (offset o <=? t) && (t <? offset o + length o)) eqn:E; auto.
        cbn [Z.eqb Pos.eqb]. unfold at_time.
        replace (el (channels o) (if count o =? 1 then 0 else c - 0) (if length o =? 1 then 0 else t - start - (offset o - start)))
          with (el (channels o) c (t - offset o)) by (f_equal; zcases).
        destruct (el (channels o) c (t - offset o)); reflexivity. }
      destruct (Z.eqb_spec (count o) 1) as [E1|E1].
      + destruct (spread_own_row (offset o - start) (offset o + length o - start) m3)
          as (m4 & -> & W4 & N4 & C4 & H4); auto; try lia.
        exists m4. split; auto. repeat split; try apply W4; try lia.
        intros c t Hc Ht. rewrite H4, N3.
        destruct ((1 <=? c) && (c <? n) && (offset o - start <=? t - start) && (t - start <? offset o + length o - start)) eqn:E.
        * destruct (in_span o c t) as [x X]; auto; try lia. rewrite X. rewrite G by lia.
          replace (_ && _) with true by lia.
          unfold operand_at in X. rewrite E1 in X. cbn [Z.eqb Pos.eqb] in X. rewrite X. reflexivity.
        * rewrite G by lia. destruct ((c <? count o) && (offset o <=? t) && (t <? offset o + length o)) eqn:E'.
          -- destruct (in_span o c t) as [x X]; auto; try lia. rewrite X.
             unfold operand_at in X. rewrite E1 in X. cbn [Z.eqb Pos.eqb] in X.
             replace c with 0 by lia. rewrite X. reflexivity.
          -- rewrite out_span; auto; lia.
      + exists m3. split; auto. repeat split; try apply W3; try lia.
        intros c t Hc Ht. rewrite G by auto.
        destruct ((c <? count o) && (offset o <=? t) && (t <? offset o + length o)) eqn:E'.
        * destruct (in_span o c t) as [x X]; auto; try lia. rewrite X.
          unfold operand_at in X. destruct (Z.eqb_spec (count o) 1); [lia|]. rewrite X. reflexivity.
        * rewrite out_span; auto; lia.
    - destruct (set_block_ok m2 (between 0 (count o)) ocols (channels o)) as (m3 & -> & W3 & N3 & C3 & H3); auto; try apply Wo.
      { left. bnd. unfold count; lia. }
      { left. unfold ocols. rewrite C2. bnd. unfold length; lia. }
      cbn [bind]. rewrite N2, C2 in *. unfold ocols in *. bnd_in H3.
      assert (G : forall c t, 0 <= c < n -> start <= t < stop -> el m3 c (t - start) =
         if (c <? count o) && (offset o <=? t) && (t <? offset o + length o)
         then at_time o c t else el m2 c (t - start)).
      { intros c t Hc Ht. rewrite H3. fold (count o) (length o).
        replace ((0 <=? c) && (c <? count o) && (offset o - start <=? t - start) && (t - start <? offset o + length o - start))
          with ((c <? count o) && (offset o <=? t) && (t <? offset o + length o)) by lia.
        destruct ((c <? count o) && (offset o <=? t) && (t <? offset o + length o)) eqn:E; auto.
        unfold at_time. f_equal; zcases. }
      destruct (Z.eqb_spec (count o) 1) as [E1|E1].
      + destruct (spread_rows (channels o) (offset o - start) (offset o + length o - start) m3)
          as (m4 & -> & W4 & N4 & C4 & H4); auto; try lia.
        * apply Wo.
        * unfold length; lia.
        * exists m4. split; auto. repeat split; try apply W4; try lia.
          intros c t Hc Ht. rewrite H4, N3.
          destruct ((1 <=? c) && (c <? n) && (offset o - start <=? t - start) && (t - start <? offset o + length o - start)) eqn:E.
          -- destruct (in_span o c t) as [x X]; auto; try lia. rewrite X. cbn [right_only].
             unfold operand_at, at_time in X. rewrite E1 in X. cbn [Z.eqb Pos.eqb] in X. rewrite <- X. f_equal. lia.
          -- rewrite G by lia. destruct ((c <? count o) && (offset o <=? t) && (t <? offset o + length o)) eqn:E'.
             ++ destruct (in_span o c t) as [x X]; auto; try lia. rewrite X.
                unfold operand_at in X. rewrite E1 in X. cbn [Z.eqb Pos.eqb] in X.
                replace c with 0 by lia. rewrite X. reflexivity.
             ++ rewrite out_span; auto; lia.
      + exists m3. split; auto. repeat split; try apply W3; try lia.
        intros c t Hc Ht. rewrite G by auto.
        destruct ((c <? count o) && (offset o <=? t) && (t <? offset o + length o)) eqn:E'.
        * destruct (in_span o c t) as [x X]; auto; try lia. rewrite X.
          unfold operand_at in X. destruct (Z.eqb_spec (count o) 1); [lia|]. rewrite X. reflexivity.
        * rewrite out_span; auto; lia. }
  destruct S3 as (m3 & -> & W3 & N3 & C3 & H3). cbn [bind].
  (* the overlap *)
  set (ostart := Z.max (offset s) (offset o)). set (ostop := Z.min (offset s + length s) (offset o + length o)).
  match goal with |- exists r, (m <- ?e ;; _) = _ /\ _ => assert (S4 : exists m4, e = Ok m4 /\ wf m4 /\ nrows m4 = n /\ cols m4 = stop - start /\
      forall c t, 0 <= c < n -> start <= t < stop ->
        el m4 c (t - start) = match operand_at s c t, operand_at o c t with
                              | Some x, Some y => Some (f x y)
                              | _, _ => el m3 c (t - start) end) end.
  { destruct (Z.ltb_spec ostart ostop) as [Hov|Hov].
    - destruct (Z.eqb_spec (count s) 1) as [E1|E1]; [|destruct (Z.eqb_spec (count o) 1) as [E2|E2]].
      + destruct (row_ok (channels s) 0) as (v & -> & Wv & Nv & Cv & Hv); [apply Ws|unfold count in *; lia|]. cbn [bind].
        destruct (ufunc2_into_ok f (block v everything (between (ostart - offset s) (ostop - offset s)))
                   (block (channels o) everything (between (ostart - offset o) (ostop - offset o))) m3 everything
                   (between (ostart - start) (ostop - start))) as (m4 & -> & W4 & N4 & C4 & H4); auto;
          try (apply wf_block; auto; apply Wo); rewrite ?nrows_block, ?cols_block; bnd; rewrite ?Cv; fold (length s) (length o) (count o) (count s); bnd; try lia.
        exists m4. repeat split; auto; try apply W4; try lia. intros c t Hc Ht. rewrite H4, N3, C3. bnd.
        rewrite !el_block by (auto; apply Wo). rewrite ?nrows_block, ?cols_block, ?Nv, ?Cv. fold (length s) (length o) (count o) (count s). bnd.
        destruct ((offset s <=? t) && (t <? offset s + length s) && ((count s =? 1) || (c <? count s))) eqn:I1.
        * destruct (in_span s c t) as [x X]; auto; try lia. rewrite X.
          destruct ((offset o <=? t) && (t <? offset o + length o) && ((count o =? 1) || (c <? count o))) eqn:I2.
          -- destruct (in_span o c t) as [y Y]; auto; try lia. rewrite Y.
             replace (_ && _) with true by lia.
             match goal with |- context [if ?b then el v _ _ else None] => replace b with true by zcases end.
             match goal with |- context [if ?b then el (channels o) _ _ else None] => replace b with true by zcases end.
             unfold operand_at, at_time in X, Y. rewrite E1 in X. cbn [Z.eqb Pos.eqb] in X.
             match goal with |- context [el v ?i ?j] => replace (el v i j) with (Some x) by (rewrite <- X, <- Hv; f_equal; zcases) end.
             match goal with |- context [el (channels o) ?i ?j] => replace (el (channels o) i j) with (Some y) by (rewrite <- Y; f_equal; zcases) end.
             reflexivity.
          -- rewrite (out_span o c t) by (auto; lia). replace (_ && _) with false by lia. reflexivity.
        * rewrite (out_span s c t) by (auto; lia). replace (_ && _) with false by lia. reflexivity.
      + destruct (row_ok (channels o) 0) as (v & -> & Wv & Nv & Cv & Hv); [apply Wo|unfold count in *; lia|]. cbn [bind].
        destruct (ufunc2_into_ok f (block (channels s) everything (between (ostart - offset s) (ostop - offset s)))
                   (block v everything (between (ostart - offset o) (ostop - offset o))) m3 everything
                   (between (ostart - start) (ostop - start))) as (m4 & -> & W4 & N4 & C4 & H4); auto;
          try (apply wf_block; auto; apply Ws); rewrite ?nrows_block, ?cols_block; bnd; rewrite ?Cv; fold (length s) (length o) (count o) (count s); bnd; try lia.
        exists m4. repeat split; auto; try apply W4; try lia. intros c t Hc Ht. rewrite H4, N3, C3. bnd.
        rewrite !el_block by (auto; apply Ws). rewrite ?nrows_block, ?cols_block, ?Nv, ?Cv. fold (length s) (length o) (count o) (count s). bnd.
        destruct ((offset s <=? t) && (t <? offset s + length s) && ((count s =? 1) || (c <? count s))) eqn:I1.
        * destruct (in_span s c t) as [x X]; auto; try lia. rewrite X.
          destruct ((offset o <=? t) && (t <? offset o + length o) && ((count o =? 1) || (c <? count o))) eqn:I2.
          -- destruct (in_span o c t) as [y Y]; auto; try lia. rewrite Y.
             replace (_ && _) with true by lia.
             match goal with |- context [if ?b then el v _ _ else None] => replace b with true by zcases end.
             match goal with |- context [if ?b then el (channels s) _ _ else None] => replace b with true by zcases end.
             unfold operand_at, at_time in X, Y. rewrite E2 in Y. cbn [Z.eqb Pos.eqb] in Y.
             match goal with |- context [el v ?i ?j] => replace (el v i j) with (Some y) by (rewrite <- Y, <- Hv; f_equal; zcases) end.
             match goal with |- context [el (channels s) ?i ?j] => replace (el (channels s) i j) with (Some x) by (rewrite <- X; f_equal; zcases) end.
             reflexivity.
          -- rewrite (out_span o c t) by (auto; lia). replace (_ && _) with false by lia. reflexivity.
        * rewrite (out_span s c t) by (auto; lia). replace (_ && _) with false by lia. reflexivity.
      + set (k := Z.min (count s) (count o)).
        destruct (ufunc2_into_ok f (block (channels s) (between 0 k) (between (ostart - offset s) (ostop - offset s)))
                   (block (channels o) (between 0 k) (between (ostart - offset o) (ostop - offset o))) m3 (between 0 k)
                   (between (ostart - start) (ostop - start))) as (m4 & -> & W4 & N4 & C4 & H4); auto;
          try (apply wf_block; auto; first [apply Ws | apply Wo]); rewrite ?nrows_block, ?cols_block; fold (length s) (length o) (count o) (count s); bnd; try lia.
        exists m4. repeat split; auto; try apply W4; try lia. intros c t Hc Ht. rewrite H4, N3, C3. bnd.
        rewrite !el_block by (first [apply Ws | apply Wo]). rewrite ?nrows_block, ?cols_block. fold (length s) (length o) (count o) (count s). bnd.
        destruct ((offset s <=? t) && (t <? offset s + length s) && ((count s =? 1) || (c <? count s))) eqn:I1.
        * destruct (in_span s c t) as [x X]; auto; try lia. rewrite X.
          destruct ((offset o <=? t) && (t <? offset o + length o) && ((count o =? 1) || (c <? count o))) eqn:I2.
          -- destruct (in_span o c t) as [y Y]; auto; try lia. rewrite Y.
             replace (_ && _) with true by lia.
             match goal with |- context [if ?b then el (channels s) _ _ else None] => replace b with true by zcases end.
             match goal with |- context [if ?b then el (channels o) _ _ else None] => replace b with true by zcases end.
             unfold operand_at, at_time in X, Y.
             match goal with |- context [el (channels o) ?i ?j] => replace (el (channels o) i j) with (Some y) by (rewrite <- Y; f_equal; zcases) end.
             match goal with |- context [el (channels s) ?i ?j] => replace (el (channels s) i j) with (Some x) by (rewrite <- X; f_equal; zcases) end.
             reflexivity.
          -- rewrite (out_span o c t) by (auto; lia). replace (_ && _) with false by lia. reflexivity.
        * rewrite (out_span s c t) by (auto; lia). replace (_ && _) with false by lia. reflexivity.
    - exists m3. repeat split; auto; try apply W3. intros c t Hc Ht.
      destruct ((offset s <=? t) && (t <? offset s + length s) && ((count s =? 1) || (c <? count s))) eqn:I1.
      + rewrite (out_span o c t) by (auto; lia). destruct (operand_at s c t); reflexivity.
      + rewrite (out_span s c t) by (auto; lia). reflexivity. }
  destruct S4 as (m4 & -> & W4 & N4 & C4 & H4). cbn [bind].
  eexists. split; [reflexivity|]. unfold op_result.
  assert (CR : count (mk_signal m4 (sampling_rate s) start (Some (zrepeat label n))) = n) by exact N4.
  rewrite CR. split; [now apply mk_signal_wf|]. repeat split; auto.
  - change (start + cols m4 = Z.max (ends s) (ends o)). rewrite C4. unfold ends. lia.
  - cbn. apply sanitize_same. rewrite zlen_repeat, N4. lia.
  - intros c t Hc Ht. unfold at_time; cbn. change (start <= t < start + cols m4) in Ht. rewrite C4 in Ht.
    rewrite H4, H3, H2 by lia.
    destruct (operand_at s c t), (operand_at o c t); reflexivity.
Qed.

Lemma operand_same s c t : wf_signal s -> 0 <= c < count s -> operand_at s c t = at_time s c t.
Proof.
  intros W C. unfold operand_at. destruct (Z.eqb_spec (count s) 1); auto. now replace c with 0 by lia.
Qed.

Lemma overlap_ok f pivot label s o :
  wf_signal s -> wf_signal o -> count s = count o -> length s = length o -> offset s = offset o ->
  exists r, algebra_overlap junk f label s o = Ok r /\ op_result f pivot label s o r.
Proof.
  intros Ws Wo C L E. unfold algebra_overlap.
  pose proof (wf_length s Ws) as Ls. pose proof (wf_count s) as Cs.
  destruct (allocate_ok junk (count s) (length s)) as (m0 & -> & W0 & N0 & C0); auto. cbn [bind].
  destruct (ufunc2_into_ok f (channels s) (channels o) m0 everything everything) as (m & -> & W & N & Cm & H); auto;
    try apply Ws; try apply Wo; bnd; fold (count s) (count o) (length s) (length o); try lia.
  cbn [bind]. eexists. split; [reflexivity|]. unfold op_result.
  split; [now apply mk_signal_wf|]. unfold count, begins, ends, length, at_time in *; cbn in *.
  rewrite N, Cm, N0, C0 in *. repeat split; auto; try lia.
  - rewrite sanitize_same; rewrite ?zlen_repeat; auto; lia.
  - intros c t Hc Ht. rewrite H. bnd.
    destruct (in_span s c t) as [x X]; auto; try (unfold length, count; lia).
    destruct (in_span o c t) as [y Y]; auto; try (unfold length, count; lia).
    rewrite X, Y. cbn. rewrite operand_same in X, Y by (auto; unfold count; lia). unfold at_time in *.
    replace (_ && _) with true by lia.
    replace (el (channels s) _ _) with (Some x) by (rewrite <- X; f_equal; zcases).
    replace (el (channels o) _ _) with (Some y) by (rewrite <- Y; f_equal; zcases). reflexivity.
Qed.

Lemma self_one_ok f pivot label s o :
  wf_signal s -> wf_signal o -> count s = 1 -> 1 <= count o -> length s = length o -> offset s = offset o ->
  exists r, algebra_self_one junk f label s o = Ok r /\ op_result f pivot label s o r.
Proof.
  intros Ws Wo C C' L E. unfold algebra_self_one.
  pose proof (wf_length o Wo) as Lo. pose proof (wf_count o) as Co.
  destruct (allocate_ok junk (count o) (length o)) as (m0 & -> & W0 & N0 & C0); auto. cbn [bind].
  destruct (row_ok (channels s) 0) as (v & -> & Wv & Nv & Cv & Hv); [apply Ws|unfold count in *; lia|]. cbn [bind].
  destruct (ufunc2_into_ok f v (channels o) m0 everything everything) as (m & -> & W & N & Cm & H); auto;
    try apply Ws; try apply Wo; bnd; rewrite ?Cv; fold (count s) (count o) (length s) (length o); try lia.
  cbn [bind]. eexists. split; [reflexivity|]. unfold op_result.
  split; [now apply mk_signal_wf|]. unfold count, begins, ends, length, at_time in *; cbn in *.
  rewrite N, Cm, N0, C0 in *. repeat split; auto; try lia.
  - rewrite sanitize_same; rewrite ?zlen_repeat; auto; lia.
  - intros c t Hc Ht. rewrite H. bnd.
    destruct (in_span s c t) as [x X]; auto; try (unfold length, count; lia).
    destruct (in_span o c t) as [y Y]; auto; try (unfold length, count; lia).
    rewrite X, Y. cbn. rewrite operand_same in Y by (auto; unfold count; lia).
    unfold operand_at, at_time, count in X. rewrite C in X. cbn in X. unfold at_time in *.
    replace (_ && _) with true by lia. rewrite Nv. cbn.
    replace (el v _ _) with (Some x) by (rewrite <- X, <- Hv; f_equal; zcases).
    replace (el (channels o) _ _) with (Some y) by (rewrite <- Y; f_equal; zcases). reflexivity.
Qed.

Lemma other_one_ok f pivot label s o :
  wf_signal s -> wf_signal o -> count o = 1 -> 1 <= count s -> length s = length o -> offset s = offset o ->
  exists r, algebra_other_one junk f label s o = Ok r /\ op_result f pivot label s o r.
Proof.
  intros Ws Wo C C' L E. unfold algebra_other_one.
  pose proof (wf_length s Ws) as Ls. pose proof (wf_count s) as Cs.
  destruct (allocate_ok junk (count s) (length s)) as (m0 & -> & W0 & N0 & C0); auto. cbn [bind].
  destruct (row_ok (channels o) 0) as (v & -> & Wv & Nv & Cv & Hv); [apply Wo|unfold count in *; lia|]. cbn [bind].
  destruct (ufunc2_into_ok f (channels s) v m0 everything everything) as (m & -> & W & N & Cm & H); auto;
    try apply Ws; try apply Wo; bnd; rewrite ?Cv; fold (count s) (count o) (length s) (length o); try lia.
  cbn [bind]. eexists. split; [reflexivity|]. unfold op_result.
  split; [now apply mk_signal_wf|]. unfold count, begins, ends, length, at_time in *; cbn in *.
  rewrite N, Cm, N0, C0 in *. repeat split; auto; try lia.
  - rewrite sanitize_same; rewrite ?zlen_repeat; auto; lia.
  - intros c t Hc Ht. rewrite H. bnd.
    destruct (in_span s c t) as [x X]; auto; try (unfold length, count; lia).
    destruct (in_span o c t) as [y Y]; auto; try (unfold length, count; lia).
    rewrite X, Y. cbn. rewrite operand_same in X by (auto; unfold count; lia).
    unfold operand_at, at_time, count in Y. rewrite C in Y. cbn in Y. unfold at_time in *.
    replace (_ && _) with true by lia. rewrite Nv. cbn.
    replace (el v _ _) with (Some y) by (rewrite <- Y, <- Hv; f_equal; zcases).
    replace (el (channels s) _ _) with (Some x) by (rewrite <- X; f_equal; zcases). reflexivity.
Qed.

Theorem algebra_signal_ok f pivot label s o :
  wf_signal s -> wf_signal o -> 1 <= count s -> 1 <= count o ->
  exists r, algebra_signal O junk f pivot label s o = Ok r /\ op_result f pivot label s o r.
Proof.
  intros Ws Wo Cs Co. unfold algebra_signal.
  destruct ((count s =? count o) && (length s =? length o) && (offset s =? offset o)) eqn:E1; [apply overlap_ok; auto; lia|].
  destruct ((count s =? 1) && (length s =? length o) && (offset s =? offset o)) eqn:E2; [apply self_one_ok; auto; lia|].
  destruct ((count o =? 1) && (length s =? length o) && (offset s =? offset o)) eqn:E3; [apply other_one_ok; auto; lia|].
  apply different_shapes_ok; auto.
Qed.

(** A number or an array as operand. *)
Lemma algebra_array_ok f s (x : arr A) :
  wf_signal s -> wf x -> nrows x = count s \/ nrows x = 1 -> cols x = length s \/ cols x = 1 ->
  exists r, algebra_array junk f s x = Ok r /\ wf_signal r /\ sampling_rate r = sampling_rate s /\ offset r = offset s /\
    labels r = labels s /\ count r = count s /\ length r = length s /\
    forall c t, at_time r c t =
      match at_time s c t, el x (if nrows x =? 1 then 0 else c) (if cols x =? 1 then 0 else t - offset s) with
      | Some a, Some b => Some (f a b) | _, _ => None end.
Proof.
  intros Ws Wx H1 H2. unfold algebra_array.
  pose proof (wf_length s Ws) as Ls. pose proof (wf_count s) as Cs.
  destruct (allocate_ok junk (count s) (length s)) as (m0 & -> & W0 & N0 & C0); auto. cbn [bind].
  destruct (ufunc2_into_ok f (channels s) x m0 everything everything) as (m & -> & W & N & Cm & H); auto;
    try apply Ws; bnd; fold (count s) (length s); try lia.
  cbn [bind]. eexists. split; [reflexivity|].
  split; [now apply mk_signal_wf|]. unfold count, length, at_time in *; cbn in *.
  rewrite N, Cm, N0, C0 in *. repeat split; auto; try lia.
  - rewrite sanitize_same; auto. apply Ws.
  - intros c t. rewrite H. bnd.
    destruct ((0 <=? c) && (c <? nrows (channels s)) && (0 <=? t - offset s) && (t - offset s <? cols (channels s))) eqn:E.
    + replace (el (channels s) _ _) with (el (channels s) c (t - offset s)) by (f_equal; zcases).
      replace (c - 0) with c by lia. replace (t - offset s - 0) with (t - offset s) by lia. reflexivity.
    + rewrite (el_out m0), (el_out (channels s)); auto; try lia. apply Ws.
Qed.

Lemma algebra_array_right_ok f s (x : arr A) :
  wf_signal s -> wf x -> nrows x = count s \/ nrows x = 1 -> cols x = length s \/ cols x = 1 ->
  exists r, algebra_array_right junk f s x = Ok r /\ wf_signal r /\ sampling_rate r = sampling_rate s /\ offset r = offset s /\
    labels r = labels s /\ count r = count s /\ length r = length s /\
    forall c t, at_time r c t =
      match el x (if nrows x =? 1 then 0 else c) (if cols x =? 1 then 0 else t - offset s), at_time s c t with
      | Some a, Some b => Some (f a b) | _, _ => None end.
Proof.
  intros Ws Wx H1 H2. unfold algebra_array_right.
  pose proof (wf_length s Ws) as Ls. pose proof (wf_count s) as Cs.
  destruct (allocate_ok junk (count s) (length s)) as (m0 & -> & W0 & N0 & C0); auto. cbn [bind].
  destruct (ufunc2_into_ok f x (channels s) m0 everything everything) as (m & -> & W & N & Cm & H); auto;
    try apply Ws; bnd; fold (count s) (length s); try lia.
  cbn [bind]. eexists. split; [reflexivity|].
  split; [now apply mk_signal_wf|]. unfold count, length, at_time in *; cbn in *.
  rewrite N, Cm, N0, C0 in *. repeat split; auto; try lia.
  - rewrite sanitize_same; auto. apply Ws.
  - intros c t. rewrite H. bnd.
    destruct ((0 <=? c) && (c <? nrows (channels s)) && (0 <=? t - offset s) && (t - offset s <? cols (channels s))) eqn:E.
    + replace (el (channels s) _ _) with (el (channels s) c (t - offset s)) by (f_equal; zcases).
      replace (c - 0) with c by lia. replace (t - offset s - 0) with (t - offset s) by lia. reflexivity.
    + rewrite (el_out m0), (el_out (channels s)); auto; try lia; [|apply Ws]. now destruct (el x _ _).
Qed.

Lemma same_samples_of s o : wf_signal s -> wf_signal o ->
  count s = count o -> begins s = begins o -> ends s = ends o ->
  (forall c t, 0 <= c < count s -> begins s <= t < ends s -> at_time s c t = at_time o c t) -> same_samples s o.
Proof.
  intros Ws Wo C B E H. repeat split; auto. intros c t.
  destruct ((0 <=? c) && (c <? count s) && (begins s <=? t) && (t <? ends s)) eqn:R; [apply H; lia|].
  unfold at_time. rewrite !el_out; auto; try apply Ws; try apply Wo; unfold count, begins, ends, length in *; lia.
Qed.

Theorem algebra_signal_comm f label s o r r' :
  wf_signal s -> wf_signal o -> 1 <= count s -> 1 <= count o -> (forall x y, f x y = f y x) ->
  algebra_signal O junk f None label s o = Ok r -> algebra_signal O junk f None label o s = Ok r' ->
  same_samples r r' /\ labels r = labels r'.
Proof.
  intros Ws Wo Cs Co F H H'.
  destruct (algebra_signal_ok f None label s o) as (r1 & E1 & R1); auto.
  destruct (algebra_signal_ok f None label o s) as (r2 & E2 & R2); auto.
  rewrite E1 in H. injection H as <-. rewrite E2 in H'. injection H' as <-.
  destruct R1 as (W1 & _ & C1 & B1 & D1 & L1 & A1), R2 as (W2 & _ & C2 & B2 & D2 & L2 & A2).
  split; [|rewrite L1, L2; f_equal; lia].
  apply same_samples_of; auto; try lia.
  intros c t Hc Ht. rewrite A1, A2 by lia. f_equal.
  destruct (operand_at s c t), (operand_at o c t); cbn; auto.
Qed.

End Algebra.
