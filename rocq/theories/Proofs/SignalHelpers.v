(** The statements of Properties/SignalProps.v, derived from the lemmas of the other files. *)

From Coq Require Import String ZArith QArith List Bool Lia ZifyBool.
From Verif.Model Require Import Py Numpy Functions Signal.
From Verif.Spec Require Import TimeSpec SliceSpec Demo.
From Verif.Proofs Require Import PyFacts NumpyFacts SliceFacts SignalAlgebra SignalShape SignalExtra.
Import ListNotations.
Open Scope Z_scope.

Lemma sanitize_labels_ok (given : option (list string)) (number : Z) : 0 <= number ->
  zlen (sanitize_labels given number) = number /\
  forall i, 0 <= i < number ->
    zth (sanitize_labels given number) i =
    Some (match given with
          | None => EmptyString
          | Some l => match zth l i with Some label => label | None => EmptyString end
          end).
Proof.
  intros N. unfold sanitize_labels. destruct given as [l|].
  - pose proof (zlen_nonneg l).
    destruct (Z.ltb_spec (zlen l) number); [|destruct (Z.ltb_spec number (zlen l))].
    + split; [rewrite zlen_app, zlen_repeat; lia|]. intros i I. rewrite zth_app, zth_repeat.
      destruct (Z.ltb_spec i (zlen l)).
      * destruct (zth_in l i) as [x X]; [lia|]. now rewrite X.
      * rewrite (zth_ge l) by lia. replace (_ && _) with true by lia. reflexivity.
    + split; [rewrite zlen_subseq, upper_between, lower_between by lia; lia|]. intros i I.
      rewrite zth_subseq, upper_between, lower_between by lia.
      destruct (zth_in l i) as [x X]; [lia|]. rewrite X. replace (_ && _) with true by lia.
      rewrite <- X. f_equal. lia.
    + split; [lia|]. intros i I. destruct (zth_in l i) as [x X]; [lia|]. now rewrite X.
  - split; [rewrite zlen_repeat; lia|]. intros i I. rewrite zth_repeat. replace (_ && _) with true by lia. reflexivity.
Qed.

Lemma mk_signal_labels {A} (m : arr A) rate offset given : wf m ->
  let s := mk_signal m rate offset given in
  wf_signal s /\ channels s = m /\ sampling_rate s = rate /\ begins s = offset /\
  zlen (labels s) = count s /\
  forall i, 0 <= i < count s ->
    zth (labels s) i = Some (match given with
                             | None => EmptyString
                             | Some l => match zth l i with Some label => label | None => EmptyString end
                             end).
Proof.
  intros W s. pose proof (nrows_nonneg m). destruct (sanitize_labels_ok given (nrows m)) as [L H1]; auto.
  repeat split; auto; apply W.
Qed.

Section S.
Context {A : Type}.
Variable O : ops A.

Definition meaning' (p : operator) : A -> A -> A :=
  match p with
  | OpAdd => o_add O | OpSub => o_sub O | OpMul => o_mul O
  | OpDiv => o_div O | OpPow => o_pow O | OpMod => o_mod O
  end.

Definition alone' (p : operator) (y : A) : A :=
  match p with
  | OpSub => o_sub O (o_zero O) y
  | OpDiv => o_div O (o_one O) y
  | OpAdd | OpMul | OpPow | OpMod => y
  end.

Lemma signal_op_ok (junk : Z -> Z -> A) (p : operator) (a b : signal A) :
  wf_signal a -> wf_signal b -> 1 <= count a -> 1 <= count b ->
  exists r, signal_op O junk p a b = Ok r /\ wf_signal r /\
    sampling_rate r = sampling_rate a /\
    count r = Z.max (count a) (count b) /\
    begins r = Z.min (begins a) (begins b) /\
    ends r = Z.max (ends a) (ends b) /\
    (forall c, 0 <= c < count r -> zth (labels r) c = Some (label_of_result p)) /\
    forall c t, 0 <= c < count r -> begins r <= t < ends r ->
      at_time r c t =
      Some (combination (meaning' p) (alone' p) (o_zero O) (operand_at a c t) (operand_at b c t)).
Proof.
  intros Wa Wb Ca Cb. unfold signal_op.
  destruct (algebra_signal_ok O junk (op_function O p) (op_pivot O p) (op_label p) a b)
    as (r & E & W & R1 & R2 & R3 & R4 & R5 & R6); auto.
  exists r. split; [exact E|]. split; [exact W|]. do 4 (split; [assumption|]). split.
  - intros c Hc. rewrite R5, zth_repeat. replace (_ && _) with true by lia. destruct p; reflexivity.
  - intros c t Hc Ht. rewrite R6 by auto. destruct p; reflexivity.
Qed.

Lemma signal_op_comm (junk junk' : Z -> Z -> A) (p : operator) (a b : signal A) :
  p = OpAdd \/ p = OpMul -> (forall x y, meaning' p x y = meaning' p y x) ->
  wf_signal a -> wf_signal b -> 1 <= count a -> 1 <= count b ->
  exists r r', signal_op O junk p a b = Ok r /\ signal_op O junk' p b a = Ok r' /\
    same_samples r r' /\ labels r = labels r' /\ (sampling_rate a = sampling_rate b -> r = r').
Proof.
  intros P F Wa Wb Ca Cb.
  destruct (algebra_signal_ok O junk (op_function O p) (op_pivot O p) (op_label p) a b)
    as (r & E & W & R1 & R2 & R3 & R4 & R5 & R6); auto.
  destruct (algebra_signal_ok O junk' (op_function O p) (op_pivot O p) (op_label p) b a)
    as (q & E' & W' & Q1 & Q2 & Q3 & Q4 & Q5 & Q6); auto.
  exists r, q. split; [exact E|]. split; [exact E'|].
  assert (SS : same_samples r q).
  { apply same_samples_of; auto; try lia. intros c t Hc Ht. rewrite R6, Q6 by lia. f_equal.
    assert (X : forall x y, op_function O p x y = op_function O p y x) by (destruct p; exact F).
    assert (Y : forall x, right_only (op_function O p) (op_pivot O p) x = x) by (destruct P; subst p; reflexivity).
    destruct (operand_at a c t), (operand_at b c t); cbn [combination]; auto. }
  assert (LL : labels r = labels q) by (rewrite R5, Q5; f_equal; lia).
  split; [exact SS|]. split; [exact LL|].
  intros RR. destruct SS as (S1 & S2 & S3 & S4).
  apply signal_ext; auto; try congruence.
  - unfold begins, ends in *. lia.
  - intros c j Hc Hj. rewrite <- (at_time_el r), S4. unfold at_time. f_equal. unfold begins in *. lia.
Qed.

Lemma signal_op_array_ok junk (p : operator) (s : signal A) (x : arr A) : wf_signal s ->
  wf x -> nrows x = count s \/ nrows x = 1 -> cols x = length s \/ cols x = 1 ->
  exists r r', signal_op_array O junk p s x = Ok r /\ signal_op_array_right O junk p s x = Ok r' /\
    (forall q, q = r \/ q = r' ->
       wf_signal q /\ sampling_rate q = sampling_rate s /\ labels q = labels s /\ count q = count s /\
       begins q = begins s /\ ends q = ends s) /\
    forall c j, 0 <= c < count s -> 0 <= j < length s ->
      exists a b, at_time s c (begins s + j) = Some a /\
        el x (if nrows x =? 1 then 0 else c) (if cols x =? 1 then 0 else j) = Some b /\
        at_time r c (begins s + j) = Some (meaning' p a b) /\
        at_time r' c (begins s + j) = Some (meaning' p b a).
Proof.
  intros Ws Wx H1 H2. unfold signal_op_array, signal_op_array_right.
  destruct (algebra_array_ok junk (op_function O p) s x) as (r & E & W & R1 & R2 & R3 & R4 & R5 & R6); auto.
  destruct (algebra_array_right_ok junk (op_function O p) s x) as (q & E' & W' & Q1 & Q2 & Q3 & Q4 & Q5 & Q6); auto.
  exists r, q. split; [exact E|]. split; [exact E'|]. split.
  - intros z [E0|E0]; rewrite E0; clear E0; unfold begins, ends; repeat split; auto; try apply W; try apply W'; lia.
  - intros c j Hc Hj. rewrite R6, Q6. unfold begins. replace (offset s + j - offset s) with j by lia.
    rewrite at_time_el.
    destruct (el_in (channels s) c j) as [a Ea]; [apply Ws|fold (count s); lia|fold (length s); lia|].
    destruct (el_in x (if nrows x =? 1 then 0 else c) (if cols x =? 1 then 0 else j)) as [b Eb];
      [auto|destruct (Z.eqb_spec (nrows x) 1); lia|destruct (Z.eqb_spec (cols x) 1); lia|].
    rewrite Ea, Eb. exists a, b. destruct p; auto.
Qed.

Lemma signal_op_number junk (p : operator) (s : signal A) (x : A) : wf_signal s ->
  exists r r', signal_op_array O junk p s (scalar x) = Ok r /\ signal_op_array_right O junk p s (scalar x) = Ok r' /\
    (forall q, q = r \/ q = r' ->
       wf_signal q /\ sampling_rate q = sampling_rate s /\ labels q = labels s /\ count q = count s /\
       begins q = begins s /\ ends q = ends s) /\
    forall c t,
      at_time r c t = option_map (fun a => meaning' p a x) (at_time s c t) /\
      at_time r' c t = option_map (fun a => meaning' p x a) (at_time s c t).
Proof.
  intros Ws. unfold signal_op_array, signal_op_array_right.
  destruct (algebra_array_ok junk (op_function O p) s (scalar x)) as (r & E & W & R1 & R2 & R3 & R4 & R5 & R6);
    auto using wf_scalar.
  destruct (algebra_array_right_ok junk (op_function O p) s (scalar x)) as (q & E' & W' & Q1 & Q2 & Q3 & Q4 & Q5 & Q6);
    auto using wf_scalar.
  exists r, q. split; [exact E|]. split; [exact E'|]. split.
  - intros z [E0|E0]; rewrite E0; clear E0; unfold begins, ends; repeat split; auto; try apply W; try apply W'; lia.
  - intros c t. rewrite R6, Q6. change (el (scalar x) _ _) with (Some x).
    destruct (at_time s c t); destruct p; auto.
Qed.

Lemma signal_unary (s : signal A) : wf_signal s ->
  forall q f, (q = signal_neg O s /\ f = o_neg O) \/ (q = signal_abs O s /\ f = o_abs O) ->
    wf_signal q /\ sampling_rate q = sampling_rate s /\ labels q = labels s /\ count q = count s /\
    begins q = begins s /\ ends q = ends s /\
    forall c t, at_time q c t = option_map f (at_time s c t).
Proof.
  intros Ws q f H.
  assert (E : q = mk_signal (ufunc1 f (channels s)) (sampling_rate s) (offset s) (Some (labels s)))
    by (destruct H as [[-> ->]|[-> ->]]; reflexivity).
  subst q. unfold begins, ends, at_time, count, length. cbn [channels offset sampling_rate mk_signal].
  split; [apply mk_signal_wf, ufunc1_wf, Ws|].
  repeat split; auto.
  - apply sanitize_same. rewrite nrows_ufunc1. apply Ws.
  - apply nrows_ufunc1.
  - intros c t. apply el_ufunc1.
Qed.

Lemma getitem_float_bounds (s : signal A) (x y : Q) (cb tb : option num) :
  0 < count s -> 0 < length s -> (0 <= x)%Q -> (0 <= y)%Q ->
  signal_getitem s (KTuple [KSlice (Some (NFloat x)) cb None; KSlice (Some (NFloat y)) tb None]) =
  signal_getitem s (KTuple [KSlice (Some (NInt (py_round (x * inject_Z (count s))))) cb None;
                            KSlice (Some (NInt (py_round (y * inject_Z (length s))))) tb None]) /\
  signal_getitem s (KTuple [KSlice None (Some (NFloat x)) None; KSlice None (Some (NFloat y)) None]) =
  signal_getitem s (KTuple [KSlice None (Some (NInt (py_round (x * inject_Z (count s))))) None;
                            KSlice None (Some (NInt (py_round (y * inject_Z (length s))))) None]).
Proof.
  intros Hc Hl Hx Hy.
  assert (P : forall (q : Q) n, 0 < n -> (0 <= q)%Q -> index (NFloat q) n = Ok (py_round (q * inject_Z n))).
  { intros q n N Hq. rewrite index_float by auto. cbn zeta.
    assert (0 <= py_round (q * inject_Z n)).
    { assert (HQ : (0 <= q * inject_Z n)%Q).
      { apply Qmult_le_0_compat; auto. unfold Qle, inject_Z; cbn [Qnum Qden]; lia. }
      pose proof (py_round_near (q * inject_Z n)) as [_ H].
      set (z := py_round _) in *. clearbody z.
      assert (K : (0 <= inject_Z (2 * z + 1))%Q).
      { eapply Qle_trans; [|exact H]. apply Qmult_le_0_compat; auto. unfold Qle; cbn; lia. }
      unfold Qle, inject_Z in K; cbn [Qnum Qden] in K. lia. }
    replace (_ <? 0) with false by lia. reflexivity. }
  unfold signal_getitem, keys_to_slices. cbn [map2 sequence key_to_slice slice_entry].
  rewrite !P by auto. split; reflexivity.
Qed.

Lemma getitem_integer (s : signal A) (i : Z) : wf_signal s ->
  (- count s <= i < count s -> i <> -1 ->
   exists r, signal_getitem s (KOne (KNum (NInt i))) = Ok r /\ wf_signal r /\
     sampling_rate r = sampling_rate s /\ begins r = begins s /\ ends r = ends s /\
     count r = 1 /\ zth (labels r) 0 = zth (labels s) (from_end i (count s)) /\
     forall t, at_time r 0 t = at_time s (from_end i (count s)) t) /\
  (- length s <= i < length s -> i <> -1 ->
   exists r, signal_getitem s (KTuple [KSlice None None None; KNum (NInt i)]) = Ok r /\ wf_signal r /\
     sampling_rate r = sampling_rate s /\ labels r = labels s /\ count r = count s /\
     begins r = begins s + from_end i (length s) /\ ends r = begins r + 1 /\
     forall c, at_time r c (begins r) = at_time s c (begins r)).
Proof.
  intros Ws. pose proof (wf_length s Ws) as Ls. pose proof (wf_count s) as Cs.
  assert (CNT : forall n, - n <= i < n -> i <> -1 -> slice_count (Slice (Some i) (Some (i + 1)) None) n = 1 /\
            slice_first (Slice (Some i) (Some (i + 1)) None) n = from_end i n).
  { intros n In I1. unfold slice_count, slice_first, slice_last, slice_step, adjust_bound, from_end. cbn [sl_start sl_stop sl_step].
    change (1 <? 0) with false. cbv iota. rewrite Z.div_1_r. split; zcases. }
  split; intros I I1.
  - destruct (CNT (count s)) as [K F]; auto.
    destruct (getitem_one_ok s (KNum (NInt i)) (Slice (Some i) (Some (i + 1)) None))
      as (r & E & W & R1 & R2 & R3 & R4 & R5 & R6); auto; [cbn; lia|].
    rewrite K, F in *. change (slice_step _) with 1 in *.
    exists r. split; [exact E|]. split; [exact W|]. split; [exact R1|].
    split; [unfold begins; lia|]. split; [unfold ends; lia|]. split; [exact R2|].
    split; [rewrite R5 by lia; f_equal; lia|].
    intros t. unfold at_time. rewrite R4.
    destruct ((0 <=? t - offset s) && (t - offset s <? length r)) eqn:B.
    + rewrite R6 by lia. f_equal; lia.
    + rewrite !el_out; auto; try apply Ws; try apply W; unfold length in *; lia.
  - destruct (CNT (length s)) as [K F]; auto.
    destruct (getitem_ok s (KSlice None None None) (KNum (NInt i)) (Slice None None None) (Slice (Some i) (Some (i + 1)) None))
      as (r & E & W & R1 & R2 & R3 & R4 & R5 & R6); auto; try (cbn; lia).
    rewrite K, F in *. rewrite slice_count_all in R2 by auto.
    change (slice_step _) with 1 in *. change (slice_first (Slice None None None) (count s)) with 0 in *. cbn [sl_start] in R4.
    exists r. split; [exact E|]. split; [exact W|]. split; [exact R1|].
    split.
    { apply zth_ext_in; [pose proof (proj2 Ws); pose proof (proj2 W); unfold count in *; lia|].
      intros k Hk. rewrite R5 by (pose proof (proj2 W); unfold count in *; lia). f_equal; lia. }
    split; [exact R2|].
    split; [unfold begins, from_end; lia|]. split; [unfold ends, begins; lia|].
    intros c. unfold at_time, begins. replace (offset r - offset r) with 0 by lia.
    replace (offset r - offset s) with (from_end i (length s)) by (unfold from_end; lia).
    destruct ((0 <=? c) && (c <? count s)) eqn:B.
    + rewrite R6 by lia. f_equal; lia.
    + rewrite !el_out; auto; try apply Ws; try apply W; unfold count in *; lia.
Qed.

Lemma index_fraction (q : Q) n : 1 <= n -> (0 <= q)%Q -> (q <= 1)%Q ->
  let z := py_round (q * inject_Z (n - 1)) in
  index (NFloat q) (n - 1) = Ok z /\ nearest_integer (q * inject_Z (n - 1)) z /\ 0 <= z < n.
Proof.
  intros N H0 H1 z. pose proof (py_round_near (q * inject_Z (n - 1))) as [L U]. fold z in L, U.
  assert (Q0 : (0 <= inject_Z (n - 1))%Q) by (unfold Qle, inject_Z; cbn [Qnum Qden]; lia).
  assert (B0 : (0 <= q * inject_Z (n - 1))%Q) by (apply Qmult_le_0_compat; auto).
  assert (B1 : (q * inject_Z (n - 1) <= inject_Z (n - 1))%Q).
  { rewrite <- (Qmult_1_l (inject_Z (n - 1))) at 2. apply Qmult_le_compat_r; auto. }
  assert (Z0 : 0 <= z < n).
  { revert L U B0 B1. generalize (q * inject_Z (n - 1))%Q as x. clearbody z. intros [a b] L U B0 B1.
    unfold Qle, inject_Z, Qmult in *. cbn [Qnum Qden] in *. nia. }
  split; [|split; auto].
  - unfold index. fold z. rewrite index_loop_nonneg by lia. reflexivity.
  - unfold nearest_integer. revert L U. generalize (q * inject_Z (n - 1))%Q as x. clearbody z. intros [a b] L U.
    unfold Qle, Qminus, Qplus, Qopp, inject_Z, Qmult in *. cbn [Qnum Qden] in *. split; nia.
Qed.

Lemma getitem_float (s : signal A) (q : Q) : wf_signal s -> (0 <= q)%Q -> (q <= 1)%Q ->
  (1 <= count s ->
   exists r i, signal_getitem s (KOne (KNum (NFloat q))) = Ok r /\ wf_signal r /\
     nearest_integer (q * inject_Z (count s - 1)) i /\ 0 <= i < count s /\
     sampling_rate r = sampling_rate s /\ begins r = begins s /\ ends r = ends s /\
     count r = 1 /\ zth (labels r) 0 = zth (labels s) i /\
     forall t, at_time r 0 t = at_time s i t) /\
  (1 <= length s ->
   exists r i, signal_getitem s (KTuple [KSlice None None None; KNum (NFloat q)]) = Ok r /\ wf_signal r /\
     nearest_integer (q * inject_Z (length s - 1)) i /\ 0 <= i < length s /\
     sampling_rate r = sampling_rate s /\ labels r = labels s /\ count r = count s /\
     begins r = begins s + i /\ ends r = begins r + 1 /\
     forall c, at_time r c (begins r) = at_time s c (begins r)).
Proof.
  intros W Q0 Q1. split; intros N.
  - destruct (index_fraction q (count s) N Q0 Q1) as (E & NI & I).
    set (z := py_round (q * inject_Z (count s - 1))) in *.
    destruct (getitem_integer s z W) as [(r & Er & Wr & H) _]; [lia|lia|].
    exists r, z. split.
    { rewrite <- Er. unfold signal_getitem. cbn [key_to_slice]. rewrite E. reflexivity. }
    split; [auto|]. split; [auto|]. split; [auto|].
    replace (from_end z (count s)) with z in H by (unfold from_end; zcases). exact H.
  - destruct (index_fraction q (length s) N Q0 Q1) as (E & NI & I).
    set (z := py_round (q * inject_Z (length s - 1))) in *.
    destruct (getitem_integer s z W) as [_ (r & Er & Wr & H)]; [lia|lia|].
    exists r, z. split.
    { rewrite <- Er. unfold signal_getitem, keys_to_slices. cbn [map2 sequence key_to_slice slice_entry]. rewrite E. reflexivity. }
    split; [auto|]. split; [auto|]. split; [auto|].
    replace (from_end z (length s)) with z in H by (unfold from_end; zcases). exact H.
Qed.

Lemma getitem_last (s : signal A) : wf_signal s ->
  (exists r, signal_getitem s (KOne (KNum (NInt (-1)))) = Ok r /\ count r = 0) /\
  (exists r, signal_getitem s (KTuple [KSlice None None None; KNum (NInt (-1))]) = Ok r /\ length r = 0).
Proof.
  intros Ws. pose proof (wf_length s Ws) as Ls. pose proof (wf_count s) as Cs.
  assert (CNT : forall n, 0 <= n -> slice_count (Slice (Some (-1)) (Some (-1 + 1)) None) n = 0).
  { intros n N. unfold slice_count, slice_first, slice_last, slice_step, adjust_bound. cbn [sl_start sl_stop sl_step].
    change (1 <? 0) with false. cbv iota. zcases. }
  split.
  - destruct (getitem_one_ok s (KNum (NInt (-1))) (Slice (Some (-1)) (Some (-1 + 1)) None))
      as (r & E & W & R1 & R2 & R3 & R4 & R5 & R6); auto; [cbn; lia|].
    exists r. split; [exact E|]. rewrite R2. auto.
  - destruct (getitem_ok s (KSlice None None None) (KNum (NInt (-1))) (Slice None None None) (Slice (Some (-1)) (Some (-1 + 1)) None))
      as (r & E & W & R1 & R2 & R3 & R4 & R5 & R6); auto; try (cbn; lia).
    exists r. split; [exact E|]. rewrite R3. auto.
Qed.

Lemma pad_negative (junk : Z -> Z -> A) (s : signal A) (n : Z) (value : A) : wf_signal s -> n < 0 ->
  signal_pad junk s n value = Err ValueError.
Proof.
  intros Ws N. pose proof (wf_length s Ws) as Ls. unfold signal_pad.
  destruct (Z.eqb_spec n (length s)); [lia|]. unfold allocate. replace (_ || _) with true by lia. reflexivity.
Qed.

Lemma reversed_both (s : signal A) : wf_signal s ->
  exists r, signal_reversed s = Ok r /\ wf_signal r /\
    sampling_rate r = sampling_rate s /\ labels r = labels s /\ count r = count s /\ length r = length s /\
    (forall c j, el (channels r) c j = el (channels s) c (length s - 1 - j)) /\
    signal_reversed r = Ok s.
Proof.
  intros Ws. destruct (reversed_ok s Ws) as (r & E & Wr & R1 & R2 & R3 & R4 & R5 & R6).
  destruct (reversed_involutive s Ws) as (r' & E1 & E2). rewrite E in E1. injection E1 as <-.
  exists r. repeat split; auto; apply Wr.
Qed.

Lemma reversed_times (s r : signal A) : wf_signal s -> signal_reversed s = Ok r ->
  forall c t, at_time r c t = at_time s c (2 * (length s - 1) - t).
Proof.
  intros Ws E c t. destruct (reversed_ok s Ws) as (r' & E' & Wr & R1 & R2 & R3 & R4 & R5 & R6).
  rewrite E in E'. injection E' as <-. unfold at_time. rewrite R6, R5. f_equal. lia.
Qed.

Lemma signal_eqb_times (s o : signal A) : wf_signal s -> wf_signal o ->
  (signal_eqb O s o = true <->
   o_eqb O (sampling_rate s) (sampling_rate o) = true /\ begins s = begins o /\ ends s = ends o /\
   count s = count o /\ labels s = labels o /\
   forall c t x y, at_time s c t = Some x -> at_time o c t = Some y -> o_eqb O x y = true).
Proof.
  intros Ws Wo. rewrite signal_eqb_iff by auto. unfold begins, ends.
  split; intros (H1 & H2 & H3 & H4 & H5 & H6); (repeat split; auto; lia).
Qed.

Lemma signal_equivalence :
  (forall x, o_eqb O x x = true) -> (forall x y, o_eqb O x y = o_eqb O y x) ->
  (forall x y z, o_eqb O x y = true -> o_eqb O y z = true -> o_eqb O x z = true) ->
  forall a b c : signal A, wf_signal a -> wf_signal b -> wf_signal c ->
  signal_eqb O a a = true /\ signal_eqb O a b = signal_eqb O b a /\
  (signal_eqb O a b = true -> signal_eqb O b c = true -> signal_eqb O a c = true).
Proof.
  intros R S T a b c Wa Wb Wc. split; [now apply eqb_refl|]. split; [now apply eqb_sym|].
  intros. eapply eqb_trans; [..|eassumption|eassumption]; auto.
Qed.

Lemma signal_hash_equal H (hash_number : A -> H) hash_int hash_str hash_tuple (s o : signal A) :
  wf_signal s -> wf_signal o -> (forall x y, o_eqb O x y = true -> hash_number x = hash_number y) ->
  signal_eqb O s o = true ->
  signal_hash hash_number hash_int hash_str hash_tuple s = signal_hash hash_number hash_int hash_str hash_tuple o.
Proof. intros Ws Wo R. now apply signal_hash_eq. Qed.

End S.

Lemma index_int_ok z n : 0 < n ->
  exists r, index (NInt z) n = Ok r /\ 0 <= r /\ (0 <= z -> r = z) /\ (z < 0 -> r < n) /\ exists k, r = z + k * n.
Proof.
  intros N. rewrite index_int by auto. eexists. split; [reflexivity|].
  pose proof (Z.mod_pos_bound z n N). assert (n <> 0) as N0 by lia; pose proof (Z.div_mod z n N0).
  destruct (Z.ltb_spec z 0); repeat split; try lia.
  - exists (- (z / n)). lia.
  - exists 0. lia.
Qed.

Lemma index_float_ok q n : 0 < n ->
  exists z r, index (NFloat q) n = Ok r /\ 0 <= r /\ (0 <= z -> r = z) /\ (z < 0 -> r < n) /\ (exists k, r = z + k * n) /\
    (inject_Z (2 * z - 1) <= 2 * (q * inject_Z n) <= inject_Z (2 * z + 1))%Q /\
    ((2 * (q * inject_Z n) == inject_Z (2 * z - 1) \/ 2 * (q * inject_Z n) == inject_Z (2 * z + 1))%Q -> Z.even z = true).
Proof.
  intros N. exists (py_round (q * inject_Z n)).
  destruct (index_int_ok (py_round (q * inject_Z n)) n N) as (r & E & H).
  exists r. rewrite index_float by auto. rewrite index_int in E by auto.
  split; [exact E|]. destruct H as (H1 & H2 & H3 & H4). repeat split; auto.
  - apply py_round_near.
  - apply py_round_near.
  - apply py_round_tie.
Qed.

Lemma index_list_ok l n : 0 < n ->
  exists r, index_list l n = Ok r /\ zlen r = zlen l /\
    forall i x, zth l i = Some x -> exists y, zth r i = Some y /\ index x n = Ok y.
Proof.
  intros N. unfold index_list.
  set (g := fun x => match index x n with Ok y => y | Err _ => 0 end).
  assert (G : forall x, index x n = Ok (g x)).
  { intros x. unfold g. destruct x; [rewrite index_int by auto|rewrite index_float by auto]; reflexivity. }
  rewrite (sequence_map_ok _ g) by auto. eexists. split; [reflexivity|]. split; [apply zlen_map|].
  intros i x E. rewrite zth_map, E. eexists. split; [reflexivity|]. apply G.
Qed.

Lemma getitem_offset_refuted : exists (s r : signal Z) t, wf_signal s /\
  signal_getitem s (KTuple [KSlice None None None; KSlice (Some (NInt (-4))) None None]) = Ok r /\
  selected (Some (-4)) None (length s) (t - begins s) /\ at_time r 0 t <> at_time s 0 t.
Proof.
  exists demo_ab. eexists. exists (-1). split; [apply demo_ab_wf|]. split; [vm_compute; reflexivity|].
  split; [unfold selected, from_end; cbn; lia|]. vm_compute. discriminate.
Qed.

Lemma shift_cycle_refuted : exists (s r : signal Z) k c t, wf_signal s /\
  signal_shift Zops Zjunk s (Some k) SHIFT_CYCLE = Ok r /\ 0 <= c < count s /\ begins s <= t < ends s /\
  at_time r c t <> at_time s c (begins s + (t - begins s - k) mod length s).
Proof.
  exists demo_ab. eexists. exists 4, 0, 0. split; [apply demo_ab_wf|]. split; [vm_compute; reflexivity|].
  split; [vm_compute; intuition discriminate|]. split; [vm_compute; intuition discriminate|]. vm_compute. discriminate.
Qed.

Lemma shift_pad_refuted : exists (s r : signal Z) k c t x, wf_signal s /\
  signal_shift Zops Zjunk s (Some k) SHIFT_PAD = Ok r /\ at_time s c (t - k) = Some x /\ at_time r c t <> Some x /\
  begins r <= t < ends r.
Proof.
  exists demo_ab. eexists. exists (-1), 0, 0, 3. split; [apply demo_ab_wf|]. split; [vm_compute; reflexivity|].
  split; [reflexivity|]. split; [vm_compute; discriminate|]. vm_compute. intuition discriminate.
Qed.

Lemma reversed_refuted : exists (s r : signal Z) c t, wf_signal s /\
  signal_reversed s = Ok r /\ at_time r c t <> at_time s c (- t).
Proof.
  exists demo_ab. eexists. exists 0, 0. split; [apply demo_ab_wf|]. split; [vm_compute; reflexivity|].
  vm_compute. discriminate.
Qed.
