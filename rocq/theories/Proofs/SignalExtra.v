(** Further consequences for signals: slices in terms of Spec/SliceSpec.v, cropping after
    padding, equality as an equivalence relation. *)

From Coq Require Import String ZArith QArith List Bool Lia ZifyBool.
From Verif.Model Require Import Py Numpy Functions Signal.
From Verif.Spec Require Import TimeSpec SliceSpec.
From Verif.Proofs Require Import PyFacts NumpyFacts SliceFacts SignalAlgebra SignalShape.
Import ListNotations.
Open Scope Z_scope.

Definition the_step (k : option Z) : Z := match k with Some k => k | None => 1 end.

Lemma slice_first_pos a b k n : 0 < the_step k -> 0 <= n ->
  slice_first (Slice a b k) n = Z.min n (starts_at a n).
Proof.
  intros K N. unfold slice_first, slice_step, starts_at, from_end, adjust_bound. cbn [sl_start sl_stop sl_step]. fold (the_step k).
  destruct a; zcases.
Qed.

Lemma slice_count_pos a b k n i : 0 < the_step k -> 0 <= n -> 0 <= i ->
  (i < slice_count (Slice a b k) n <-> selected a b n (starts_at a n + i * the_step k)).
Proof.
  intros K N I. unfold slice_count. rewrite slice_first_pos by auto. unfold slice_step; cbn [sl_step]. fold (the_step k).
  replace (the_step k <? 0) with false by lia.
  assert (L : slice_last (Slice a b k) n = match b with Some j => Z.min n (Z.max 0 (from_end j n)) | None => n end).
  { unfold slice_last, slice_step, from_end, adjust_bound; cbn [sl_start sl_stop sl_step]. fold (the_step k). destruct b; zcases. }
  rewrite L. clear L. set (st := the_step k) in *. clearbody st.
  assert (P : 0 <= i * st) by nia.
  assert (D : forall f l, f < l -> (i < (l - f - 1) / st + 1 <-> f + i * st < l)).
  { intros f l FL. split; intros H.
    - assert (i <= (l - f - 1) / st) as H1 by lia.
      pose proof (Z.mul_div_le (l - f - 1) st K). nia.
    - assert (i <= (l - f - 1) / st); [|lia]. apply Z.div_le_lower_bound; nia. }
  assert (S0 : 0 <= starts_at a n) by (unfold starts_at; destruct a; lia).
  assert (S1 : match a with Some j => from_end j n <= starts_at a n | None => True end) by (destruct a; cbn; lia).
  set (f := starts_at a n) in *. clearbody f. unfold selected.
  destruct (Z.ltb_spec (Z.min n f) (match b with Some j => Z.min n (Z.max 0 (from_end j n)) | None => n end)) as [Q|Q].
  - rewrite D by auto. rewrite Z.min_r in * by (destruct b; lia).
    destruct a, b; lia.
  - split; [lia|]. intros (H1 & H2 & H3). destruct b; lia.
Qed.

Section Extra.
Context {A : Type}.
Variable O : ops A.
Variable junk : Z -> Z -> A.
Implicit Types s o : signal A.

(** Slices with integer bounds and positive steps. *)
Lemma getitem_slices s ca cb ck ta tb tk :
  wf_signal s -> 0 < the_step ck -> 0 < the_step tk ->
  exists r, signal_getitem s (KTuple [KSlice (option_map NInt ca) (option_map NInt cb) (option_map NInt ck);
                                      KSlice (option_map NInt ta) (option_map NInt tb) (option_map NInt tk)]) = Ok r /\
    wf_signal r /\ sampling_rate r = sampling_rate s /\
    (forall i, 0 <= i -> (i < count r <-> selected ca cb (count s) (starts_at ca (count s) + i * the_step ck))) /\
    (forall j, 0 <= j -> (j < length r <-> selected ta tb (length s) (starts_at ta (length s) + j * the_step tk))) /\
    (forall i, 0 <= i < count r -> zth (labels r) i = zth (labels s) (starts_at ca (count s) + i * the_step ck)) /\
    (forall i j, 0 <= i < count r -> 0 <= j < length r ->
       el (channels r) i j = el (channels s) (starts_at ca (count s) + i * the_step ck)
                                             (starts_at ta (length s) + j * the_step tk)) /\
    (match ta with Some a => - length s <= a <= length s | None => True end ->
     offset r = offset s + starts_at ta (length s)).
Proof.
  intros Ws Kc Kt. pose proof (wf_length s Ws) as Ls. pose proof (wf_count s) as Cs.
  assert (E : forall a n, slice_entry (option_map NInt a) n = Ok a) by (intros [a|] n; reflexivity).
  destruct (getitem_ok s (KSlice (option_map NInt ca) (option_map NInt cb) (option_map NInt ck))
                         (KSlice (option_map NInt ta) (option_map NInt tb) (option_map NInt tk))
                         (Slice ca cb ck) (Slice ta tb tk)) as (r & Er & Wr & R1 & R2 & R3 & R4 & R5 & R6); auto.
  1,2: cbn [key_to_slice]; rewrite !E; reflexivity.
  1,2: unfold slice_step; cbn [sl_step]; fold (the_step ck); fold (the_step tk); lia.
  exists r. split; [exact Er|]. split; [exact Wr|]. split; [exact R1|].
  assert (C1 : forall i, 0 <= i -> (i < count r <-> selected ca cb (count s) (starts_at ca (count s) + i * the_step ck)))
    by (intros i I; rewrite R2; now apply slice_count_pos).
  assert (C2 : forall j, 0 <= j -> (j < length r <-> selected ta tb (length s) (starts_at ta (length s) + j * the_step tk)))
    by (intros j J; rewrite R3; now apply slice_count_pos).
  assert (F1 : 0 < count r -> slice_first (Slice ca cb ck) (count s) = starts_at ca (count s)).
  { intros P. rewrite slice_first_pos by auto. apply (C1 0) in P; [|lia]. destruct P as [P _]. lia. }
  assert (F2 : 0 < length r -> slice_first (Slice ta tb tk) (length s) = starts_at ta (length s)).
  { intros P. rewrite slice_first_pos by auto. apply (C2 0) in P; [|lia]. destruct P as [P _]. lia. }
  split; [exact C1|]. split; [exact C2|]. split; [|split].
  - intros i I. rewrite R5 by auto. rewrite F1 by lia. reflexivity.
  - intros i j I J. rewrite R6 by auto. rewrite F1, F2 by lia. reflexivity.
  - intros H. rewrite R4. cbn [sl_start]. unfold starts_at, from_end. destruct ta as [a|]; zcases.
Qed.

(** Float bounds are the same as the integer bounds that [index] computes. *)
Lemma getitem_floats s kc kt a b c d e f n m a' b' c' d' e' f' :
  kc = KSlice a b c -> kt = KSlice d e f -> n = count s -> m = length s ->
  slice_entry a n = Ok a' -> slice_entry b n = Ok b' -> slice_entry c n = Ok c' ->
  slice_entry d m = Ok d' -> slice_entry e m = Ok e' -> slice_entry f m = Ok f' ->
  signal_getitem s (KTuple [kc; kt]) =
  signal_getitem s (KTuple [KSlice (option_map NInt a') (option_map NInt b') (option_map NInt c');
                            KSlice (option_map NInt d') (option_map NInt e') (option_map NInt f')]).
Proof.
  intros -> -> -> -> Ea Eb Ec Ed Ee Ef.
  assert (E : forall a n, slice_entry (option_map NInt a) n = Ok a) by (intros [x|] n; reflexivity).
  unfold signal_getitem, keys_to_slices. cbn [map2 sequence key_to_slice].
  rewrite Ea, Eb, Ec, Ed, Ee, Ef, !E. reflexivity.
Qed.

(** Samples keep their times under slices with step one. *)
Lemma getitem_times s ca cb ta tb :
  wf_signal s -> match ta with Some a => - length s <= a <= length s | None => True end ->
  exists r, signal_getitem s (KTuple [KSlice (option_map NInt ca) (option_map NInt cb) None;
                                      KSlice (option_map NInt ta) (option_map NInt tb) None]) = Ok r /\
    wf_signal r /\ sampling_rate r = sampling_rate s /\
    forall i t, 0 <= i < count r ->
      selected ca cb (count s) (starts_at ca (count s) + i) /\
      zth (labels r) i = zth (labels s) (starts_at ca (count s) + i) /\
      (selected ta tb (length s) (t - begins s) ->
         at_time r i t = at_time s (starts_at ca (count s) + i) t) /\
      (~ selected ta tb (length s) (t - begins s) -> at_time r i t = None).
Proof.
  intros Ws H. pose proof (wf_length s Ws) as Ls. pose proof (wf_count s) as Cs.
  destruct (getitem_slices s ca cb None ta tb None) as (r & E & Wr & R1 & R2 & R3 & R4 & R5 & R6); auto; try (cbn; lia).
  specialize (R6 H). cbn [the_step] in *.
  exists r. split; [exact E|]. split; [exact Wr|]. split; [exact R1|]. intros i t Hi.
  split; [rewrite <- (Z.mul_1_r i); apply R2; lia|]. split; [|split].
  - intros. rewrite R4 by lia. f_equal. lia.
  - intros S. unfold at_time, begins in *.
    assert (J : 0 <= t - offset r).
    { rewrite R6. destruct S as (? & ? & ?). unfold starts_at, from_end in *. destruct ta; [|lia]. lia. }
    rewrite R5; auto.
    + f_equal; lia.
    + split; auto. apply R3; auto. replace (starts_at ta (length s) + (t - offset r) * 1) with (t - offset s) by lia. auto.
  - intros S. unfold at_time, begins in *. apply el_out; [apply Wr|].
    destruct (Z.lt_ge_cases (t - offset r) 0) as [G|G]; [lia|]. fold (length r).
    destruct (Z.lt_ge_cases (t - offset r) (length r)) as [L|L]; [|lia].
    exfalso. apply S. apply R3 in L; auto.
    replace (starts_at ta (length s) + (t - offset r) * 1) with (t - offset s) in L by lia. exact L.
Qed.

Lemma at_time_el s c j : at_time s c (offset s + j) = el (channels s) c j.
Proof. unfold at_time. f_equal. lia. Qed.

Lemma signal_ext s o : wf_signal s -> wf_signal o -> sampling_rate s = sampling_rate o -> offset s = offset o ->
  labels s = labels o -> count s = count o -> length s = length o ->
  (forall c j, 0 <= c < count s -> 0 <= j < length s -> el (channels s) c j = el (channels o) c j) -> s = o.
Proof.
  intros Ws Wo. destruct s as [cs rs os ls], o as [cq rq oq lq]. unfold count, length; cbn.
  intros -> -> -> N C H. f_equal. apply arr_ext; auto; [apply Ws|apply Wo].
Qed.

Lemma crop_after_pad s n v v' : wf_signal s -> length s <= n ->
  exists r, signal_pad junk s n v = Ok r /\ signal_pad junk r (length s) v' = Ok s.
Proof.
  intros Ws L. pose proof (wf_length s Ws) as Ls.
  destruct (pad_ok junk s n v) as (r & E & Wr & R1 & R2 & R3 & R4 & R5 & R6); auto; try lia.
  exists r. split; auto.
  destruct (pad_ok junk r (length s) v') as (q & E' & Wq & Q1 & Q2 & Q3 & Q4 & Q5 & Q6); auto.
  rewrite E'. f_equal. apply signal_ext; auto; try congruence.
  intros c j Hc Hj. rewrite <- at_time_el, Q2.
  rewrite Q6 by lia. rewrite R2, R6 by lia. rewrite at_time_el.
  destruct (el_in (channels s) c j) as [x X]; [apply Ws|fold (count s); lia|fold (length s); lia|].
  rewrite X. reflexivity.
Qed.

Lemma eqb_refl s : wf_signal s -> (forall x, o_eqb O x x = true) -> signal_eqb O s s = true.
Proof.
  intros Ws R. apply signal_eqb_iff; auto. repeat split; auto. intros c t x y -> [= <-]. apply R.
Qed.

Lemma eqb_sym s o : wf_signal s -> wf_signal o -> (forall x y, o_eqb O x y = o_eqb O y x) ->
  signal_eqb O s o = signal_eqb O o s.
Proof.
  intros Ws Wo R.
  assert (G : forall s o, wf_signal s -> wf_signal o -> signal_eqb O s o = true -> signal_eqb O o s = true).
  { clear s o Ws Wo. intros s o Ws Wo H. apply signal_eqb_iff in H; auto. apply signal_eqb_iff; auto.
    destruct H as (H1 & H2 & H3 & H4 & H5 & H6). repeat split; auto; [now rewrite R|].
    intros c t x y X Y. rewrite R. eauto. }
  destruct (signal_eqb O s o) eqn:E; [symmetry; auto|].
  destruct (signal_eqb O o s) eqn:E'; auto. apply G in E'; auto. congruence.
Qed.

Lemma eqb_trans s o q : wf_signal s -> wf_signal o -> wf_signal q ->
  (forall x y z, o_eqb O x y = true -> o_eqb O y z = true -> o_eqb O x z = true) ->
  signal_eqb O s o = true -> signal_eqb O o q = true -> signal_eqb O s q = true.
Proof.
  intros Ws Wo Wq T H H'. apply signal_eqb_iff in H; auto. apply signal_eqb_iff in H'; auto. apply signal_eqb_iff; auto.
  destruct H as (H1 & H2 & H3 & H4 & H5 & H6), H' as (H1' & H2' & H3' & H4' & H5' & H6').
  repeat split; try congruence; eauto.
  intros c t x z X Z. unfold at_time in *.
  assert (R : exists y, el (channels o) c (t - offset o) = Some y).
  { apply el_range in X as [R1 R2]; [|apply Ws]. apply el_in; [apply Wo|unfold count in *; lia|unfold length in *; lia]. }
  destruct R as [y Y]. eauto.
Qed.

End Extra.
