(** Slicing, padding, shifting, reversing and comparing signals: proofs for C05, C06, C08 - C11. *)

From Coq Require Import String ZArith QArith Qround List Bool Lia ZifyBool.
From Verif.Model Require Import Py Numpy Functions Signal.
From Verif.Spec Require Import TimeSpec.
From Verif.Proofs Require Import PyFacts NumpyFacts SliceFacts SignalAlgebra.
Import ListNotations.
Open Scope Z_scope.

Lemma sequence_map_ok {A B} (f : A -> result B) (g : A -> B) l :
  (forall a, In a l -> f a = Ok (g a)) -> sequence (map f l) = Ok (map g l).
Proof.
  induction l as [|a l IH]; intros H; cbn; auto.
  rewrite (H a) by (left; auto). cbn. rewrite IH; auto. intros; apply H; now right.
Qed.

Ltac bnd := rewrite ?lower_everything, ?upper_everything, ?lower_between, ?upper_between, ?lower_from, ?upper_from by lia.
Ltac bnd_in H := rewrite ?lower_everything, ?upper_everything, ?lower_between, ?upper_between, ?lower_from, ?upper_from in H by lia.

Section Shape.
Context {A : Type}.
Variable O : ops A.
Variable junk : Z -> Z -> A.
Implicit Types s o : signal A.

(** ** Slicing *)

Lemma channels_slice_ok (m : arr A) c t : wf m -> slice_step c <> 0 -> slice_step t <> 0 ->
  exists m', channels_slice m c t = Ok m' /\ wf m' /\ nrows m' = slice_count c (nrows m) /\ cols m' = slice_count t (cols m) /\
    forall i j, el m' i j =
      if (0 <=? i) && (i <? slice_count c (nrows m)) && (0 <=? j) && (j <? slice_count t (cols m))
      then el m (slice_first c (nrows m) + i * slice_step c) (slice_first t (cols m) + j * slice_step t) else None.
Proof.
  intros W Sc St. unfold channels_slice.
  destruct (getslice_ok (rows m) c Sc) as (r & -> & Lr & Hr). cbn [bind]. fold (nrows m) in *.
  set (g := fun x : list A => pick x (slice_positions t (zlen x))).
  rewrite (sequence_map_ok _ g).
  2:{ intros a _. unfold getslice. destruct (Z.eqb_spec (slice_step t) 0); [lia|reflexivity]. }
  cbn [bind]. destruct (Z.eqb_spec (slice_step t) 0); [lia|].
  eexists. split; [reflexivity|].
  assert (G : forall x, zlen x = cols m -> zlen (g x) = slice_count t (cols m) /\
     forall j, zth (g x) j = if (0 <=? j) && (j <? slice_count t (cols m)) then zth x (slice_first t (cols m) + j * slice_step t) else None).
  { intros x <-. destruct (getslice_ok x t St) as (y & E & L & H). unfold getslice in E.
    destruct (Z.eqb_spec (slice_step t) 0); [lia|]. injection E as E. subst y. auto. }
  assert (WR : forall i x, zth r i = Some x -> zlen x = cols m).
  { intros i x E. rewrite Hr in E. destruct (_ && _); [|discriminate]. eapply wf_zlen; eauto. }
  split; [|split; [|split; [reflexivity|]]].
  - split; cbn [rows cols]; [now apply slice_count_nonneg|].
    apply Forall_zth. intros i x. rewrite zth_map. destruct (zth r i) eqn:E; [|discriminate].
    cbn. intros [= <-]. apply G. eauto.
  - unfold nrows; cbn [rows]. rewrite zlen_map. exact Lr.
  - intros i j. unfold el; cbn [rows]. rewrite zth_map, Hr.
    destruct ((0 <=? i) && (i <? slice_count c (nrows m))) eqn:R; cbn [andb option_map]; auto.
    destruct (zth (rows m) _) as [x|] eqn:E; cbn [option_map].
    + apply G. eapply wf_zlen; eauto.
    + match goal with |- context [if ?b then _ else _] => destruct b end; reflexivity.
Qed.

(** What [signal[kc, kt]] contains, for any kinds of keys. *)
Lemma getitem_ok s kc kt sc st :
  wf_signal s -> key_to_slice kc (count s) = Ok sc -> key_to_slice kt (length s) = Ok st ->
  slice_step sc <> 0 -> slice_step st <> 0 ->
  exists r, signal_getitem s (KTuple [kc; kt]) = Ok r /\ wf_signal r /\
    sampling_rate r = sampling_rate s /\
    count r = slice_count sc (count s) /\ length r = slice_count st (length s) /\
    offset r = offset s + (match sl_start st with None => 0 | Some i => if i <? 0 then length s + i else i end) /\
    (forall i, 0 <= i < count r -> zth (labels r) i = zth (labels s) (slice_first sc (count s) + i * slice_step sc)) /\
    (forall i j, 0 <= i < count r -> 0 <= j < length r ->
       el (channels r) i j = el (channels s) (slice_first sc (count s) + i * slice_step sc)
                                             (slice_first st (length s) + j * slice_step st)).
Proof.
  intros [W WL] Kc Kt Sc St. unfold signal_getitem, keys_to_slices. cbn [map2 sequence bind].
  rewrite Kc, Kt. cbn [bind getitem]. 
  destruct (channels_slice_ok (channels s) sc st W Sc St) as (m & E & Wm & Nm & Cm & Hm).
  destruct (getslice_ok (labels s) sc Sc) as (l & El & Ll & Hl).
  change (getitem [sc; st] 1) with (Ok st). change (getitem [sc; st] 0) with (Ok sc). cbn [bind].
  rewrite E. cbn [bind]. rewrite El. cbn [bind].
  eexists. split; [reflexivity|]. rewrite WL in *.
  split; [now apply mk_signal_wf|]. unfold count, length in *. cbn [channels sampling_rate offset labels mk_signal].
  rewrite sanitize_same by lia. rewrite Nm, Cm.
  repeat split; auto.
  - destruct (sl_start st) as [i|]; [|lia]. destruct (Z.eqb_spec i 0); [subst; cbn; lia|]. destruct (i <? 0); lia.
  - intros i I. rewrite Hl. replace (_ && _) with true by lia. reflexivity.
  - intros i j I J. rewrite Hm. replace (_ && _) with true by lia. reflexivity.
Qed.

Lemma getitem_one_ok s kc sc :
  wf_signal s -> key_to_slice kc (count s) = Ok sc -> slice_step sc <> 0 ->
  exists r, signal_getitem s (KOne kc) = Ok r /\ wf_signal r /\
    sampling_rate r = sampling_rate s /\
    count r = slice_count sc (count s) /\ length r = length s /\ offset r = offset s /\
    (forall i, 0 <= i < count r -> zth (labels r) i = zth (labels s) (slice_first sc (count s) + i * slice_step sc)) /\
    (forall i j, 0 <= i < count r -> 0 <= j < length r ->
       el (channels r) i j = el (channels s) (slice_first sc (count s) + i * slice_step sc) j).
Proof.
  intros [W WL] Kc Sc. unfold signal_getitem. rewrite Kc. cbn [bind].
  destruct (channels_slice_ok (channels s) sc (Slice None None None) W Sc) as (m & E & Wm & Nm & Cm & Hm); [cbn; lia|].
  destruct (getslice_ok (labels s) sc Sc) as (l & El & Ll & Hl).
  rewrite E. cbn [bind]. rewrite El. cbn [bind].
  eexists. split; [reflexivity|]. rewrite WL in *.
  split; [now apply mk_signal_wf|]. unfold count, length in *. cbn [channels sampling_rate offset labels mk_signal].
  assert (Hc : 0 <= cols (channels s)) by apply W.
  rewrite slice_count_one in * by auto. fold everything in *. rewrite upper_everything, lower_everything, Z.sub_0_r in * by auto.
  rewrite sanitize_same by lia. rewrite Nm, Cm.
  repeat split; auto.
  - intros i I. rewrite Hl. replace (_ && _) with true by lia. reflexivity.
  - intros i j I J. rewrite Hm. replace (_ && _) with true by lia.
    f_equal. unfold slice_step, slice_first; cbn. lia.
Qed.

(** ** Padding *)

Lemma pad_ok s len value : wf_signal s -> 0 <= len ->
  exists r, signal_pad junk s len value = Ok r /\ wf_signal r /\
    sampling_rate r = sampling_rate s /\ offset r = offset s /\ labels r = labels s /\
    count r = count s /\ length r = len /\
    forall c t, 0 <= c < count s -> offset s <= t < offset s + len ->
      at_time r c t = Some (match at_time s c t with Some x => x | None => value end).
Proof.
  intros Ws L. pose proof (wf_length s Ws) as Ls. pose proof (wf_count s) as Cs.
  unfold signal_pad. destruct (Z.eqb_spec len (length s)) as [->|NE].
  - exists s. repeat split; auto; try apply Ws. intros c t Hc Ht.
    destruct (in_span s c t) as [x X]; auto; try lia.
    rewrite operand_same in X by auto. now rewrite X.
  - destruct (allocate_ok junk (count s) len) as (m0 & -> & W0 & N0 & C0); auto. cbn [bind].
    assert (HH : exists m, (if len <? length s
         then set_block m0 everything everything (block (channels s) everything (between 0 len))
         else m <- set_block m0 everything (between 0 (length s)) (channels s);;
           set_block m everything (from (length s)) (scalar value)) = Ok m /\ wf m /\ nrows m = count s /\ cols m = len /\
         forall i j, 0 <= i < count s -> 0 <= j < len -> el m i j = Some (match el (channels s) i j with Some x => x | None => value end)).
    { destruct (Z.ltb_spec len (length s)).
      - destruct (set_block_ok m0 everything everything (block (channels s) everything (between 0 len)))
          as (m & E & W & N & C & H1); auto; try (apply wf_block; apply Ws);
          rewrite ?nrows_block, ?cols_block; fold (count s) (length s); bnd; try lia.
        exists m. repeat split; auto; try apply W; try lia. intros i j I J. rewrite H1. bnd.
        replace (_ && _) with true by lia. rewrite el_block by apply Ws.
        rewrite nrows_block, cols_block. fold (count s) (length s). bnd.
        replace (_ && _) with true by zcases.
        destruct (el_in (channels s) i j) as [x X]; [apply Ws|unfold count in *; lia|unfold length in *; lia|].
        rewrite X, <- X. f_equal; zcases.
      - destruct (set_block_ok m0 everything (between 0 (length s)) (channels s)) as (m & -> & W & N & C & H1); auto;
          try apply Ws; fold (count s) (length s); bnd; try lia. cbn [bind].
        destruct (set_scalar_ok m everything (from (length s)) value) as (m' & E & W' & N' & C' & H2); auto.
        exists m'. repeat split; auto; try apply W'; try lia. intros i j I J. rewrite H2, H1. bnd.
        destruct (Z.lt_ge_cases j (length s)).
        + replace (_ && _) with false by lia. replace (_ && _) with true by lia. fold (count s) (length s).
          destruct (el_in (channels s) i j) as [x X]; [apply Ws|unfold count in *; lia|unfold length in *; lia|].
          rewrite X, <- X. f_equal; zcases.
        + replace (_ && _) with true by lia. rewrite el_out; auto; [apply Ws|unfold length in *; lia]. }
    destruct HH as (m & -> & W & N & C & H). cbn [bind]. eexists. split; [reflexivity|].
    split; [now apply mk_signal_wf|]. unfold count, length, at_time; cbn [channels sampling_rate offset labels mk_signal].
    repeat split; auto.
    + apply sanitize_same. rewrite N. apply Ws.
    + intros c t Hc Ht. apply H; unfold count; lia.
Qed.

(** ** Shifting *)

(** Blocks of NumPy with possibly negative or too large bounds. *)
Lemma lower_between_neg a b len : 0 <= len -> a < 0 -> lower (between a b) len = Z.max 0 (a + len).
Proof. unfold_bounds; intros; zcases. Qed.
Lemma lower_from_neg a len : 0 <= len -> a < 0 -> lower (from a) len = Z.max 0 (a + len).
Proof. unfold_bounds; intros; zcases. Qed.
Lemma upper_from_neg a len : 0 <= len -> a < 0 -> upper (from a) len = len.
Proof. unfold_bounds; intros; zcases. Qed.
Lemma lower_from_pos a len : 0 <= len -> 0 <= a -> lower (from a) len = Z.min a len.
Proof. unfold_bounds; intros; zcases. Qed.
Lemma upper_from_pos a len : 0 <= len -> 0 <= a -> upper (from a) len = len.
Proof. unfold_bounds; intros; zcases. Qed.
Lemma lower_zero b len : 0 <= len -> lower (between 0 b) len = 0.
Proof. unfold_bounds; intros; zcases. Qed.
Lemma upper_zero_neg b len : 0 <= len -> b < 0 -> upper (between 0 b) len = Z.max 0 (b + len).
Proof. unfold_bounds; intros; zcases. Qed.
Lemma upper_zero_pos b len : 0 <= len -> 0 <= b -> upper (between 0 b) len = Z.min b len.
Proof. unfold_bounds; intros; zcases. Qed.

Ltac sb := rewrite ?lower_everything, ?upper_everything, ?lower_zero, ?lower_from_neg, ?upper_from_neg,
  ?lower_from_pos, ?upper_from_pos, ?upper_zero_neg, ?upper_zero_pos by lia.

Ltac iftrue := match goal with |- (if ?b then _ else _) = _ => replace b with true by lia end.
Ltac iffalse := match goal with |- (if ?b then _ else _) = _ => replace b with false by lia end.

Lemma shift_crop_ok s k : wf_signal s ->
  exists r, signal_shift O junk s (Some k) SHIFT_CROP = Ok r /\ wf_signal r /\
    sampling_rate r = sampling_rate s /\ offset r = offset s /\ labels r = labels s /\
    count r = count s /\ length r = length s /\
    forall c t, 0 <= c < count s -> begins s <= t < ends s ->
      at_time r c t = Some (match at_time s c (t - k) with Some x => x | None => o_zero O end).
Proof.
  intros Ws. pose proof (wf_length s Ws) as Ls. pose proof (wf_count s) as Cs.
  unfold signal_shift. destruct k as [|p|p].
  { exists s. repeat split; auto; try apply Ws. intros c t Hc Ht.
    destruct (in_span s c t) as [x X]; auto; try (unfold begins, ends in *; lia).
    rewrite operand_same in X by auto. rewrite Z.sub_0_r. now rewrite X. }
  all: set (k := _ p); assert (KS : k < 0 \/ k > 0) by (subst k; lia); clearbody k; clear p.
  all: destruct (allocate_ok junk (count s) (length s)) as (m0 & -> & W0 & N0 & C0); auto; cbn [bind].
  all: assert (HH : exists m, (if k <? 0
      then m <- set_block m0 everything (between 0 k) (block (channels s) everything (from (- k)));;
           set_block m everything (from k) (scalar (o_zero O))
      else m <- set_block m0 everything (between 0 k) (scalar (o_zero O));;
           set_block m everything (from k) (block (channels s) everything (between 0 (- k)))) = Ok m /\ wf m /\ nrows m = count s /\ cols m = length s /\
         forall i j, 0 <= i < count s -> 0 <= j < length s ->
            el m i j = Some (match el (channels s) i (j - k) with Some x => x | None => o_zero O end)).
  all: try (destruct HH as (m & -> & W & N & C & H); cbn [bind]; eexists; split; [reflexivity|];
    split; [now apply mk_signal_wf|]; unfold count, length, at_time; cbn [channels sampling_rate offset labels mk_signal];
    repeat split; auto;
    [ apply sanitize_same; rewrite N; apply Ws
    | intros c t Hc Ht; rewrite H; [|unfold count; lia|unfold begins, ends in Ht; lia];
      replace (t - offset s - k) with (t - k - offset s) by lia; reflexivity ]).
  all: destruct (Z.ltb_spec k 0);
    [ destruct (set_block_ok m0 everything (between 0 k) (block (channels s) everything (from (- k))))
        as (m1 & -> & W1 & N1 & C1 & H1); auto; try (apply wf_block; apply Ws);
        rewrite ?nrows_block, ?cols_block; fold (count s) (length s); sb; try lia; cbn [bind];
      destruct (set_scalar_ok m1 everything (from k) (o_zero O)) as (m2 & -> & W2 & N2 & C2 & H2); auto
    | destruct (set_scalar_ok m0 everything (between 0 k) (o_zero O)) as (m1 & -> & W1 & N1 & C1 & H1); auto; cbn [bind];
      destruct (set_block_ok m1 everything (from k) (block (channels s) everything (between 0 (- k))))
        as (m2 & -> & W2 & N2 & C2 & H2); auto; try (apply wf_block; apply Ws);
        rewrite ?nrows_block, ?cols_block; fold (count s) (length s); sb; try lia ].
  all: exists m2; repeat split; auto; try apply W2; try lia; intros i j I J;
    rewrite H2, H1, !el_block by apply Ws; rewrite ?nrows_block, ?cols_block;
    fold (count s) (length s); sb;
    destruct (Z.lt_ge_cases (j - k) 0);
    [| destruct (Z.lt_ge_cases (j - k) (length s))];
    [ rewrite (el_out (channels s) i (j - k)) by (try apply Ws; unfold count, length in *; lia)
    | destruct (el_in (channels s) i (j - k)) as [x X]; [apply Ws|unfold count in *; lia|unfold length in *; lia|]; rewrite X
    | rewrite (el_out (channels s) i (j - k)) by (try apply Ws; unfold count, length in *; lia) ];
    try lia.
  all: repeat (zcase; try lia); try reflexivity.
  all: rewrite <- X; f_equal; try lia; zcases.
Qed.

Lemma shift_pad_ok s k : wf_signal s -> 0 <= k ->
  exists r, signal_shift O junk s (Some k) SHIFT_PAD = Ok r /\ wf_signal r /\
    sampling_rate r = sampling_rate s /\ offset r = offset s /\ labels r = labels s /\
    count r = count s /\ length r = length s + k /\
    forall c t, 0 <= c < count s -> begins s <= t < ends s + k ->
      at_time r c t = Some (match at_time s c (t - k) with Some x => x | None => o_zero O end).
Proof.
  intros Ws K. pose proof (wf_length s Ws) as Ls. pose proof (wf_count s) as Cs.
  unfold signal_shift. destruct k as [|p|p]; [| |lia].
  { exists s. repeat split; auto; try apply Ws; try lia. intros c t Hc Ht.
    destruct (in_span s c t) as [x X]; auto; try (unfold begins, ends in *; lia).
    rewrite operand_same in X by auto. rewrite Z.sub_0_r. now rewrite X. }
  set (k := Z.pos p); assert (KS : k > 0) by (subst k; lia); clearbody k; clear p K.
  replace (Z.abs k) with k by lia.
  destruct (allocate_ok junk (count s) (length s + k)) as (m0 & -> & W0 & N0 & C0); auto; try lia; cbn [bind].
  replace (k <? 0) with false by lia.
  destruct (set_scalar_ok m0 everything (between 0 k) (o_zero O)) as (m1 & -> & W1 & N1 & C1 & H1); auto; cbn [bind].
  destruct (set_block_ok m1 everything (from k) (channels s)) as (m2 & -> & W2 & N2 & C2 & H2); auto;
    try apply Ws; fold (count s) (length s); bnd; try lia.
  cbn [bind]. eexists; split; [reflexivity|].
  split; [now apply mk_signal_wf|]. unfold count, length, at_time; cbn [channels sampling_rate offset labels mk_signal].
  repeat split; auto; try (unfold count, length in *; lia).
  - apply sanitize_same. rewrite N2, N1, N0. apply Ws.
  - intros c t Hc Ht. rewrite H2, H1. unfold begins, ends in Ht. fold (count s) (length s) in *. bnd.
    destruct (Z.lt_ge_cases (t - k) (offset s)).
    + rewrite (el_out (channels s) c (t - k - offset s)) by (try apply Ws; unfold length in *; lia).
      replace (_ && _) with false by lia. replace (_ && _) with true by lia. reflexivity.
    + destruct (el_in (channels s) c (t - k - offset s)) as [x X]; [apply Ws|unfold count in *; lia|unfold length in *; lia|].
      replace (_ && _) with true by lia. rewrite X, <- X. f_equal; zcases.
Qed.

(** What mode PAD does with a negative shift: zeros are appended, nothing is moved. *)
Lemma shift_pad_negative s k : wf_signal s -> k < 0 ->
  exists r, signal_shift O junk s (Some k) SHIFT_PAD = Ok r /\ wf_signal r /\
    sampling_rate r = sampling_rate s /\ offset r = offset s /\ labels r = labels s /\
    count r = count s /\ length r = length s - k /\
    forall c t, 0 <= c < count s -> begins s <= t < ends s - k ->
      at_time r c t = Some (match at_time s c t with Some x => x | None => o_zero O end).
Proof.
  intros Ws K. pose proof (wf_length s Ws) as Ls. pose proof (wf_count s) as Cs.
  unfold signal_shift. destruct k as [|p|p]; try lia.
  set (k := Z.neg p) in *; clearbody k; clear p.
  replace (Z.abs k) with (- k) by lia.
  destruct (allocate_ok junk (count s) (length s + - k)) as (m0 & -> & W0 & N0 & C0); auto; try lia; cbn [bind].
  replace (k <? 0) with true by lia.
  destruct (set_block_ok m0 everything (between 0 (length s)) (channels s)) as (m1 & -> & W1 & N1 & C1 & H1); auto;
    try apply Ws; fold (count s) (length s); bnd; try lia. cbn [bind].
  destruct (set_scalar_ok m1 everything (from (length s)) (o_zero O)) as (m2 & -> & W2 & N2 & C2 & H2); auto; cbn [bind].
  eexists; split; [reflexivity|].
  split; [now apply mk_signal_wf|]. unfold count, length, at_time; cbn [channels sampling_rate offset labels mk_signal].
  repeat split; auto; try (unfold count, length in *; lia).
  - apply sanitize_same. rewrite N2, N1, N0. apply Ws.
  - intros c t Hc Ht. rewrite H2, H1. unfold begins, ends in Ht. fold (count s) (length s) in *. bnd.
    destruct (Z.lt_ge_cases t (offset s + length s)).
    + destruct (el_in (channels s) c (t - offset s)) as [x X]; [apply Ws|unfold count in *; lia|unfold length in *; lia|].
      replace (_ && _) with false by lia. replace (_ && _) with true by lia. rewrite X, <- X. f_equal; zcases.
    + rewrite (el_out (channels s) c (t - offset s)) by (try apply Ws; unfold length in *; lia).
      replace (_ && _) with true by lia. reflexivity.
Qed.

Lemma shift_cycle_ok s k : wf_signal s ->
  exists r, signal_shift O junk s (Some k) SHIFT_CYCLE = Ok r /\ wf_signal r /\
    sampling_rate r = sampling_rate s /\ offset r = offset s /\ labels r = labels s /\
    count r = count s /\ length r = length s /\
    forall c t, 0 <= c < count s -> begins s <= t < ends s ->
      at_time r c t =
      if Z.abs k <=? length s then at_time s c (begins s + (t - begins s - k) mod length s)
      else at_time s c t.
Proof.
  intros Ws. pose proof (wf_length s Ws) as Ls. pose proof (wf_count s) as Cs.
  unfold signal_shift. destruct k as [|p|p].
  { exists s. repeat split; auto; try apply Ws. intros c t Hc Ht.
    replace (Z.abs 0 <=? length s) with true by lia.
    rewrite Z.mod_small by (unfold begins, ends in *; lia). f_equal. lia. }
  all: set (k := _ p); assert (KS : k < 0 \/ k > 0) by (subst k; lia); clearbody k; clear p.
  all: destruct (allocate_ok junk (count s) (length s)) as (m0 & -> & W0 & N0 & C0); auto; cbn [bind].
  all: remember (if k <? 0 then Z.max 0 (length s + k) else Z.min k (length s)) as u eqn:Hu;
    assert (B1 : lower (between 0 k) (length s) = 0) by (destruct KS; sb; lia);
    assert (B2 : upper (between 0 k) (length s) = u) by (subst u; destruct KS; sb; zcases);
    assert (B3 : lower (from (- k)) (length s) = length s - u) by (subst u; destruct KS; sb; zcases);
    assert (B4 : upper (from (- k)) (length s) = length s) by (destruct KS; sb; zcases);
    assert (B5 : lower (from k) (length s) = u) by (subst u; destruct KS; sb; zcases);
    assert (B6 : upper (from k) (length s) = length s) by (destruct KS; sb; zcases);
    assert (B7 : lower (between 0 (- k)) (length s) = 0) by (destruct KS; sb; zcases);
    assert (B8 : upper (between 0 (- k)) (length s) = length s - u) by (subst u; destruct KS; sb; zcases);
    assert (B9 : lower everything (count s) = 0 /\ upper everything (count s) = count s) by (bnd; lia);
    destruct B9 as [B9 B10];
    assert (Hu' : 0 <= u <= length s) by (subst u; zcases).
  all: destruct (set_block_ok m0 everything (between 0 k) (block (channels s) everything (from (- k))))
        as (m1 & -> & W1 & N1 & C1 & H1); auto; try (apply wf_block; apply Ws);
        rewrite ?nrows_block, ?cols_block, ?N0, ?C0; fold (count s) (length s);
        rewrite ?B1, ?B2, ?B3, ?B4, ?B9, ?B10; try lia; cbn [bind];
       destruct (set_block_ok m1 everything (from k) (block (channels s) everything (between 0 (- k))))
        as (m2 & -> & W2 & N2 & C2 & H2); auto; try (apply wf_block; apply Ws);
        rewrite ?nrows_block, ?cols_block, ?N1, ?C1, ?N0, ?C0; fold (count s) (length s);
        rewrite ?B5, ?B6, ?B7, ?B8, ?B9, ?B10; try lia; cbn [bind].
  all: eexists; split; [reflexivity|];
    split; [now apply mk_signal_wf|]; unfold count, length, at_time; cbn [channels sampling_rate offset labels mk_signal];
    repeat split; auto; try (unfold count, length in *; lia);
    [ apply sanitize_same; rewrite N2, N1, N0; apply Ws | ].
  all: intros c t Hc Ht; unfold begins, ends in *; fold (count s) (length s) in *;
    rewrite H2, H1, !el_block by apply Ws; rewrite ?nrows_block, ?cols_block, ?C1, ?C0, ?N1, ?N0; fold (count s) (length s);
    rewrite ?B1, ?B2, ?B3, ?B4, ?B5, ?B6, ?B7, ?B8, ?B9, ?B10; clear B1 B2 B3 B4 B5 B6 B7 B8 B9 B10 H1 H2.
  all: assert (M : Z.abs k <= length s -> (t - offset s - k) mod length s =
        if t - offset s - k <? 0 then t - offset s - k + length s
        else if t - offset s - k <? length s then t - offset s - k else t - offset s - k - length s)
     by (intros HK; destruct (Z.ltb_spec (t - offset s - k) 0);
         [ rewrite <- (Z.mod_add _ 1) by lia; rewrite Z.mod_small; lia
         | destruct (Z.ltb_spec (t - offset s - k) (length s));
           [ rewrite Z.mod_small; lia
           | rewrite <- (Z.mod_add _ (-1)) by lia; rewrite Z.mod_small; lia ]]).
  all: destruct (Z.ltb_spec (t - offset s) u);
    replace (if count s - 0 =? 1 then 0 else c - 0) with c by zcases;
    [ replace (if length s - (length s - u) =? 1 then 0 else t - offset s - 0) with (t - offset s) by zcases;
      iffalse; iftrue; iftrue
    | replace (if length s - u - 0 =? 1 then 0 else t - offset s - u) with (t - offset s - u) by zcases;
      iftrue; iftrue ].
  all: destruct (Z.leb_spec (Z.abs k) (length s)); (f_equal; [lia|]); [rewrite M by lia; clear M | clear M];
     subst u; zcases.
Qed.

Lemma shift_offset_ok s k : wf_signal s ->
  exists r, signal_shift O junk s (Some k) SHIFT_OFFSET = Ok r /\ wf_signal r /\
    sampling_rate r = sampling_rate s /\ labels r = labels s /\ count r = count s /\ length r = length s /\
    offset r = offset s + k /\
    forall c t, at_time r c t = at_time s c (t - k).
Proof.
  intros Ws.
  assert (G : forall k, exists r, Ok (mk_signal (channels s) (sampling_rate s) (offset s + k) (Some (labels s))) = Ok r /\ wf_signal r /\
    sampling_rate r = sampling_rate s /\ labels r = labels s /\ count r = count s /\ length r = length s /\
    offset r = offset s + k /\
    forall c t, at_time r c t = at_time s c (t - k)).
  { clear k. intros k. eexists. split; [reflexivity|]. split; [apply mk_signal_wf; apply Ws|].
    unfold at_time, count, length; cbn. repeat split; auto.
    - apply sanitize_same. apply Ws.
    - intros. f_equal. lia. }
  destruct k as [|p|p]; try apply G.
  exists s. repeat split; auto; try apply Ws; try lia. intros. unfold at_time. now rewrite Z.sub_0_r.
Qed.

Lemma shift_none_ok s : wf_signal s ->
  exists r, signal_shift O junk s None SHIFT_OFFSET = Ok r /\ wf_signal r /\
    sampling_rate r = sampling_rate s /\ labels r = labels s /\ channels r = channels s /\ offset r = 0.
Proof.
  intros Ws. eexists. split; [reflexivity|]. split; [apply mk_signal_wf; apply Ws|].
  repeat split; auto. cbn. apply sanitize_same. apply Ws.
Qed.

(** ** Reversing *)

Lemma slice_first_rev len : 0 <= len -> slice_first (Slice None None (Some (-1))) len = len - 1.
Proof. reflexivity. Qed.
Lemma slice_count_rev len : 0 <= len -> slice_count (Slice None None (Some (-1))) len = len.
Proof.
  intros. unfold slice_count, slice_first, slice_last, slice_step; cbn [sl_start sl_stop sl_step].
  change (-1 <? 0) with true. cbv iota. change (- -1) with 1. rewrite Z.div_1_r. zcases.
Qed.
Lemma slice_count_all len : 0 <= len -> slice_count (Slice None None None) len = len.
Proof. intros. rewrite slice_count_one by auto. fold everything. bnd. lia. Qed.

Lemma reversed_ok s : wf_signal s ->
  exists r, signal_reversed s = Ok r /\ wf_signal r /\
    sampling_rate r = sampling_rate s /\ labels r = labels s /\ count r = count s /\ length r = length s /\
    offset r = length s - offset s - 1 /\
    forall c j, el (channels r) c j = el (channels s) c (length s - 1 - j).
Proof.
  intros Ws. pose proof (wf_length s Ws) as Ls. pose proof (wf_count s) as Cs. unfold signal_reversed.
  destruct (channels_slice_ok (channels s) (Slice None None None) (Slice None None (Some (-1))))
    as (m & -> & W & N & C & H); [apply Ws|cbn; lia|cbn; lia|]. cbn [bind].
  fold (count s) (length s) in *. rewrite slice_count_rev, slice_count_all, slice_first_rev in * by auto.
  eexists. split; [reflexivity|]. split; [now apply mk_signal_wf|].
  unfold count, length; cbn [channels sampling_rate offset labels mk_signal]. repeat split; auto.
  - apply sanitize_same. rewrite N. apply Ws.
  - intros c j. rewrite H. fold (length s).
    destruct ((0 <=? c) && (c <? count s) && (0 <=? j) && (j <? length s)) eqn:E.
    + f_equal; cbn; lia.
    + symmetry. apply el_out; [apply Ws|unfold count, length in *; lia].
Qed.

Lemma reversed_involutive s : wf_signal s ->
  exists r, signal_reversed s = Ok r /\ signal_reversed r = Ok s.
Proof.
  intros Ws. destruct (reversed_ok s Ws) as (r & E & Wr & R1 & R2 & R3 & R4 & R5 & R6).
  exists r. split; auto. destruct (reversed_ok r Wr) as (q & E' & Wq & Q1 & Q2 & Q3 & Q4 & Q5 & Q6).
  rewrite E'. f_equal. destruct s as [cs rs os ls], q as [cq rq oq lq]. cbn in *.
  f_equal; [|congruence|lia|congruence].
  apply arr_ext; [apply Wq|apply Ws|unfold count in *; cbn in *; lia|unfold length in *; cbn in *; lia|].
  intros i j I J. rewrite Q6, R6. f_equal. lia.
Qed.

(** ** Comparison *)

Lemma labels_eqb_eq l : forall m, labels_eqb l m = true <-> l = m.
Proof.
  induction l as [|a l IH]; intros [|b m]; cbn; split; try discriminate; auto.
  - rewrite andb_true_iff, IH, String.eqb_eq. intros [-> ->]. auto.
  - intros [= -> ->]. rewrite andb_true_iff, IH, String.eqb_eq. auto.
Qed.

Lemma zth_combine {B C} (l : list B) : forall (m : list C) i,
  zth (combine l m) i = match zth l i, zth m i with Some a, Some b => Some (a, b) | _, _ => None end.
Proof.
  induction l as [|a l IH]; intros [|b m] i; cbn [combine].
  - rewrite !zth_nil. reflexivity.
  - rewrite !zth_nil. reflexivity.
  - rewrite !zth_nil. destruct (zth _ i); reflexivity.
  - rewrite zth_cons, zth_cons, zth_cons. destruct (i =? 0); auto.
Qed.

Lemma existsb_false_zth {B} (f : B -> bool) l : existsb f l = false <-> forall i a, zth l i = Some a -> f a = false.
Proof.
  split.
  - intros H i a E. destruct (f a) eqn:F; auto. rewrite <- H. symmetry. apply existsb_exists.
    exists a. split; auto. eapply zth_In; eauto.
  - intros H. destruct (existsb f l) eqn:E; auto. apply existsb_exists in E as (a & I & F).
    apply In_zth in I as [i I]. rewrite (H _ _ I) in F. discriminate.
Qed.

Lemma any_different_false (a b : arr A) : wf a -> wf b -> nrows a = nrows b -> cols a = cols b ->
  (any_different O a b = false <->
   forall i j x y, el a i j = Some x -> el b i j = Some y -> o_eqb O x y = true).
Proof.
  intros Wa Wb N C. unfold any_different. rewrite existsb_false_zth. split.
  - intros H i j x y X Y. unfold el in X, Y.
    destruct (zth (rows a) i) as [ra|] eqn:Ea; [|discriminate].
    destruct (zth (rows b) i) as [rb|] eqn:Eb; [|discriminate].
    specialize (H i (ra, rb)). rewrite zth_combine, Ea, Eb in H. specialize (H eq_refl). cbn in H.
    rewrite existsb_false_zth in H. specialize (H j (x, y)). rewrite zth_combine, X, Y in H.
    specialize (H eq_refl). cbn in H. now apply negb_false_iff.
  - intros H i [ra rb] E. rewrite zth_combine in E.
    destruct (zth (rows a) i) as [ra'|] eqn:Ea; [|discriminate].
    destruct (zth (rows b) i) as [rb'|] eqn:Eb; [|discriminate]. injection E as -> ->. cbn.
    rewrite existsb_false_zth. intros j [x y] F. rewrite zth_combine in F.
    destruct (zth ra j) eqn:X; [|discriminate]. destruct (zth rb j) eqn:Y; [|discriminate].
    injection F as -> ->. cbn. apply negb_false_iff. apply (H i j); unfold el; [now rewrite Ea|now rewrite Eb].
Qed.

Lemma signal_eqb_iff s o : wf_signal s -> wf_signal o ->
  (signal_eqb O s o = true <->
   o_eqb O (sampling_rate s) (sampling_rate o) = true /\ offset s = offset o /\
   count s = count o /\ length s = length o /\ labels s = labels o /\
   forall c t x y, at_time s c t = Some x -> at_time o c t = Some y -> o_eqb O x y = true).
Proof.
  intros Ws Wo. unfold signal_eqb, sampled_eqb. fold (count s) (count o) (length s) (length o).
  destruct (o_eqb O (sampling_rate s) (sampling_rate o)); cbn [negb];
    [|split; [discriminate|intros [H _]; discriminate]].
  destruct (Z.eqb_spec (offset s) (offset o)) as [E|E]; cbn [negb];
    [|split; [discriminate|intros (_ & H & _); congruence]].
  destruct (Z.eqb_spec (count s) (count o)) as [E1|E1]; cbn [negb andb];
    [|split; [discriminate|intros (_ & _ & H & _); congruence]].
  destruct (Z.eqb_spec (length s) (length o)) as [E2|E2]; cbn [negb andb];
    [|split; [discriminate|intros (_ & _ & _ & H & _); congruence]].
  pose proof (any_different_false (channels s) (channels o) (proj1 Ws) (proj1 Wo) E1 E2) as D.
  assert (X : (forall c t x y, at_time s c t = Some x -> at_time o c t = Some y -> o_eqb O x y = true) <->
              any_different O (channels s) (channels o) = false).
  { rewrite D. unfold at_time. rewrite <- E. split; intros H; [|eauto].
    intros i j x y. specialize (H i (j + offset s) x y). replace (j + offset s - offset s) with j in H by lia. auto. }
  pose proof (labels_eqb_eq (labels s) (labels o)) as L.
  destruct (any_different O (channels s) (channels o)) eqn:AD.
  - split; [discriminate|]. intros (_ & _ & _ & _ & _ & H). apply X in H. discriminate.
  - destruct (labels_eqb (labels s) (labels o)); cbn [negb].
    + split; auto. intros _. repeat split; auto; [now apply L|now apply X].
    + split; [discriminate|]. intros (_ & _ & _ & _ & H & _). apply L in H. discriminate.
Qed.

Lemma concat_hash {H} (h : A -> H) (a b : arr A) : wf a -> wf b -> nrows a = nrows b -> cols a = cols b ->
  (forall i j x y, el a i j = Some x -> el b i j = Some y -> h x = h y) ->
  map h (List.concat (rows a)) = map h (List.concat (rows b)).
Proof.
  intros Wa Wb N C E. rewrite !concat_map. f_equal.
  unfold nrows in N. apply zth_ext_in; [rewrite !zlen_map; auto|]. intros i I. rewrite zlen_map in I.
  rewrite !zth_map. destruct (zth_in (rows a) i) as [ra Ra]; auto.
  destruct (zth_in (rows b) i) as [rb Rb]; [lia|]. rewrite Ra, Rb. cbn. f_equal.
  pose proof (wf_zlen _ _ _ Wa Ra). pose proof (wf_zlen _ _ _ Wb Rb).
  apply zth_ext_in; [rewrite !zlen_map; lia|]. intros j J. rewrite zlen_map in J. rewrite !zth_map.
  destruct (zth_in ra j) as [x X]; auto. destruct (zth_in rb j) as [y Y]; [lia|]. rewrite X, Y. cbn. f_equal.
  apply (E i j); unfold el; [now rewrite Ra|now rewrite Rb].
Qed.

Lemma signal_hash_eq {H} (hn : A -> H) hi hs ht s o : wf_signal s -> wf_signal o ->
  (forall x y, o_eqb O x y = true -> hn x = hn y) ->
  signal_eqb O s o = true -> signal_hash hn hi hs ht s = signal_hash hn hi hs ht o.
Proof.
  intros Ws Wo R E. apply signal_eqb_iff in E; auto. destruct E as (E1 & E2 & E3 & E4 & E5 & E6).
  unfold signal_hash. fold (count s) (count o) (length s) (length o).
  rewrite (R _ _ E1), E2, E3, E4, E5.
  rewrite (concat_hash hn (channels s) (channels o)); auto; try apply Ws; try apply Wo.
  intros i j x y X Y. apply R. apply (E6 i (j + offset s)); unfold at_time; [rewrite <- X|rewrite <- Y]; f_equal; lia.
Qed.

End Shape.
