(** Slicing, padding, shifting and comparing spectrograms: proofs for C43. *)

From Coq Require Import String ZArith QArith List Bool Lia ZifyBool.
From Verif.Model Require Import Py Numpy Functions Signal Spectrum Cube Spectrogram.
From Verif.Spec Require Import TimeSpec SliceSpec FrequencySpec SpectrogramSpec.
From Verif.Proofs Require Import PyFacts NumpyFacts SliceFacts SignalAlgebra SignalShape SignalExtra SignalHelpers MergeOrder CubeFacts
  SpectrogramAlgebra.
Import ListNotations.
Open Scope Z_scope.

Section Shape.
Context {A R : Type}.
Variable O : ops A.
Variable junk : Z -> Z -> Z -> A.
Implicit Types s o : spectrogram A R.

(** ** Slicing *)

Lemma slice3_ok (m : cube A) (s0 s1 s2 : slice) : wf_cube m -> slice_step s0 <> 0 -> slice_step s1 <> 0 -> slice_step s2 <> 0 ->
  exists r, slice3 m s0 s1 s2 = Ok r /\ wf_cube r /\
    dim0 r = slice_count s0 (dim0 m) /\ dim1 r = slice_count s1 (dim1 m) /\ dim2 r = slice_count s2 (dim2 m) /\
    forall i j k, 0 <= i < dim0 r -> 0 <= j < dim1 r -> 0 <= k < dim2 r ->
      cell r i j k = cell m (slice_first s0 (dim0 m) + i * slice_step s0) (slice_first s1 (dim1 m) + j * slice_step s1)
                            (slice_first s2 (dim2 m) + k * slice_step s2).
Proof.
  intros W K0 K1 K2. unfold slice3. replace (_ || _ || _) with false by lia. cbv zeta.
  pose proof W as (H0 & H1 & H2 & _).
  pose proof (slice_count_nonneg s0 (dim0 m) K0). pose proof (slice_count_nonneg s1 (dim1 m) K1). pose proof (slice_count_nonneg s2 (dim2 m) K2).
  eexists. split; [reflexivity|]. split; [|split; [reflexivity|]; split; [reflexivity|]; split; [reflexivity|]].
  - apply wf_by_cells; auto; intros i j k.
    + intros I J K. replace (inside _ _ _ _ _ _) with true by (unfold inside; lia).
      apply cell_in; auto; now apply slice_position_range.
    + intros N. replace (inside _ _ _ _ _ _) with false by (unfold inside; lia). reflexivity.
  - intros i j k I J K. cbn [dim0 dim1 dim2 cell] in *. replace (inside _ _ _ _ _ _) with true by (unfold inside; lia). reflexivity.
Qed.

(** Slices with integer bounds and positive steps. *)
Lemma spectrogram_slices s ca cb ck fa fb fk ta tb tk :
  wf_spectrogram s -> 0 < the_step ck -> 0 < the_step fk -> 0 < the_step tk ->
  exists r, spectrogram_getitem s (KTuple [KSlice (option_map NInt ca) (option_map NInt cb) (option_map NInt ck);
                                           KSlice (option_map NInt fa) (option_map NInt fb) (option_map NInt fk);
                                           KSlice (option_map NInt ta) (option_map NInt tb) (option_map NInt tk)]) = Ok r /\
    wf_spectrogram r /\ sg_resolution r = sg_resolution s /\ sg_rate r = sg_rate s /\
    (forall i, 0 <= i -> (i < sg_count r <-> selected ca cb (sg_count s) (starts_at ca (sg_count s) + i * the_step ck))) /\
    (forall j, 0 <= j -> (j < sg_frequencies r <-> selected fa fb (sg_frequencies s) (starts_at fa (sg_frequencies s) + j * the_step fk))) /\
    (forall k, 0 <= k -> (k < sg_length r <-> selected ta tb (sg_length s) (starts_at ta (sg_length s) + k * the_step tk))) /\
    (forall i, 0 <= i < sg_count r -> zth (sg_labels r) i = zth (sg_labels s) (starts_at ca (sg_count s) + i * the_step ck)) /\
    (forall i j k, 0 <= i < sg_count r -> 0 <= j < sg_frequencies r -> 0 <= k < sg_length r ->
       sg_at r i j (sg_begins r + k) =
       sg_at s (starts_at ca (sg_count s) + i * the_step ck) (starts_at fa (sg_frequencies s) + j * the_step fk)
               (sg_begins s + starts_at ta (sg_length s) + k * the_step tk)) /\
    (match ta with Some a => - sg_length s <= a <= sg_length s | None => True end ->
     sg_begins r = sg_begins s + starts_at ta (sg_length s)).
Proof.
  intros [Ws Ls] Kc Kf Kt. unfold sg_count, sg_frequencies, sg_length, sg_begins, sg_at in *.
  pose proof Ws as (S0 & S1 & S2 & _).
  assert (E : forall a n, slice_entry (option_map NInt a) n = Ok a) by (intros [a|] n; reflexivity).
  unfold spectrogram_getitem, keys_to_slices. cbn [map2 sequence key_to_slice]. rewrite !E. cbn [bind sl_start nth].
  change (getitem [Slice ca cb ck; Slice fa fb fk; Slice ta tb tk] 0) with (Ok (Slice ca cb ck)). unfold sg_length. cbn [bind].
  destruct (slice3_ok (sg_channels s) (Slice ca cb ck) (Slice fa fb fk) (Slice ta tb tk)) as (m & Em & Wm & M0 & M1 & M2 & Cm); auto.
  1,2,3: unfold slice_step; cbn [sl_step]; fold (the_step ck); fold (the_step fk); fold (the_step tk); lia.
  rewrite Em. cbn [bind].
  destruct (getslice_ok (sg_labels s) (Slice ca cb ck)) as (l & El & Ll & Hl).
  { unfold slice_step; cbn [sl_step]; fold (the_step ck); lia. }
  rewrite El. cbn [bind]. eexists. split; [reflexivity|]. split; [now apply mk_spectrogram_wf|].
  cbn [sg_resolution sg_rate sg_channels sg_offset sg_labels mk_spectrogram].
  split; [reflexivity|]. split; [reflexivity|].
  assert (C0 : forall i, 0 <= i -> (i < dim0 m <-> selected ca cb (dim0 (sg_channels s)) (starts_at ca (dim0 (sg_channels s)) + i * the_step ck)))
    by (intros i I; rewrite M0; now apply slice_count_pos).
  assert (C1 : forall j, 0 <= j -> (j < dim1 m <-> selected fa fb (dim1 (sg_channels s)) (starts_at fa (dim1 (sg_channels s)) + j * the_step fk)))
    by (intros j J; rewrite M1; now apply slice_count_pos).
  assert (C2 : forall k, 0 <= k -> (k < dim2 m <-> selected ta tb (dim2 (sg_channels s)) (starts_at ta (dim2 (sg_channels s)) + k * the_step tk)))
    by (intros k K; rewrite M2; now apply slice_count_pos).
  assert (F0 : 0 < dim0 m -> slice_first (Slice ca cb ck) (dim0 (sg_channels s)) = starts_at ca (dim0 (sg_channels s))).
  { intros P. rewrite slice_first_pos by auto. apply (C0 0) in P; [|lia]. destruct P as [P _]. lia. }
  assert (F1 : 0 < dim1 m -> slice_first (Slice fa fb fk) (dim1 (sg_channels s)) = starts_at fa (dim1 (sg_channels s))).
  { intros P. rewrite slice_first_pos by auto. apply (C1 0) in P; [|lia]. destruct P as [P _]. lia. }
  assert (F2 : 0 < dim2 m -> slice_first (Slice ta tb tk) (dim2 (sg_channels s)) = starts_at ta (dim2 (sg_channels s))).
  { intros P. rewrite slice_first_pos by auto. apply (C2 0) in P; [|lia]. destruct P as [P _]. lia. }
  split; [exact C0|]. split; [exact C1|]. split; [exact C2|]. split; [|split].
  - intros i I. rewrite sanitize_same by (rewrite Ll, Ls; auto). rewrite Hl, Ls. replace (_ && _) with true by lia.
    rewrite F0 by lia. reflexivity.
  - intros i j k I J K. rewrite <- F0, <- F1, <- F2 by lia.
    match goal with |- cell m i j ?x = _ => replace x with k by lia end.
    rewrite Cm by auto. f_equal. unfold slice_step; cbn [sl_step]; fold (the_step tk). lia.
  - intros H. unfold starts_at, from_end. destruct ta as [a|]; zcases.
Qed.

(** ** Padding *)

Lemma spectrogram_pad_ok s n value : wf_spectrogram s -> 0 <= n ->
  exists r, spectrogram_pad junk s n value = Ok r /\ wf_spectrogram r /\
    sg_resolution r = sg_resolution s /\ sg_rate r = sg_rate s /\ sg_begins r = sg_begins s /\ sg_labels r = sg_labels s /\
    sg_count r = sg_count s /\ sg_frequencies r = sg_frequencies s /\ sg_length r = n /\
    forall c f t, 0 <= c < sg_count s -> 0 <= f < sg_frequencies s -> sg_begins s <= t < sg_begins s + n ->
      sg_at r c f t = Some (match sg_at s c f t with Some x => x | None => value end).
Proof.
  intros [Ws Ls] N. unfold spectrogram_pad, sg_count, sg_frequencies, sg_length, sg_begins, sg_at in *.
  pose proof Ws as (S0 & S1 & S2 & _). set (S := sg_channels s) in *.
  destruct (Z.eqb_spec n (dim2 S)) as [E|E].
  { exists s. split; [reflexivity|]. split; [split; auto|]. repeat split; auto. intros c f t Hc Hf Ht. fold S.
    destruct (cell_in S c f (t - sg_offset s)) as [x Ex]; auto; try lia. now rewrite Ex. }
  do_allocate m.
  destruct (Z.ltb_spec n (dim2 S)).
  - intro_sub v. do_set m1. eexists. split; [reflexivity|]. split; [now apply mk_spectrogram_wf|].
    cbn [sg_resolution sg_rate sg_channels sg_offset sg_labels mk_spectrogram]. fold S.
    split; [reflexivity|]. split; [reflexivity|]. split; [reflexivity|]. split; [apply sanitize_same; lia|].
    split; [lia|]. split; [lia|]. split; [lia|].
    intros c f t Hc Hf Ht. rewrite C0. replace (_ && _ && _) with true by arith. rewrite C.
    replace (_ && _ && _) with true by arith.
    destruct (cell_in S c f (t - sg_offset s)) as [x Ex]; auto; try lia. use Ex. reflexivity.
  - do_set m1. intro_scalar v. do_set m2. eexists. split; [reflexivity|]. split; [now apply mk_spectrogram_wf|].
    cbn [sg_resolution sg_rate sg_channels sg_offset sg_labels mk_spectrogram]. fold S.
    split; [reflexivity|]. split; [reflexivity|]. split; [reflexivity|]. split; [apply sanitize_same; lia|].
    split; [lia|]. split; [lia|]. split; [lia|].
    intros c f t Hc Hf Ht. rewrite C1, C.
    destruct (Z_lt_ge_dec (t - sg_offset s) (dim2 S)).
    + replace (inr 0 (dim0 m1) c && _ && _) with false by arith. replace (_ && _ && _) with true by arith.
      destruct (cell_in S c f (t - sg_offset s)) as [x Ex]; auto; try lia. use Ex. reflexivity.
    + replace (inr 0 (dim0 m1) c && _ && _) with true by arith.
      rewrite (cell_out S) by (auto; lia). rewrite <- C0. f_equal; arith.
Qed.

Lemma spectrogram_pad_negative s n value : wf_spectrogram s -> n < 0 -> spectrogram_pad junk s n value = Err ValueError.
Proof.
  intros [(_ & _ & S2 & _) _] N. unfold spectrogram_pad, sg_length. destruct (Z.eqb_spec n (dim2 (sg_channels s))); [lia|].
  unfold allocate3. replace (_ || _ || _) with true by lia. reflexivity.
Qed.

(** ** Shifting *)

Ltac sbounds := first [apply lower_everything | apply upper_everything; lia | apply lower_zero; lia
  | apply lower_from_neg; lia | apply upper_from_neg; lia | apply lower_from_pos; lia | apply upper_from_pos; lia
  | apply upper_zero_neg; lia | apply upper_zero_pos; lia].
Ltac int_sub v :=
  match goal with
  | |- context [sub3 ?m ?b0 ?b1 ?b2] =>
      let W := fresh "W" in let D0 := fresh "D" in let D1 := fresh "D" in let D2 := fresh "D" in let C := fresh "C" in
      edestruct (sub3_ok m b0 b1 b2) as (W & D0 & D1 & D2 & C); [assumption|sbounds|sbounds|sbounds|sbounds|sbounds|sbounds|];
      set (v := sub3 m b0 b1 b2) in *; clearbody v
  end.
Ltac int_set m' :=
  match goal with
  | |- context [set3 ?m ?b0 ?b1 ?b2 ?s] =>
      let E := fresh "E" in let W := fresh "W" in
      let D0 := fresh "D" in let D1 := fresh "D" in let D2 := fresh "D" in let C := fresh "C" in
      edestruct (set3_ok m b0 b1 b2 s) as (m' & E & W & D0 & D1 & D2 & C);
      [assumption|assumption|sbounds|sbounds|sbounds|sbounds|sbounds|sbounds|lia|lia|lia|]; rewrite E; cbn [bind]
  end.
Ltac start_shift s Ws Ls :=
  intros [Ws Ls]; unfold spectrogram_shift, sg_count, sg_frequencies, sg_length, sg_begins, sg_ends, sg_at in *;
  let S0 := fresh "S0" in let S1 := fresh "S1" in let S2 := fresh "S2" in
  pose proof Ws as (S0 & S1 & S2 & _).
Ltac finish_shift :=
  eexists; split; [reflexivity|]; split; [now apply mk_spectrogram_wf|];
  cbn [sg_resolution sg_rate sg_channels sg_offset sg_labels mk_spectrogram]; unfold sg_length in *; cbn [sg_channels mk_spectrogram];
  split; [reflexivity|]; split; [reflexivity|]; split; [reflexivity|]; split; [apply sanitize_same; lia|];
  split; [lia|]; split; [lia|]; split; [lia|].

Lemma sg_shift_offset_ok s k : wf_spectrogram s ->
  exists r, spectrogram_shift O junk s (Some k) SHIFT_OFFSET = Ok r /\ wf_spectrogram r /\
    sg_resolution r = sg_resolution s /\ sg_rate r = sg_rate s /\ sg_labels r = sg_labels s /\
    sg_count r = sg_count s /\ sg_frequencies r = sg_frequencies s /\ sg_length r = sg_length s /\
    sg_begins r = sg_begins s + k /\ forall c f t, sg_at r c f t = sg_at s c f (t - k).
Proof.
  intros W. pose proof W as [Ws Ls]. unfold spectrogram_shift, sg_begins, sg_at. destruct (Z.eq_dec k 0) as [->|K].
  - exists s. repeat split; auto; try apply W; try lia. intros. f_equal. lia.
  - exists (mk_spectrogram (sg_channels s) (sg_resolution s) (sg_rate s) (sg_offset s + k) (Some (sg_labels s))).
    split; [destruct k; [congruence|reflexivity|reflexivity]|]. split; [now apply mk_spectrogram_wf|].
    cbn [sg_resolution sg_rate sg_channels sg_offset sg_labels mk_spectrogram].
    repeat split; auto; [now apply sanitize_same|]. intros. f_equal. lia.
Qed.

Lemma sg_shift_none_ok s : wf_spectrogram s ->
  exists r, spectrogram_shift O junk s None SHIFT_OFFSET = Ok r /\ wf_spectrogram r /\
    sg_resolution r = sg_resolution s /\ sg_rate r = sg_rate s /\ sg_labels r = sg_labels s /\
    sg_channels r = sg_channels s /\ sg_begins r = 0.
Proof.
  intros [Ws Ls]. eexists. split; [reflexivity|]. split; [now apply mk_spectrogram_wf|]. repeat split. now apply sanitize_same.
Qed.

Lemma sg_shift_crop_ok s k : wf_spectrogram s ->
  exists r, spectrogram_shift O junk s (Some k) SHIFT_CROP = Ok r /\ wf_spectrogram r /\
    sg_resolution r = sg_resolution s /\ sg_rate r = sg_rate s /\ sg_begins r = sg_begins s /\ sg_labels r = sg_labels s /\
    sg_count r = sg_count s /\ sg_frequencies r = sg_frequencies s /\ sg_length r = sg_length s /\
    forall c f t, 0 <= c < sg_count s -> 0 <= f < sg_frequencies s -> sg_begins s <= t < sg_ends s ->
      sg_at r c f t = Some (match sg_at s c f (t - k) with Some x => x | None => o_zero O end).
Proof.
  start_shift s Ws Ls. destruct k as [|p|p].
  { exists s. split; [reflexivity|]. split; [split; auto|]. repeat split; auto. intros c f t Hc Hf Ht.
    rewrite Z.sub_0_r. destruct (cell_in (sg_channels s) c f (t - sg_offset s)) as [x Ex]; auto; [unfold sg_length in *; lia|]. now rewrite Ex. }
  - set (k := Z.pos p). assert (0 < k) by (unfold k; lia). clearbody k. replace (k <? 0) with false by lia.
    set (S := sg_channels s) in *. do_allocate m. intro_scalar z. int_set m1. int_sub v. int_set m2. finish_shift. fold S.
    intros c f t Hc Hf Ht. rewrite C2, C1, C0. fold S in Ht.
    destruct (Z_lt_ge_dec (t - sg_offset s) k).
    + replace (inr (Z.min k (dim2 m1)) _ _) with false by arith. rewrite andb_false_r. replace (_ && _ && _) with true by arith.
      rewrite (cell_out S) by (auto; lia). rewrite <- C. f_equal; arith.
    + replace (inr 0 (dim0 m1) _ && _ && inr (Z.min k (dim2 m1)) _ _) with true by arith. replace (_ && _ && _) with true by arith.
      destruct (cell_in S c f (t - k - sg_offset s)) as [x Ex]; auto; try lia. use Ex. reflexivity.
  - set (k := Z.neg p). assert (k < 0) by (unfold k; lia). clearbody k. replace (k <? 0) with true by lia.
    set (S := sg_channels s) in *. do_allocate m. int_sub v. int_set m1. intro_scalar z. int_set m2. finish_shift. fold S.
    intros c f t Hc Hf Ht. rewrite C2, C0, C. fold S in Ht.
    destruct (Z_lt_ge_dec (t - sg_offset s) (dim2 S + k)).
    + replace (inr (Z.max 0 (k + dim2 m1)) _ _) with false by arith. rewrite andb_false_r. replace (_ && _ && _) with true by arith.
      replace (_ && _ && _) with true by arith.
      destruct (cell_in S c f (t - k - sg_offset s)) as [x Ex]; auto; try lia. use Ex. reflexivity.
    + replace (inr 0 (dim0 m1) _ && _ && inr (Z.max 0 (k + dim2 m1)) _ _) with true by arith.
      rewrite (cell_out S) by (auto; lia). rewrite <- C1. f_equal; arith.
Qed.

Lemma sg_shift_pad_ok s k : wf_spectrogram s -> 0 <= k ->
  exists r, spectrogram_shift O junk s (Some k) SHIFT_PAD = Ok r /\ wf_spectrogram r /\
    sg_resolution r = sg_resolution s /\ sg_rate r = sg_rate s /\ sg_begins r = sg_begins s /\ sg_labels r = sg_labels s /\
    sg_count r = sg_count s /\ sg_frequencies r = sg_frequencies s /\ sg_length r = sg_length s + k /\
    forall c f t, 0 <= c < sg_count s -> 0 <= f < sg_frequencies s -> sg_begins s <= t < sg_ends s + k ->
      sg_at r c f t = Some (match sg_at s c f (t - k) with Some x => x | None => o_zero O end).
Proof.
  start_shift s Ws Ls. intros K. destruct k as [|p|p]; [| |lia].
  { exists s. split; [reflexivity|]. split; [split; auto|]. repeat split; auto; try lia. intros c f t Hc Hf Ht.
    rewrite Z.sub_0_r. destruct (cell_in (sg_channels s) c f (t - sg_offset s)) as [x Ex]; auto; [unfold sg_length in *; lia|]. now rewrite Ex. }
  set (k := Z.pos p). assert (0 < k) by (unfold k; lia). clearbody k. replace (k <? 0) with false by lia.
  set (S := sg_channels s) in *. do_allocate m. intro_scalar z. int_set m1. int_set m2. finish_shift. fold S.
  intros c f t Hc Hf Ht. rewrite C1, C0. fold S in Ht.
  destruct (Z_lt_ge_dec (t - sg_offset s) k).
  + replace (inr (Z.min k (dim2 m1)) _ _) with false by arith. rewrite andb_false_r. replace (_ && _ && _) with true by arith.
    rewrite (cell_out S) by (auto; lia). rewrite <- C. f_equal; arith.
  + replace (_ && _ && _) with true by arith.
    destruct (cell_in S c f (t - k - sg_offset s)) as [x Ex]; auto; try lia. use Ex. reflexivity.
Qed.

Lemma sg_shift_pad_negative s k : wf_spectrogram s -> k < 0 ->
  exists r, spectrogram_shift O junk s (Some k) SHIFT_PAD = Ok r /\ wf_spectrogram r /\
    sg_resolution r = sg_resolution s /\ sg_rate r = sg_rate s /\ sg_begins r = sg_begins s /\ sg_labels r = sg_labels s /\
    sg_count r = sg_count s /\ sg_frequencies r = sg_frequencies s /\ sg_length r = sg_length s - k /\
    forall c f t, 0 <= c < sg_count s -> 0 <= f < sg_frequencies s -> sg_begins s <= t < sg_ends s - k ->
      sg_at r c f t = Some (match sg_at s c f t with Some x => x | None => o_zero O end).
Proof.
  start_shift s Ws Ls. intros K. destruct k as [|p|p]; [lia|lia|].
  set (k := Z.neg p) in *. clearbody k. replace (k <? 0) with true by lia.
  set (S := sg_channels s) in *. do_allocate m. int_set m1. intro_scalar z. int_set m2. finish_shift. fold S.
  intros c f t Hc Hf Ht. rewrite C1, C. fold S in Ht.
  destruct (Z_lt_ge_dec (t - sg_offset s) (dim2 S)).
  + replace (inr (Z.min (dim2 S) (dim2 m1)) _ _) with false by arith. rewrite andb_false_r. replace (_ && _ && _) with true by arith.
    destruct (cell_in S c f (t - sg_offset s)) as [x Ex]; auto; try lia. use Ex. reflexivity.
  + replace (inr 0 (dim0 m1) _ && _ && _) with true by arith.
    rewrite (cell_out S) by (auto; lia). rewrite <- C0. f_equal; arith.
Qed.

Lemma sg_shift_cycle_ok s k : wf_spectrogram s ->
  exists r, spectrogram_shift O junk s (Some k) SHIFT_CYCLE = Ok r /\ wf_spectrogram r /\
    sg_resolution r = sg_resolution s /\ sg_rate r = sg_rate s /\ sg_begins r = sg_begins s /\ sg_labels r = sg_labels s /\
    sg_count r = sg_count s /\ sg_frequencies r = sg_frequencies s /\ sg_length r = sg_length s /\
    forall c f t, 0 <= c < sg_count s -> 0 <= f < sg_frequencies s -> sg_begins s <= t < sg_ends s ->
      sg_at r c f t =
      if Z.abs k <=? sg_length s then sg_at s c f (sg_begins s + (t - sg_begins s - k) mod sg_length s)
      else sg_at s c f t.
Proof.
  start_shift s Ws Ls. destruct (Z.eq_dec k 0) as [->|K].
  { exists s. split; [reflexivity|]. split; [split; auto|]. repeat split; auto. intros c f t Hc Hf Ht.
    replace (Z.abs 0 <=? _) with true by lia. rewrite Z.mod_small by (unfold sg_length in *; lia). f_equal. lia. }
  set (S := sg_channels s) in *.
  set (u := if k <? 0 then Z.max 0 (dim2 S + k) else Z.min k (dim2 S)).
  assert (U : 0 <= u <= dim2 S) by (unfold u; zcases).
  assert (B1 : lower (between 0 k) (dim2 S) = 0) by (apply lower_zero; lia).
  assert (B2 : upper (between 0 k) (dim2 S) = u).
  { unfold u. destruct (Z.ltb_spec k 0); [rewrite upper_zero_neg|rewrite upper_zero_pos]; lia. }
  assert (B3 : lower (from (- k)) (dim2 S) = dim2 S - u).
  { unfold u. destruct (Z.ltb_spec k 0); [rewrite lower_from_pos|rewrite lower_from_neg]; lia. }
  assert (B4 : upper (from (- k)) (dim2 S) = dim2 S).
  { destruct (Z.ltb_spec k 0); [rewrite upper_from_pos|rewrite upper_from_neg]; lia. }
  assert (B5 : lower (from k) (dim2 S) = u).
  { unfold u. destruct (Z.ltb_spec k 0); [rewrite lower_from_neg|rewrite lower_from_pos]; lia. }
  assert (B6 : upper (from k) (dim2 S) = dim2 S).
  { destruct (Z.ltb_spec k 0); [rewrite upper_from_neg|rewrite upper_from_pos]; lia. }
  assert (B7 : lower (between 0 (- k)) (dim2 S) = 0) by (apply lower_zero; lia).
  assert (B8 : upper (between 0 (- k)) (dim2 S) = dim2 S - u).
  { unfold u. destruct (Z.ltb_spec k 0); [rewrite upper_zero_pos|rewrite upper_zero_neg]; lia. }
  destruct (allocate3_ok junk (dim0 S) (dim1 S) (dim2 S)) as (m & E & W & D0 & D1 & D2); auto.
  edestruct (sub3_ok S everything everything (from (- k))) as (Wv & V0 & V1 & V2 & Cv); [assumption|sbounds|sbounds|sbounds|sbounds|eassumption|eassumption|].
  set (v := sub3 S everything everything (from (- k))) in *. clearbody v.
  edestruct (sub3_ok S everything everything (between 0 (- k))) as (Ww & W0 & W1 & W2 & Cw); [assumption|sbounds|sbounds|sbounds|sbounds|eassumption|eassumption|].
  set (w := sub3 S everything everything (between 0 (- k))) in *. clearbody w.
  rewrite <- D2 in B1, B2, B5, B6.
  edestruct (set3_ok m everything everything (between 0 k) v) as (m1 & E1 & Wm1 & F0 & F1 & F2 & C1);
    [assumption|assumption|sbounds|sbounds|sbounds|sbounds|eassumption|eassumption|lia|lia|lia|].
  rewrite <- F2 in B5, B6.
  edestruct (set3_ok m1 everything everything (from k) w) as (m2 & E2 & Wm2 & G0 & G1 & G2 & C2);
    [assumption|assumption|sbounds|sbounds|sbounds|sbounds|eassumption|eassumption|lia|lia|lia|].
  exists (mk_spectrogram m2 (sg_resolution s) (sg_rate s) (sg_offset s) (Some (sg_labels s))).
  split. { destruct k; [congruence| |]; cbn [Z.opp] in *; rewrite E; cbn [bind]; rewrite E1; cbn [bind]; rewrite E2; reflexivity. }
  split; [now apply mk_spectrogram_wf|].
  cbn [sg_resolution sg_rate sg_channels sg_offset sg_labels mk_spectrogram].
  split; [reflexivity|]; split; [reflexivity|]; split; [reflexivity|]; split; [apply sanitize_same; lia|];
  split; [lia|]; split; [lia|]; split; [lia|].
  intros c f t Hc Hf Ht. unfold sg_length in Ht. fold S in Ht. set (j := t - sg_offset s) in *. assert (J : 0 <= j < dim2 S) by lia.
  rewrite C2, C1, Cv, Cw. clear B1 B2 B3 B4 B5 B6 B7 B8 E E1 E2 C1 C2 Cv Cw.
  assert (X : forall i, cell S c f (sg_offset s + i - sg_offset s) = cell S c f i) by (intros; f_equal; lia). rewrite X.
  destruct (Z_lt_ge_dec j u) as [L|L].
  - replace (inr (u) _ _) with false by arith. rewrite andb_false_r. replace (_ && _ && _) with true by arith.
    replace (inr 0 (dim0 S - 0) _ && _ && _) with true by arith. unfold u in *.
    destruct (Z.leb_spec (Z.abs k) (dim2 S)).
    + f_equal; [arith|arith|]. destruct (Z.ltb_spec k 0).
      * replace (t - sg_offset s - k) with (j - k) by lia. rewrite Z.mod_small; arith.
      * replace (t - sg_offset s - k) with (j - k) by lia. rewrite <- (Z.mod_add _ 1) by lia. rewrite Z.mod_small; arith.
    + f_equal; [arith|arith|]. destruct (Z.ltb_spec k 0); arith.
  - replace (inr 0 (dim0 m1) _ && _ && _) with true by arith.
    replace (inr 0 (dim0 S - 0) _ && _ && _) with true by arith. unfold u in *.
    destruct (Z.leb_spec (Z.abs k) (dim2 S)).
    + f_equal; [arith|arith|]. destruct (Z.ltb_spec k 0).
      * replace (t - sg_offset s - k) with (j - k) by lia. rewrite <- (Z.mod_add _ (-1)) by lia. rewrite Z.mod_small; arith.
      * replace (t - sg_offset s - k) with (j - k) by lia. rewrite Z.mod_small; arith.
    + f_equal; [arith|arith|]. destruct (Z.ltb_spec k 0); arith.
Qed.

(** ** Comparison *)

Lemma combine_flat_map {X B C} (g : X -> list B) (h : X -> list C) l :
  (forall x, In x l -> List.length (g x) = List.length (h x)) ->
  combine (flat_map g l) (flat_map h l) = flat_map (fun x => combine (g x) (h x)) l.
Proof.
  induction l as [|a l IH]; intros H; auto. cbn. rewrite <- IH by (intros; apply H; now right).
  assert (L : List.length (g a) = List.length (h a)) by (apply H; now left).
  revert L. generalize (g a) (h a). induction l0 as [|x l0 IH0]; intros [|y l1]; cbn; intros; try discriminate; auto.
  f_equal. apply IH0. now injection L.
Qed.

Lemma length_flat_map {X B C} (g : X -> list B) (h : X -> list C) l :
  (forall x, In x l -> List.length (g x) = List.length (h x)) -> List.length (flat_map g l) = List.length (flat_map h l).
Proof.
  induction l as [|a l IH]; intros H; auto. cbn. rewrite !app_length, IH by (intros; apply H; now right). f_equal. apply H. now left.
Qed.

Lemma existsb_flat_map {X B} (p : B -> bool) (g : X -> list B) l :
  existsb p (flat_map g l) = false <-> forall x, In x l -> existsb p (g x) = false.
Proof.
  induction l as [|a l IH]; cbn; [intuition|]. rewrite existsb_app, orb_false_iff, IH. split.
  - intros [H1 H2] x [-> | I]; auto.
  - intros H. split; auto.
Qed.

Lemma elements3_pairs {B} (p : A * B -> bool) (m : cube A) (n : cube B) : wf_cube m -> wf_cube n ->
  dim0 m = dim0 n -> dim1 m = dim1 n -> dim2 m = dim2 n ->
  (existsb p (combine (elements3 m) (elements3 n)) = false <->
   forall i j k x y, cell m i j k = Some x -> cell n i j k = Some y -> p (x, y) = false).
Proof.
  intros Wm Wn E0 E1 E2. unfold elements3. rewrite E0, E1, E2.
  assert (L : forall i j k, 0 <= i < dim0 n -> 0 <= j < dim1 n -> 0 <= k < dim2 n ->
    exists x y, cell m i j k = Some x /\ cell n i j k = Some y).
  { intros i j k I J K. destruct (cell_in m i j k) as [x Ex]; auto; try lia. destruct (cell_in n i j k) as [y Ey]; auto. eauto. }
  assert (L2 : forall i j, 0 <= i < dim0 n -> 0 <= j < dim1 n -> forall k, In k (zseq 0 (dim2 n)) ->
    List.length (match cell m i j k with Some x => [x] | None => [] end) = List.length (match cell n i j k with Some x => [x] | None => [] end)).
  { intros i j I J k K. apply In_zseq in K. destruct (L i j k) as (x & y & -> & ->); auto; lia. }
  rewrite combine_flat_map, existsb_flat_map.
  2: { intros i I. apply In_zseq in I. apply length_flat_map. intros j J. apply In_zseq in J. apply length_flat_map. apply L2; lia. }
  split.
  - intros H i j k x y X Y. apply cell_range in Y as RY; auto. destruct RY as (I & J & K).
    specialize (H i ltac:(apply In_zseq; lia)). rewrite combine_flat_map, existsb_flat_map in H.
    2: { intros j' J'. apply In_zseq in J'. apply length_flat_map. apply L2; lia. }
    specialize (H j ltac:(apply In_zseq; lia)). rewrite combine_flat_map, existsb_flat_map in H by (apply L2; auto).
    specialize (H k ltac:(apply In_zseq; lia)). rewrite X, Y in H. cbn in H. now rewrite orb_false_r in H.
  - intros H i I. apply In_zseq in I. rewrite combine_flat_map, existsb_flat_map.
    2: { intros j J. apply In_zseq in J. apply length_flat_map. apply L2; lia. }
    intros j J. apply In_zseq in J. rewrite combine_flat_map, existsb_flat_map by (apply L2; lia).
    intros k K. apply In_zseq in K. destruct (L i j k) as (x & y & X & Y); try lia. rewrite X, Y. cbn.
    now rewrite (H i j k x y).
Qed.

Lemma map_elements3 {H} (h : A -> H) (m n : cube A) : wf_cube m -> wf_cube n ->
  dim0 m = dim0 n -> dim1 m = dim1 n -> dim2 m = dim2 n ->
  (forall i j k x y, cell m i j k = Some x -> cell n i j k = Some y -> h x = h y) ->
  map h (elements3 m) = map h (elements3 n).
Proof.
  intros Wm Wn E0 E1 E2 X. unfold elements3. rewrite E0, E1, E2, !flat_map_concat_map, !concat_map, !map_map. f_equal.
  apply map_ext_in. intros i I. apply In_zseq in I. rewrite !flat_map_concat_map, !concat_map, !map_map. f_equal.
  apply map_ext_in. intros j J. apply In_zseq in J. rewrite !flat_map_concat_map, !concat_map, !map_map. f_equal.
  apply map_ext_in. intros k K. apply In_zseq in K.
  destruct (cell_in m i j k) as [x Ex]; auto; try lia. destruct (cell_in n i j k) as [y Ey]; auto; try lia.
  rewrite Ex, Ey. cbn. f_equal. eauto.
Qed.

Lemma spectrogram_eqb_ok (R_eqb : R -> R -> bool) s o : wf_spectrogram s -> wf_spectrogram o ->
  (spectrogram_eqb O R_eqb s o = true <->
   R_eqb (sg_resolution s) (sg_resolution o) = true /\ R_eqb (sg_rate s) (sg_rate o) = true /\
   sg_begins s = sg_begins o /\ sg_ends s = sg_ends o /\ sg_count s = sg_count o /\ sg_frequencies s = sg_frequencies o /\
   sg_labels s = sg_labels o /\
   forall c f t x y, sg_at s c f t = Some x -> sg_at o c f t = Some y -> o_eqb O x y = true).
Proof.
  intros [Ws Ls] [Wo Lo]. unfold spectrogram_eqb, sg_begins, sg_ends, sg_count, sg_frequencies, sg_length, sg_at in *.
  destruct (R_eqb (sg_resolution s) (sg_resolution o)); cbn [negb]; [|split; [discriminate|intros [H _]; discriminate]].
  destruct (R_eqb (sg_rate s) (sg_rate o)); cbn [negb]; [|split; [discriminate|intros (_ & H & _); discriminate]].
  destruct (Z.eqb_spec (sg_offset s) (sg_offset o)) as [E|E]; cbn [negb]; [|split; [discriminate|intros (_ & _ & H & _); congruence]].
  destruct (_ && _ && _) eqn:D; cbn [negb]; [|split; [discriminate|intros (_ & _ & _ & H)]; lia].
  assert (E0 : dim0 (sg_channels s) = dim0 (sg_channels o)) by lia.
  assert (E1 : dim1 (sg_channels s) = dim1 (sg_channels o)) by lia.
  assert (E2 : dim2 (sg_channels s) = dim2 (sg_channels o)) by lia. clear D.
  pose proof (elements3_pairs (fun p => negb (o_eqb O (fst p) (snd p))) _ _ Ws Wo E0 E1 E2) as D.
  assert (X : (forall c f t x y, cell (sg_channels s) c f (t - sg_offset s) = Some x -> cell (sg_channels o) c f (t - sg_offset o) = Some y ->
                o_eqb O x y = true) <->
              existsb (fun p => negb (o_eqb O (fst p) (snd p))) (combine (elements3 (sg_channels s)) (elements3 (sg_channels o))) = false).
  { rewrite D. rewrite <- E. split; intros H i j k x y.
    - intros X Y. cbn [fst snd]. rewrite (H i j (k + sg_offset s) x y); auto; rewrite Z.add_simpl_r; auto.
    - intros X Y. specialize (H i j _ x y X Y). cbn [fst snd] in H. now apply negb_false_iff in H. }
  pose proof (labels_eqb_eq (sg_labels s) (sg_labels o)) as L.
  destruct (existsb _ _) eqn:AD.
  - split; [discriminate|]. intros (_ & _ & _ & _ & _ & _ & _ & H). apply X in H. discriminate.
  - destruct (labels_eqb (sg_labels s) (sg_labels o)); cbn [negb].
    + split; auto. intros _. do 2 (split; [reflexivity|]). split; [lia|]. split; [lia|]. split; [lia|]. split; [lia|].
      split; [now apply L|now apply X].
    + split; [discriminate|]. intros (_ & _ & _ & _ & _ & _ & H & _). apply L in H. discriminate.
Qed.

Lemma spectrogram_equivalence (R_eqb : R -> R -> bool) :
  (forall x, o_eqb O x x = true) -> (forall x y, o_eqb O x y = o_eqb O y x) ->
  (forall x y z, o_eqb O x y = true -> o_eqb O y z = true -> o_eqb O x z = true) ->
  (forall x, R_eqb x x = true) -> (forall x y, R_eqb x y = R_eqb y x) ->
  (forall x y z, R_eqb x y = true -> R_eqb y z = true -> R_eqb x z = true) ->
  forall a b c : spectrogram A R, wf_spectrogram a -> wf_spectrogram b -> wf_spectrogram c ->
  spectrogram_eqb O R_eqb a a = true /\ spectrogram_eqb O R_eqb a b = spectrogram_eqb O R_eqb b a /\
  (spectrogram_eqb O R_eqb a b = true -> spectrogram_eqb O R_eqb b c = true -> spectrogram_eqb O R_eqb a c = true).
Proof.
  intros H1 H2 H3 H4 H5 H6 a b c Wa Wb Wc.
  assert (Sy : forall a b, wf_spectrogram a -> wf_spectrogram b -> spectrogram_eqb O R_eqb a b = true -> spectrogram_eqb O R_eqb b a = true).
  { intros x y Wx Wy E. apply spectrogram_eqb_ok in E; auto. destruct E as (E1 & E2 & E3 & E4 & E5 & E6 & E7 & E8).
    apply spectrogram_eqb_ok; auto. rewrite H5, (H5 (sg_rate y)). do 7 (split; [auto|]). intros. rewrite H2. eauto. }
  split; [|split].
  - apply spectrogram_eqb_ok; auto. do 7 (split; [auto|]). intros ? ? ? x y X Y. rewrite X in Y. injection Y as ->. auto.
  - apply eq_true_iff_eq. split; apply Sy; auto.
  - intros E F. apply spectrogram_eqb_ok in E; auto. destruct E as (E1 & E2 & E3 & E4 & E5 & E6 & E7 & E8).
    apply spectrogram_eqb_ok in F; auto. destruct F as (F1 & F2 & F3 & F4 & F5 & F6 & F7 & F8).
    apply spectrogram_eqb_ok; auto. do 2 (split; [eauto|]). do 5 (split; [congruence|]).
    intros i j t x y X Y. destruct Wa as [Wa _]. destruct Wb as [Wb _].
    unfold sg_at, sg_begins, sg_ends, sg_count, sg_frequencies, sg_length in *.
    destruct (cell_in (sg_channels b) i j (t - sg_offset b)) as [z Z]; auto; [apply cell_range in X; auto; lia ..|].
    eapply H3; [eapply E8|eapply F8]; eauto.
Qed.

Lemma spectrogram_hash_ok (R_eqb : R -> R -> bool) H (hash_number : A -> H) hash_float hash_int hash_str hash_tuple s o :
  wf_spectrogram s -> wf_spectrogram o ->
  (forall x y, o_eqb O x y = true -> hash_number x = hash_number y) ->
  (forall x y, R_eqb x y = true -> hash_float x = hash_float y) ->
  spectrogram_eqb O R_eqb s o = true ->
  spectrogram_hash hash_number hash_float hash_int hash_str hash_tuple s =
  spectrogram_hash hash_number hash_float hash_int hash_str hash_tuple o.
Proof.
  intros Ws Wo Hn Hf E. apply spectrogram_eqb_ok in E; auto. destruct E as (E1 & E2 & E3 & E4 & E5 & E6 & E7 & E8).
  unfold spectrogram_hash, sg_begins, sg_ends, sg_count, sg_frequencies, sg_length, sg_at in *.
  rewrite (Hf _ _ E1), (Hf _ _ E2), E3, E5, E6, E7.
  assert (E9 : dim2 (sg_channels s) = dim2 (sg_channels o)) by lia. rewrite E9.
  rewrite (map_elements3 hash_number (sg_channels s) (sg_channels o)); auto; try apply Ws; try apply Wo.
  intros i j k x y X Y. apply Hn. apply (E8 i j (k + sg_offset s)); [rewrite <- X|rewrite <- Y]; f_equal; lia.
Qed.

End Shape.
