(** Operators with a spectrogram and a signal or a spectrum of the same shape: proofs for C22. *)

From Coq Require Import String ZArith List Bool Lia ZifyBool.
From Verif.Model Require Import Py Numpy Functions Signal Spectrum Cube Spectrogram.
From Verif.Spec Require Import TimeSpec FrequencySpec SpectrogramSpec.
From Verif.Proofs Require Import PyFacts NumpyFacts SignalAlgebra CubeFacts SpectrogramAlgebra.
Import ListNotations.
Open Scope Z_scope.

Lemma transpose_facts {A} (a : axes) (m : cube A) : wf_cube m ->
  wf_cube (transpose a m) /\ dim0 (transpose a m) = ax0 a (dim0 m) (dim1 m) (dim2 m) /\
  dim1 (transpose a m) = ax1 a (dim0 m) (dim1 m) (dim2 m) /\ dim2 (transpose a m) = ax2 a (dim0 m) (dim1 m) (dim2 m) /\
  forall i j k, cell (transpose a m) (ax0 a i j k) (ax1 a i j k) (ax2 a i j k) = cell m i j k.
Proof. intros W. split; [now apply transpose_ok|]. destruct a; repeat split; reflexivity. Qed.

Ltac intro_transpose v :=
  match goal with
  | |- context [transpose ?a ?m] =>
      let W := fresh "W" in let D0 := fresh "D" in let D1 := fresh "D" in let D2 := fresh "D" in let C := fresh "C" in
      destruct (transpose_facts a m) as (W & D0 & D1 & D2 & C); [assumption|]; set (v := transpose a m) in *; clearbody v
  end.

Ltac do_row v :=
  match goal with
  | |- context [bind (row ?m ?c) _] =>
      let E := fresh "E" in let W := fresh "W" in
      let D0 := fresh "D" in let D1 := fresh "D" in let C := fresh "C" in
      destruct (row_ok m c) as (v & E & W & D0 & D1 & C); [assumption|lia|]; rewrite E; cbn [bind]
  end.

Section Mixed.
Context {A R : Type}.
Variable junk : Z -> Z -> Z -> A.
Implicit Types s : spectrogram A R.
Variable f : A -> A -> A.

(** ** The loops over the channels of the other operand *)

Lemma channelwise_signal_ok (a : cube A) (b : arr A) out : wf_cube a -> wf b -> wf_cube out ->
  dim0 a = 1 -> dim1 a = dim1 out -> dim2 a = dim2 out -> nrows b = dim0 out -> cols b = dim2 out ->
  (exists m, channelwise_signal f a b out = Ok m /\ wf_cube m /\ dim0 m = dim0 out /\ dim1 m = dim1 out /\ dim2 m = dim2 out /\
    forall i j k, 0 <= i < dim0 out -> 0 <= j < dim1 out -> 0 <= k < dim2 out ->
      cell m i j k = both f (cell a 0 j k) (el b i k)) /\
  (exists m, channelwise_signal_right f b a out = Ok m /\ wf_cube m /\ dim0 m = dim0 out /\ dim1 m = dim1 out /\ dim2 m = dim2 out /\
    forall i j k, 0 <= i < dim0 out -> 0 <= j < dim1 out -> 0 <= k < dim2 out ->
      cell m i j k = both f (el b i k) (cell a 0 j k)).
Proof.
  intros Wa Wb Wo A0 A1 A2 B0 B1. pose proof Wo as (O0 & O1 & O2 & _).
  unfold channelwise_signal, channelwise_signal_right. rewrite B0, Z.min_id. split.
  - destruct (layers_loop (fun m c => v <- row b c ;; ufunc3_into f a (cube_of v) m (between c (c + 1)) everything everything)
      (fun j k => inr 0 (dim1 out) j && inr 0 (dim2 out) k) (fun i j k => both f (cell a 0 j k) (el b i k)) 0 (dim0 out) out)
      as (m & E & W & (L0 & L1 & L2) & C); auto.
    + intros m c K W (L0 & L1 & L2) _. do_row v. intro_arr w; [assumption|]. do_ufunc m'.
      exists m'. split; auto. split; auto. split; [unfold like; auto|].
      intros i j k. rewrite C1. replace (inr c (c + 1) i) with (i =? c) by arith.
      rewrite L1, L2, andb_assoc. destruct ((i =? c) && _ && _) eqn:B; auto.
      rewrite C0. replace (_ =? 0) with true by arith. rewrite <- C. f_equal; f_equal; arith.
    + exists m. split; auto. split; auto. split; auto. split; auto. split; auto. intros i j k I J K. rewrite C.
      replace (inr 0 (0 + dim0 out) i && _) with true by arith. reflexivity.
  - destruct (layers_loop (fun m c => v <- row b c ;; ufunc3_into f (cube_of v) a m (between c (c + 1)) everything everything)
      (fun j k => inr 0 (dim1 out) j && inr 0 (dim2 out) k) (fun i j k => both f (el b i k) (cell a 0 j k)) 0 (dim0 out) out)
      as (m & E & W & (L0 & L1 & L2) & C); auto.
    + intros m c K W (L0 & L1 & L2) _. do_row v. intro_arr w; [assumption|]. do_ufunc m'.
      exists m'. split; auto. split; auto. split; [unfold like; auto|].
      intros i j k. rewrite C1. replace (inr c (c + 1) i) with (i =? c) by arith.
      rewrite L1, L2, andb_assoc. destruct ((i =? c) && _ && _) eqn:B; auto.
      rewrite C0. replace (_ =? 0) with true by arith. rewrite <- C. f_equal; f_equal; arith.
    + exists m. split; auto. split; auto. split; auto. split; auto. split; auto. intros i j k I J K. rewrite C.
      replace (inr 0 (0 + dim0 out) i && _) with true by arith. reflexivity.
Qed.

Lemma channelwise_spectrum_ok (a : cube A) (b : arr A) out : wf_cube a -> wf b -> wf_cube out ->
  dim0 a = 1 -> dim1 a = dim1 out -> dim2 a = dim2 out -> nrows b = dim0 out -> cols b = dim1 out ->
  (exists m, channelwise_spectrum f a b out = Ok m /\ wf_cube m /\ dim0 m = dim0 out /\ dim1 m = dim1 out /\ dim2 m = dim2 out /\
    forall i j k, 0 <= i < dim0 out -> 0 <= j < dim1 out -> 0 <= k < dim2 out ->
      cell m i j k = both f (cell a 0 j k) (el b i j)) /\
  (exists m, channelwise_spectrum_right f b a out = Ok m /\ wf_cube m /\ dim0 m = dim0 out /\ dim1 m = dim1 out /\ dim2 m = dim2 out /\
    forall i j k, 0 <= i < dim0 out -> 0 <= j < dim1 out -> 0 <= k < dim2 out ->
      cell m i j k = both f (el b i j) (cell a 0 j k)).
Proof.
  intros Wa Wb Wo A0 A1 A2 B0 B1. pose proof Wo as (O0 & O1 & O2 & _).
  unfold channelwise_spectrum, channelwise_spectrum_right. rewrite B0, Z.min_id. intro_transpose t. axs. split.
  - destruct (layers_loop (fun m c => v <- row b c ;; ufunc3_view f t (cube_of v) Axes021 m (between c (c + 1)) everything everything)
      (fun j k => inr 0 (dim1 out) j && inr 0 (dim2 out) k) (fun i j k => both f (cell a 0 j k) (el b i j)) 0 (dim0 out) out)
      as (m & E & Wm & (L0 & L1 & L2) & Cm); auto.
    + intros m c K Wm (L0 & L1 & L2) _. do_row v. intro_arr w; [assumption|]. do_view m'.
      exists m'. split; auto. split; auto. split; [unfold like; auto|].
      intros i j k. rewrite C2. replace (inr c (c + 1) i) with (i =? c) by arith.
      rewrite L1, L2. replace ((i =? c) && inr 0 (dim2 out) k && inr 0 (dim1 out) j)
        with ((i =? c) && (inr 0 (dim1 out) j && inr 0 (dim2 out) k)) by arith.
      destruct ((i =? c) && _) eqn:B; auto.
      rewrite C1. replace (_ =? 0) with true by arith. rewrite <- C0, <- C. f_equal; f_equal; arith.
    + exists m. split; auto. split; auto. split; auto. split; auto. split; auto. intros i j k I J K. rewrite Cm.
      replace (inr 0 (0 + dim0 out) i && _) with true by arith. reflexivity.
  - destruct (layers_loop (fun m c => v <- row b c ;; ufunc3_view f (cube_of v) t Axes021 m (between c (c + 1)) everything everything)
      (fun j k => inr 0 (dim1 out) j && inr 0 (dim2 out) k) (fun i j k => both f (el b i j) (cell a 0 j k)) 0 (dim0 out) out)
      as (m & E & Wm & (L0 & L1 & L2) & Cm); auto.
    + intros m c K Wm (L0 & L1 & L2) _. do_row v. intro_arr w; [assumption|]. do_view m'.
      exists m'. split; auto. split; auto. split; [unfold like; auto|].
      intros i j k. rewrite C2. replace (inr c (c + 1) i) with (i =? c) by arith.
      rewrite L1, L2. replace ((i =? c) && inr 0 (dim2 out) k && inr 0 (dim1 out) j)
        with ((i =? c) && (inr 0 (dim1 out) j && inr 0 (dim2 out) k)) by arith.
      destruct ((i =? c) && _) eqn:B; auto.
      rewrite C1. replace (_ =? 0) with true by arith. rewrite <- C0, <- C. f_equal; f_equal; arith.
    + exists m. split; auto. split; auto. split; auto. split; auto. split; auto. intros i j k I J K. rewrite Cm.
      replace (inr 0 (0 + dim0 out) i && _) with true by arith. reflexivity.
Qed.

Variable pivot : option A.
Hypothesis neutral : forall p x, pivot = Some p -> f x p = x.

(** The value of a signal or a spectrum as an operand. *)
Definition value (a : axes) (other : arr A) (i j k : Z) : option A := el other (stretch (nrows other) i) (ax2 a i j k).

Lemma view_different_count_ok (a : axes) label gap s (other : arr A) : a <> Axes021 ->
  wf_spectrogram s -> wf other -> 1 <= sg_count s -> 1 <= nrows other ->
  cols other = ax2 a 0 (sg_frequencies s) (sg_length s) ->
  sg_count s <> 1 -> nrows other <> 1 -> sg_count s <> nrows other ->
  exists r, sg_view_different_number_of_channels junk f pivot a label s other = Ok r /\
    computed f pivot r s label (sg_offset s) (Z.max (sg_count s) (nrows other)) (sg_frequencies s) (sg_length s) gap (part s) (value a other).
Proof.
  intros Na [Ws Ls] Wo Cs Co Sh N M K. unfold sg_view_different_number_of_channels, sg_count, sg_frequencies, sg_length in *.
  pose proof Ws as (S0 & S1 & S2 & _). set (S := sg_channels s) in *.
  destruct (Z.ltb_spec (nrows other) (dim0 S)).
  - do_allocate m. intro_sub v. intro_transpose t. intro_arr w; [assumption|].
    assert (HS : forall i j k, 0 <= i < nrows other -> 0 <= j < dim1 S -> 0 <= k < dim2 S ->
              cell t (ax0 a i j k) (ax1 a i j k) (ax2 a i j k) = cell S i j k).
    { intros i j k I J T. rewrite C0, C. replace (inr _ _ _ && _ && _) with true by arith. f_equal; arith. }
    assert (exists m', ufunc3_view f t w a m everything (between 0 (nrows other)) everything = Ok m' /\ wf_cube m' /\
              dim0 m' = dim0 S /\ dim1 m' = dim1 S /\ dim2 m' = dim2 S /\
              forall i j k, 0 <= i < nrows other -> 0 <= j < dim1 S -> 0 <= k < dim2 S ->
                cell m' i j k = both f (cell S i j k) (el other i (ax2 a i j k))) as (m1 & E1 & Wm1 & F0 & F1 & F2 & Cm1).
    { destruct a; [| |congruence]; axs; do_view m1; exists m1; (split; [auto|]); (split; [auto|]); (split; [lia|]); (split; [lia|]);
        (split; [lia|]); intros i j k I J T; rewrite C2; (replace (inr _ _ _ && _ && _) with true by arith); rewrite C1;
        (replace (_ =? 0) with true by arith); rewrite <- (HS i j k) by lia;
        f_equal; f_equal; arith. }
    rewrite E1. cbn [bind]. intro_sub v'.
    assert (exists m', (match pivot with
                        | None => set3 m1 (from (nrows other)) everything everything v'
                        | Some p => ufunc3_into f v' (scalar3 p) m1 (from (nrows other)) everything everything
                        end) = Ok m' /\ wf_cube m' /\ dim0 m' = dim0 S /\ dim1 m' = dim1 S /\ dim2 m' = dim2 S /\
              forall i j k, 0 <= i < dim0 S -> 0 <= j < dim1 S -> 0 <= k < dim2 S ->
                cell m' i j k = if i <? nrows other then both f (cell S i j k) (el other i (ax2 a i j k))
                                else cell S i j k) as (m2 & E2 & Wm2 & G0 & G1 & G2 & Cm2).
    { destruct pivot as [p|].
      - intro_scalar x. do_ufunc m2. exists m2. split; auto. split; auto. split; [lia|]. split; [lia|]. split; [lia|].
        intros i j k I J T. rewrite C4. destruct (Z.ltb_spec i (nrows other)).
        + replace (inr _ _ _ && _ && _) with false by arith. rewrite Cm1 by lia. reflexivity.
        + replace (inr _ _ _ && _ && _) with true by arith.
          destruct (cell_in S i j k) as [y Ey]; auto. rewrite C2.
          replace (inr _ _ _ && _ && _) with true by arith. use Ey.
          replace (cell x _ _ _) with (Some p) by (rewrite <- C3; f_equal; arith). cbn. now rewrite neutral by auto.
      - do_set m2. exists m2. split; auto. split; auto. split; [lia|]. split; [lia|]. split; [lia|].
        intros i j k I J T. rewrite C3. destruct (Z.ltb_spec i (nrows other)).
        + replace (inr _ _ _ && _ && _) with false by arith. rewrite Cm1 by lia. reflexivity.
        + replace (inr _ _ _ && _ && _) with true by arith. rewrite C2.
          replace (inr _ _ _ && _ && _) with true by arith. f_equal; arith. }
    rewrite E2. cbn [bind fst snd]. eexists. split; [reflexivity|]. apply computed_intro; auto; try lia.
    intros i j k I J T. rewrite Cm2 by lia. unfold part, value, sg_count. fold S.
    replace (stretch (dim0 S) i) with i by arith. replace (stretch (nrows other) i) with i by arith.
    destruct (cell_in S i j k) as [x Ex]; auto; try lia. rewrite Ex.
    destruct (Z.ltb_spec i (nrows other)).
    + destruct (el_in other i (ax2 a i j k)) as [y Ey]; auto; [lia|destruct a; axs; congruence || lia|]. rewrite Ey. reflexivity.
    + rewrite (el_out other) by (auto; lia). reflexivity.
  - do_allocate m. intro_transpose t.
    set (o1 := block other (between 0 (dim0 S)) everything). set (o2 := block other (from (dim0 S)) everything).
    assert (Wo1 : wf o1) by (now apply wf_block). assert (Wo2 : wf o2) by (now apply wf_block).
    pose proof Wo as [Nc _].
    assert (N1 : nrows o1 = dim0 S).
    { unfold o1. rewrite nrows_block, lower_between, upper_between by lia. lia. }
    assert (N2 : nrows o2 = nrows other - dim0 S).
    { unfold o2. rewrite nrows_block, lower_from, upper_from by lia. lia. }
    assert (K1 : cols o1 = cols other).
    { unfold o1. rewrite cols_block, lower_everything, upper_everything by lia. lia. }
    assert (K2 : cols o2 = cols other).
    { unfold o2. rewrite cols_block, lower_everything, upper_everything by lia. lia. }
    assert (V1 : forall i j, 0 <= i < dim0 S -> 0 <= j < cols other -> el o1 i j = el other i j).
    { intros i j I J. unfold o1. rewrite el_block, lower_between, upper_between, lower_everything, upper_everything by (auto; lia).
      replace (_ && _ && _ && _) with true by lia. f_equal; lia. }
    assert (V2 : forall i j, 0 <= i < nrows other - dim0 S -> 0 <= j < cols other -> el o2 i j = el other (dim0 S + i) j).
    { intros i j I J. unfold o2. rewrite el_block, lower_from, upper_from, lower_everything, upper_everything by (auto; lia).
      replace (_ && _ && _ && _) with true by lia. f_equal; lia. }
    clearbody o1 o2. intro_arr w1; [assumption|].
    assert (exists m', ufunc3_view f t w1 a m everything (between 0 (dim0 S)) everything = Ok m' /\ wf_cube m' /\
              dim0 m' = nrows other /\ dim1 m' = dim1 S /\ dim2 m' = dim2 S /\
              forall i j k, 0 <= i < dim0 S -> 0 <= j < dim1 S -> 0 <= k < dim2 S ->
                cell m' i j k = both f (cell S i j k) (el other i (ax2 a i j k))) as (m1 & E1 & Wm1 & F0 & F1 & F2 & Cm1).
    { destruct a; [| |congruence]; axs; do_view m1; exists m1; (split; [auto|]); (split; [auto|]); (split; [lia|]); (split; [lia|]);
        (split; [lia|]); intros i j k I J T; rewrite C1; (replace (inr _ _ _ && _ && _) with true by arith); rewrite C0;
        (replace (_ =? 0) with true by arith); rewrite <- (C i j k), <- V1 by lia; f_equal; f_equal; arith. }
    rewrite E1. cbn [bind]. intro_arr w2; [assumption|].
    assert (exists m', (match pivot with
                        | None => set3_view a m1 everything (from (dim0 S)) everything w2
                        | Some p => ufunc3_view f (scalar3 p) w2 a m1 everything (from (dim0 S)) everything
                        end) = Ok m' /\ wf_cube m' /\ dim0 m' = nrows other /\ dim1 m' = dim1 S /\ dim2 m' = dim2 S /\
              forall i j k, 0 <= i < nrows other -> 0 <= j < dim1 S -> 0 <= k < dim2 S ->
                cell m' i j k = if i <? dim0 S then both f (cell S i j k) (el other i (ax2 a i j k))
                                else option_map (right_only f pivot) (el other i (ax2 a i j k))) as (m2 & E2 & Wm2 & G0 & G1 & G2 & Cm2).
    { unfold right_only. destruct pivot as [p|].
      - intro_scalar x. destruct a; [| |congruence]; axs; do_view m2; exists m2; (split; [auto|]); (split; [auto|]); (split; [lia|]); (split; [lia|]);
          (split; [lia|]); intros i j k I J T; rewrite C3; (destruct (Z.ltb_spec i (dim0 S));
          [ replace (inr _ _ _ && _ && _) with false by arith; rewrite Cm1 by lia; reflexivity
          | replace (inr _ _ _ && _ && _) with true by arith; rewrite C1; replace (_ =? 0) with true by arith;
            replace (cell x _ _ _) with (Some p) by (rewrite <- C2; f_equal; arith);
            rewrite V2 by arith;
            match goal with |- both _ _ (el other ?u ?v) = option_map _ (el other ?x ?y) =>
              replace (el other u v) with (el other x y) by (f_equal; arith); destruct (el other x y); reflexivity end ]).
      - destruct a; [| |congruence]; axs; do_set_view m2; exists m2; (split; [auto|]); (split; [auto|]); (split; [lia|]); (split; [lia|]);
          (split; [lia|]); intros i j k I J T; rewrite C2; (destruct (Z.ltb_spec i (dim0 S));
          [ replace (inr _ _ _ && _ && _) with false by arith; rewrite Cm1 by lia; reflexivity
          | replace (inr _ _ _ && _ && _) with true by arith; rewrite C1; replace (_ =? 0) with true by arith;
            rewrite V2 by arith;
            match goal with |- (el other ?u ?v) = option_map _ (el other ?x ?y) =>
              replace (el other u v) with (el other x y) by (f_equal; arith); destruct (el other x y); reflexivity end ]). }
    rewrite E2. cbn [bind fst snd]. eexists. split; [reflexivity|]. apply computed_intro; auto; try lia.
    intros i j k I J T. rewrite Cm2 by lia. unfold part, value, sg_count. fold S.
    replace (stretch (dim0 S) i) with i by arith. replace (stretch (nrows other) i) with i by arith.
    destruct (el_in other i (ax2 a i j k)) as [y Ey]; auto; [lia|destruct a; axs; congruence || lia|]. rewrite Ey.
    destruct (Z.ltb_spec i (dim0 S)).
    + destruct (cell_in S i j k) as [x Ex]; auto; try lia. rewrite Ex. reflexivity.
    + rewrite (cell_out S) by (auto; lia). reflexivity.
Qed.

Lemma view_different_count_right_ok (a : axes) label gap s (other : arr A) : a <> Axes021 ->
  wf_spectrogram s -> wf other -> 1 <= sg_count s -> 1 <= nrows other ->
  cols other = ax2 a 0 (sg_frequencies s) (sg_length s) ->
  sg_count s <> 1 -> nrows other <> 1 -> sg_count s <> nrows other ->
  exists r, sg_view_different_number_of_channels_right junk f pivot a label s other = Ok r /\
    computed f pivot r s label (sg_offset s) (Z.max (sg_count s) (nrows other)) (sg_frequencies s) (sg_length s) gap (value a other) (part s).
Proof.
  intros Na [Ws Ls] Wo Cs Co Sh N M K. unfold sg_view_different_number_of_channels_right, sg_count, sg_frequencies, sg_length in *.
  pose proof Ws as (S0 & S1 & S2 & _). set (S := sg_channels s) in *.
  destruct (Z.ltb_spec (nrows other) (dim0 S)).
  - do_allocate m. intro_sub v. intro_transpose t. intro_arr w; [assumption|].
    assert (HS : forall i j k, 0 <= i < nrows other -> 0 <= j < dim1 S -> 0 <= k < dim2 S ->
              cell t (ax0 a i j k) (ax1 a i j k) (ax2 a i j k) = cell S i j k).
    { intros i j k I J T. rewrite C0, C. replace (inr _ _ _ && _ && _) with true by arith. f_equal; arith. }
    assert (exists m', ufunc3_view f w t a m everything (between 0 (nrows other)) everything = Ok m' /\ wf_cube m' /\
              dim0 m' = dim0 S /\ dim1 m' = dim1 S /\ dim2 m' = dim2 S /\
              forall i j k, 0 <= i < nrows other -> 0 <= j < dim1 S -> 0 <= k < dim2 S ->
                cell m' i j k = both f (el other i (ax2 a i j k)) (cell S i j k)) as (m1 & E1 & Wm1 & F0 & F1 & F2 & Cm1).
    { destruct a; [| |congruence]; axs; do_view m1; exists m1; (split; [auto|]); (split; [auto|]); (split; [lia|]); (split; [lia|]);
        (split; [lia|]); intros i j k I J T; rewrite C2; (replace (inr _ _ _ && _ && _) with true by arith); rewrite C1;
        (replace (_ =? 0) with true by arith); rewrite <- (HS i j k) by lia;
        f_equal; f_equal; arith. }
    rewrite E1. cbn [bind]. intro_sub v'.
    assert (exists m', (match pivot with
                        | None => set3 m1 (from (nrows other)) everything everything v'
                        | Some p => ufunc3_into f (scalar3 p) v' m1 (from (nrows other)) everything everything
                        end) = Ok m' /\ wf_cube m' /\ dim0 m' = dim0 S /\ dim1 m' = dim1 S /\ dim2 m' = dim2 S /\
              forall i j k, 0 <= i < dim0 S -> 0 <= j < dim1 S -> 0 <= k < dim2 S ->
                cell m' i j k = if i <? nrows other then both f (el other i (ax2 a i j k)) (cell S i j k)
                                else option_map (right_only f pivot) (cell S i j k)) as (m2 & E2 & Wm2 & G0 & G1 & G2 & Cm2).
    { unfold right_only. destruct pivot as [p|].
      - intro_scalar x. do_ufunc m2. exists m2. split; auto. split; auto. split; [lia|]. split; [lia|]. split; [lia|].
        intros i j k I J T. rewrite C4. destruct (Z.ltb_spec i (nrows other)).
        + replace (inr _ _ _ && _ && _) with false by arith. rewrite Cm1 by lia. reflexivity.
        + replace (inr _ _ _ && _ && _) with true by arith.
          destruct (cell_in S i j k) as [y Ey]; auto. rewrite C2.
          replace (inr _ _ _ && _ && _) with true by arith. use Ey.
          replace (cell x _ _ _) with (Some p) by (rewrite <- C3; f_equal; arith). reflexivity.
      - do_set m2. exists m2. split; auto. split; auto. split; [lia|]. split; [lia|]. split; [lia|].
        intros i j k I J T. rewrite C3. destruct (Z.ltb_spec i (nrows other)).
        + replace (inr _ _ _ && _ && _) with false by arith. rewrite Cm1 by lia. reflexivity.
        + replace (inr _ _ _ && _ && _) with true by arith. rewrite C2.
          replace (inr _ _ _ && _ && _) with true by arith. destruct (cell_in S i j k) as [y Ey]; auto. use Ey. reflexivity. }
    rewrite E2. cbn [bind fst snd]. eexists. split; [reflexivity|]. apply computed_intro; auto; try lia.
    intros i j k I J T. rewrite Cm2 by lia. unfold part, value, sg_count. fold S.
    replace (stretch (dim0 S) i) with i by arith. replace (stretch (nrows other) i) with i by arith.
    destruct (cell_in S i j k) as [x Ex]; auto; try lia. rewrite Ex.
    destruct (Z.ltb_spec i (nrows other)).
    + destruct (el_in other i (ax2 a i j k)) as [y Ey]; auto; [lia|destruct a; axs; congruence || lia|]. rewrite Ey. reflexivity.
    + rewrite (el_out other) by (auto; lia). reflexivity.
  - do_allocate m. intro_transpose t.
    set (o1 := block other (between 0 (dim0 S)) everything). set (o2 := block other (from (dim0 S)) everything).
    assert (Wo1 : wf o1) by (now apply wf_block). assert (Wo2 : wf o2) by (now apply wf_block).
    pose proof Wo as [Nc _].
    assert (N1 : nrows o1 = dim0 S).
    { unfold o1. rewrite nrows_block, lower_between, upper_between by lia. lia. }
    assert (N2 : nrows o2 = nrows other - dim0 S).
    { unfold o2. rewrite nrows_block, lower_from, upper_from by lia. lia. }
    assert (K1 : cols o1 = cols other).
    { unfold o1. rewrite cols_block, lower_everything, upper_everything by lia. lia. }
    assert (K2 : cols o2 = cols other).
    { unfold o2. rewrite cols_block, lower_everything, upper_everything by lia. lia. }
    assert (V1 : forall i j, 0 <= i < dim0 S -> 0 <= j < cols other -> el o1 i j = el other i j).
    { intros i j I J. unfold o1. rewrite el_block, lower_between, upper_between, lower_everything, upper_everything by (auto; lia).
      replace (_ && _ && _ && _) with true by lia. f_equal; lia. }
    assert (V2 : forall i j, 0 <= i < nrows other - dim0 S -> 0 <= j < cols other -> el o2 i j = el other (dim0 S + i) j).
    { intros i j I J. unfold o2. rewrite el_block, lower_from, upper_from, lower_everything, upper_everything by (auto; lia).
      replace (_ && _ && _ && _) with true by lia. f_equal; lia. }
    clearbody o1 o2. intro_arr w1; [assumption|].
    assert (exists m', ufunc3_view f w1 t a m everything (between 0 (dim0 S)) everything = Ok m' /\ wf_cube m' /\
              dim0 m' = nrows other /\ dim1 m' = dim1 S /\ dim2 m' = dim2 S /\
              forall i j k, 0 <= i < dim0 S -> 0 <= j < dim1 S -> 0 <= k < dim2 S ->
                cell m' i j k = both f (el other i (ax2 a i j k)) (cell S i j k)) as (m1 & E1 & Wm1 & F0 & F1 & F2 & Cm1).
    { destruct a; [| |congruence]; axs; do_view m1; exists m1; (split; [auto|]); (split; [auto|]); (split; [lia|]); (split; [lia|]);
        (split; [lia|]); intros i j k I J T; rewrite C1; (replace (inr _ _ _ && _ && _) with true by arith); rewrite C0;
        (replace (_ =? 0) with true by arith); rewrite <- (C i j k), <- V1 by lia; f_equal; f_equal; arith. }
    rewrite E1. cbn [bind]. intro_arr w2; [assumption|].
    assert (exists m', (match pivot with
                        | None => set3_view a m1 everything (from (dim0 S)) everything w2
                        | Some p => ufunc3_view f w2 (scalar3 p) a m1 everything (from (dim0 S)) everything
                        end) = Ok m' /\ wf_cube m' /\ dim0 m' = nrows other /\ dim1 m' = dim1 S /\ dim2 m' = dim2 S /\
              forall i j k, 0 <= i < nrows other -> 0 <= j < dim1 S -> 0 <= k < dim2 S ->
                cell m' i j k = if i <? dim0 S then both f (el other i (ax2 a i j k)) (cell S i j k)
                                else el other i (ax2 a i j k)) as (m2 & E2 & Wm2 & G0 & G1 & G2 & Cm2).
    { unfold right_only. destruct pivot as [p|].
      - intro_scalar x. destruct a; [| |congruence]; axs; do_view m2; exists m2; (split; [auto|]); (split; [auto|]); (split; [lia|]); (split; [lia|]);
          (split; [lia|]); intros i j k I J T; rewrite C3; (destruct (Z.ltb_spec i (dim0 S));
          [ replace (inr _ _ _ && _ && _) with false by arith; rewrite Cm1 by lia; reflexivity
          | replace (inr _ _ _ && _ && _) with true by arith; rewrite C1; replace (_ =? 0) with true by arith;
            replace (cell x _ _ _) with (Some p) by (rewrite <- C2; f_equal; arith);
            rewrite V2 by arith;
            match goal with |- both _ (el other ?u ?v) _ = el other ?x ?y =>
              replace (el other u v) with (el other x y) by (f_equal; arith); destruct (el other x y); cbn; rewrite ?neutral by auto; reflexivity end ]).
      - destruct a; [| |congruence]; axs; do_set_view m2; exists m2; (split; [auto|]); (split; [auto|]); (split; [lia|]); (split; [lia|]);
          (split; [lia|]); intros i j k I J T; rewrite C2; (destruct (Z.ltb_spec i (dim0 S));
          [ replace (inr _ _ _ && _ && _) with false by arith; rewrite Cm1 by lia; reflexivity
          | replace (inr _ _ _ && _ && _) with true by arith; rewrite C1; replace (_ =? 0) with true by arith;
            rewrite V2 by arith;
            match goal with |- (el other ?u ?v) = el other ?x ?y =>
              replace (el other u v) with (el other x y) by (f_equal; arith); destruct (el other x y); cbn; rewrite ?neutral by auto; reflexivity end ]). }
    rewrite E2. cbn [bind fst snd]. eexists. split; [reflexivity|]. apply computed_intro; auto; try lia.
    intros i j k I J T. rewrite Cm2 by lia. unfold part, value, sg_count. fold S.
    replace (stretch (dim0 S) i) with i by arith. replace (stretch (nrows other) i) with i by arith.
    destruct (el_in other i (ax2 a i j k)) as [y Ey]; auto; [lia|destruct a; axs; congruence || lia|]. rewrite Ey.
    destruct (Z.ltb_spec i (dim0 S)).
    + destruct (cell_in S i j k) as [x Ex]; auto; try lia. rewrite Ex. reflexivity.
    + rewrite (cell_out S) by (auto; lia). reflexivity.
Qed.

Lemma view_overlaps_left_ok (a : axes) label gap s (other : arr A) : a <> Axes021 ->
  wf_spectrogram s -> wf other -> nrows other = 1 \/ nrows other = sg_count s ->
  cols other = ax2 a 0 (sg_frequencies s) (sg_length s) ->
  let sc := sg_channels s in
  exists r, sg_view_overlaps junk s (transpose a sc) (cube_of other) (dim0 sc) (dim1 sc) (dim2 sc) a f label = Ok r /\
    computed f pivot r s label (sg_offset s) (sg_count s) (sg_frequencies s) (sg_length s) gap (part s) (value a other).
Proof.
  intros Na [Ws Ls] Wo Co Sh. unfold sg_view_overlaps, sg_count, sg_frequencies, sg_length in *.
  pose proof Ws as (S0 & S1 & S2 & _). cbv zeta. set (S := sg_channels s) in *.
  do_allocate m. intro_transpose t. intro_arr w; [assumption|].
  destruct a; [| |congruence]; axs; do_view m1; eexists; (split; [reflexivity|]); (apply computed_intro; auto; try lia);
    intros i j k I J T; unfold part, value, sg_count; fold S; axs;
    rewrite C1; (replace (inr _ _ _ && _ && _) with true by arith);
    (destruct (cell_in S i j k) as [x Ex]; auto; try lia);
    (replace (cell S (stretch (dim0 S) i) j k) with (Some x) by (rewrite <- Ex; f_equal; arith));
    [ destruct (el_in other (stretch (nrows other) i) k) as [y Ey]; auto; try arith
    | destruct (el_in other (stretch (nrows other) i) j) as [y Ey]; auto; try arith ];
    rewrite Ey, C0; (replace (_ =? 0) with true by arith); use Ey;
    (rewrite <- (C i j k) in Ex); use Ex; reflexivity.
Qed.

Lemma view_overlaps_right_ok (a : axes) label gap s (other : arr A) : a <> Axes021 ->
  wf_spectrogram s -> wf other -> nrows other = 1 \/ nrows other = sg_count s ->
  cols other = ax2 a 0 (sg_frequencies s) (sg_length s) ->
  let sc := sg_channels s in
  exists r, sg_view_overlaps junk s (cube_of other) (transpose a sc) (dim0 sc) (dim1 sc) (dim2 sc) a f label = Ok r /\
    computed f pivot r s label (sg_offset s) (sg_count s) (sg_frequencies s) (sg_length s) gap (value a other) (part s).
Proof.
  intros Na [Ws Ls] Wo Co Sh. unfold sg_view_overlaps, sg_count, sg_frequencies, sg_length in *.
  pose proof Ws as (S0 & S1 & S2 & _). cbv zeta. set (S := sg_channels s) in *.
  do_allocate m. intro_transpose t. intro_arr w; [assumption|].
  destruct a; [| |congruence]; axs; do_view m1; eexists; (split; [reflexivity|]); (apply computed_intro; auto; try lia);
    intros i j k I J T; unfold part, value, sg_count; fold S; axs;
    rewrite C1; (replace (inr _ _ _ && _ && _) with true by arith);
    (destruct (cell_in S i j k) as [x Ex]; auto; try lia);
    (replace (cell S (stretch (dim0 S) i) j k) with (Some x) by (rewrite <- Ex; f_equal; arith));
    [ destruct (el_in other (stretch (nrows other) i) k) as [y Ey]; auto; try arith
    | destruct (el_in other (stretch (nrows other) i) j) as [y Ey]; auto; try arith ];
    rewrite Ey, C0; (replace (_ =? 0) with true by arith); use Ey;
    (rewrite <- (C i j k) in Ex); use Ex; reflexivity.
Qed.

(** ** Operands of the same shape *)

Lemma sg_algebra_signal_same (O : ops A) label gap s (o : signal A) : wf_spectrogram s -> wf (channels o) ->
  1 <= sg_count s -> 1 <= nrows (channels o) -> sg_length s = length o -> sg_offset s = offset o ->
  exists r, sg_algebra_signal O junk f pivot label s o = Ok r /\
    computed f pivot r s label (sg_offset s) (Z.max (sg_count s) (nrows (channels o))) (sg_frequencies s) (sg_length s) gap (part s) (value Axes102 (channels o)).
Proof.
  intros Ws Wo Cs Co Sh Off. unfold sg_algebra_signal. unfold length in *; replace ((_ =? _) && _) with true by lia.
  destruct (Z.eqb_spec (sg_count s) 1) as [N|N]; [|destruct (Z.eqb_spec (count o) 1) as [M|M];
    [|destruct (Z.eqb_spec (sg_count s) (count o)) as [K|K]]]; unfold count in *.
  - destruct Ws as [Ws Ls]. unfold sg_count, sg_frequencies, sg_length in *. pose proof Ws as (S0 & S1 & S2 & _).
    do_layer v. unfold sg_overlaps. do_allocate m.
    destruct (channelwise_signal_ok v (channels o) m) as [L' R']; auto; try lia.
    destruct L' as (m1 & Em & Wm & F0 & F1 & F2 & Cm). rewrite Em. cbn [bind].
    eexists. split; [reflexivity|]. apply computed_intro; auto; try lia.
    intros i j k I J T. rewrite Cm by lia. unfold part, value, sg_count. cbn [ax2].
    destruct (cell_in (sg_channels s) 0 j k) as [x Ex]; auto; try lia.
    replace (cell (sg_channels s) _ j k) with (Some x) by (rewrite <- Ex; f_equal; arith).
    rewrite C. use Ex.
    destruct (el_in (channels o) i k) as [y Ey]; auto; try lia. use Ey. reflexivity.
  - destruct (row_ok (channels o) 0) as (v & Er & Wr & N0 & N1 & Cr); [assumption|lia|]. rewrite Er. cbn [bind].
    destruct (view_overlaps_left_ok Axes102 label gap s v) as (r & E & C); auto; try (cbn [ax2]; lia); try congruence.
    exists r. split; [exact E|]. rewrite M, Z.max_l by lia.
    destruct C as (c1 & c2 & c3 & c4 & c5 & c6 & c7 & c8 & C). repeat split; auto; try apply c1. intros i j k I J T.
    rewrite C by auto. unfold value. rewrite N0, M. replace (stretch 1 i) with 0 by reflexivity. rewrite Cr. reflexivity.
  - destruct (view_overlaps_left_ok Axes102 label gap s (channels o)) as (r & E & C); auto; try (cbn [ax2]; lia); try congruence.
    exists r. split; [exact E|]. rewrite <- K, Z.max_id. exact C.
  - destruct (view_different_count_ok Axes102 label gap s (channels o)) as (r & E & C); auto; try congruence; try (cbn [ax2]; lia).
    exists r. split; [exact E|exact C].
Qed.

(** ** Operands of the same shape *)

Lemma sg_algebra_signal_right_same (O : ops A) label gap s (o : signal A) : wf_spectrogram s -> wf (channels o) ->
  1 <= sg_count s -> 1 <= nrows (channels o) -> sg_length s = length o -> sg_offset s = offset o ->
  exists r, sg_algebra_signal_right O junk f pivot label s o = Ok r /\
    computed f pivot r s label (sg_offset s) (Z.max (sg_count s) (nrows (channels o))) (sg_frequencies s) (sg_length s) gap (value Axes102 (channels o)) (part s).
Proof.
  intros Ws Wo Cs Co Sh Off. unfold sg_algebra_signal_right. unfold length in *; replace ((_ =? _) && _) with true by lia.
  destruct (Z.eqb_spec (sg_count s) 1) as [N|N]; [|destruct (Z.eqb_spec (count o) 1) as [M|M];
    [|destruct (Z.eqb_spec (sg_count s) (count o)) as [K|K]]]; unfold count in *.
  - destruct Ws as [Ws Ls]. unfold sg_count, sg_frequencies, sg_length in *. pose proof Ws as (S0 & S1 & S2 & _).
    do_layer v. unfold sg_overlaps. do_allocate m.
    destruct (channelwise_signal_ok v (channels o) m) as [L' R']; auto; try lia.
    destruct R' as (m1 & Em & Wm & F0 & F1 & F2 & Cm). rewrite Em. cbn [bind].
    eexists. split; [reflexivity|]. apply computed_intro; auto; try lia.
    intros i j k I J T. rewrite Cm by lia. unfold part, value, sg_count. cbn [ax2].
    destruct (cell_in (sg_channels s) 0 j k) as [x Ex]; auto; try lia.
    replace (cell (sg_channels s) _ j k) with (Some x) by (rewrite <- Ex; f_equal; arith).
    rewrite C. use Ex.
    destruct (el_in (channels o) i k) as [y Ey]; auto; try lia. use Ey. reflexivity.
  - destruct (row_ok (channels o) 0) as (v & Er & Wr & N0 & N1 & Cr); [assumption|lia|]. rewrite Er. cbn [bind].
    destruct (view_overlaps_right_ok Axes102 label gap s v) as (r & E & C); auto; try (cbn [ax2]; lia); try congruence.
    exists r. split; [exact E|]. rewrite M, Z.max_l by lia.
    destruct C as (c1 & c2 & c3 & c4 & c5 & c6 & c7 & c8 & C). repeat split; auto; try apply c1. intros i j k I J T.
    rewrite C by auto. unfold value. rewrite N0, M. replace (stretch 1 i) with 0 by reflexivity. rewrite Cr. reflexivity.
  - destruct (view_overlaps_right_ok Axes102 label gap s (channels o)) as (r & E & C); auto; try (cbn [ax2]; lia); try congruence.
    exists r. split; [exact E|]. rewrite <- K, Z.max_id. exact C.
  - destruct (view_different_count_right_ok Axes102 label gap s (channels o)) as (r & E & C); auto; try congruence; try (cbn [ax2]; lia).
    exists r. split; [exact E|exact C].
Qed.

(** ** Operands of the same shape *)

Lemma sg_algebra_spectrum_same label gap s (o : spectrum A R) : wf_spectrogram s -> wf (sp_channels o) ->
  1 <= sg_count s -> 1 <= nrows (sp_channels o) -> sp_length o = sg_frequencies s ->
  exists r, sg_algebra_spectrum  junk f pivot label s o = Ok r /\
    computed f pivot r s label (sg_offset s) (Z.max (sg_count s) (nrows (sp_channels o))) (sg_frequencies s) (sg_length s) gap (part s) (value Axes201 (sp_channels o)).
Proof.
  intros Ws Wo Cs Co Sh. unfold sg_algebra_spectrum. unfold sp_length in *; replace (negb _) with false by lia.
  destruct (Z.eqb_spec (sg_count s) 1) as [N|N]; [|destruct (Z.eqb_spec (sp_count o) 1) as [M|M];
    [|destruct (Z.eqb_spec (sg_count s) (sp_count o)) as [K|K]]]; unfold sp_count in *.
  - destruct Ws as [Ws Ls]. unfold sg_count, sg_frequencies, sg_length in *. pose proof Ws as (S0 & S1 & S2 & _).
    do_layer v. unfold sg_overlaps. do_allocate m.
    destruct (channelwise_spectrum_ok v (sp_channels o) m) as [L' R']; auto; try lia.
    destruct L' as (m1 & Em & Wm & F0 & F1 & F2 & Cm). rewrite Em. cbn [bind].
    eexists. split; [reflexivity|]. apply computed_intro; auto; try lia.
    intros i j k I J T. rewrite Cm by lia. unfold part, value, sg_count. cbn [ax2].
    destruct (cell_in (sg_channels s) 0 j k) as [x Ex]; auto; try lia.
    replace (cell (sg_channels s) _ j k) with (Some x) by (rewrite <- Ex; f_equal; arith).
    rewrite C. use Ex.
    destruct (el_in (sp_channels o) i j) as [y Ey]; auto; try lia. use Ey. reflexivity.
  - destruct (row_ok (sp_channels o) 0) as (v & Er & Wr & N0 & N1 & Cr); [assumption|lia|]. rewrite Er. cbn [bind].
    destruct (view_overlaps_left_ok Axes201 label gap s v) as (r & E & C); auto; try (cbn [ax2]; lia); try congruence.
    exists r. split; [exact E|]. rewrite M, Z.max_l by lia.
    destruct C as (c1 & c2 & c3 & c4 & c5 & c6 & c7 & c8 & C). repeat split; auto; try apply c1. intros i j k I J T.
    rewrite C by auto. unfold value. rewrite N0, M. replace (stretch 1 i) with 0 by reflexivity. rewrite Cr. reflexivity.
  - destruct (view_overlaps_left_ok Axes201 label gap s (sp_channels o)) as (r & E & C); auto; try (cbn [ax2]; lia); try congruence.
    exists r. split; [exact E|]. rewrite <- K, Z.max_id. exact C.
  - destruct (view_different_count_ok Axes201 label gap s (sp_channels o)) as (r & E & C); auto; try congruence; try (cbn [ax2]; lia).
    exists r. split; [exact E|exact C].
Qed.

(** ** Operands of the same shape *)

Lemma sg_algebra_spectrum_right_same label gap s (o : spectrum A R) : wf_spectrogram s -> wf (sp_channels o) ->
  1 <= sg_count s -> 1 <= nrows (sp_channels o) -> sp_length o = sg_frequencies s ->
  exists r, sg_algebra_spectrum_right  junk f pivot label s o = Ok r /\
    computed f pivot r s label (sg_offset s) (Z.max (sg_count s) (nrows (sp_channels o))) (sg_frequencies s) (sg_length s) gap (value Axes201 (sp_channels o)) (part s).
Proof.
  intros Ws Wo Cs Co Sh. unfold sg_algebra_spectrum_right. unfold sp_length in *; replace (negb _) with false by lia.
  destruct (Z.eqb_spec (sg_count s) 1) as [N|N]; [|destruct (Z.eqb_spec (sp_count o) 1) as [M|M];
    [|destruct (Z.eqb_spec (sg_count s) (sp_count o)) as [K|K]]]; unfold sp_count in *.
  - destruct Ws as [Ws Ls]. unfold sg_count, sg_frequencies, sg_length in *. pose proof Ws as (S0 & S1 & S2 & _).
    do_layer v. unfold sg_overlaps. do_allocate m.
    destruct (channelwise_spectrum_ok v (sp_channels o) m) as [L' R']; auto; try lia.
    destruct R' as (m1 & Em & Wm & F0 & F1 & F2 & Cm). rewrite Em. cbn [bind].
    eexists. split; [reflexivity|]. apply computed_intro; auto; try lia.
    intros i j k I J T. rewrite Cm by lia. unfold part, value, sg_count. cbn [ax2].
    destruct (cell_in (sg_channels s) 0 j k) as [x Ex]; auto; try lia.
    replace (cell (sg_channels s) _ j k) with (Some x) by (rewrite <- Ex; f_equal; arith).
    rewrite C. use Ex.
    destruct (el_in (sp_channels o) i j) as [y Ey]; auto; try lia. use Ey. reflexivity.
  - destruct (row_ok (sp_channels o) 0) as (v & Er & Wr & N0 & N1 & Cr); [assumption|lia|]. rewrite Er. cbn [bind].
    destruct (view_overlaps_right_ok Axes201 label gap s v) as (r & E & C); auto; try (cbn [ax2]; lia); try congruence.
    exists r. split; [exact E|]. rewrite M, Z.max_l by lia.
    destruct C as (c1 & c2 & c3 & c4 & c5 & c6 & c7 & c8 & C). repeat split; auto; try apply c1. intros i j k I J T.
    rewrite C by auto. unfold value. rewrite N0, M. replace (stretch 1 i) with 0 by reflexivity. rewrite Cr. reflexivity.
  - destruct (view_overlaps_right_ok Axes201 label gap s (sp_channels o)) as (r & E & C); auto; try (cbn [ax2]; lia); try congruence.
    exists r. split; [exact E|]. rewrite <- K, Z.max_id. exact C.
  - destruct (view_different_count_right_ok Axes201 label gap s (sp_channels o)) as (r & E & C); auto; try congruence; try (cbn [ax2]; lia).
    exists r. split; [exact E|exact C].
Qed.

End Mixed.
