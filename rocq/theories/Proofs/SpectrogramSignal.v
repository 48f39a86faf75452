(** Operators with a spectrogram and a signal of arbitrary shapes: proofs for C22. *)

From Coq Require Import String ZArith List Bool Lia ZifyBool.
From Verif.Model Require Import Py Numpy Functions Signal Spectrum Cube Spectrogram.
From Verif.Spec Require Import TimeSpec FrequencySpec SpectrogramSpec.
From Verif.Proofs Require Import PyFacts NumpyFacts SignalAlgebra CubeFacts SpectrogramAlgebra SpectrogramMixed.
Import ListNotations.
Open Scope Z_scope.

(** The value of an operand is known. *)
Ltac known m Ex i j k :=
  let H := fresh "In" in
  let x := fresh "x" in
  destruct (inr 0 (dim0 m) (stretch (dim0 m) i) && inr 0 (dim1 m) j && inr 0 (dim2 m) k) eqn:H;
  [ edestruct (cell_in m (stretch (dim0 m) i) j k) as [x Ex]; [assumption|arith|arith|arith|]
  | pose proof (cell_out m (stretch (dim0 m) i) j k) as Ex;
      specialize (Ex ltac:(assumption) ltac:(arith)) ].
Ltac known_el q Ex i k :=
  let H := fresh "In" in
  let x := fresh "x" in
  destruct (inr 0 (nrows q) (stretch (nrows q) i) && inr 0 (cols q) k) eqn:H;
  [ edestruct (el_in q (stretch (nrows q) i) k) as [x Ex]; [assumption|arith|arith|]
  | pose proof (el_out q (stretch (nrows q) i) k) as Ex;
      specialize (Ex ltac:(assumption) ltac:(arith)) ].
Ltac shape := split; [auto|]; split; [auto|]; split; [lia|]; split; [lia|]; split; [lia|].

Section Signal.
Context {A R : Type}.
Variable junk : Z -> Z -> Z -> A.
Implicit Types s : spectrogram A R.

(** ** Copying one operand *)

Section Paint.
Variable f : A -> A -> A.
Variable n len : Z.
Variable m0 : cube A.
Hypothesis Wm0 : wf_cube m0.
Hypothesis M0 : dim0 m0 = n.
Hypothesis M2 : dim2 m0 = len.

Lemma paint_spectrogram (S : cube A) sa : wf_cube S -> 1 <= dim0 S <= n -> dim1 m0 = dim1 S -> 0 <= sa -> sa + dim2 S <= len ->
  exists m, (m <- set3 m0 (between 0 (dim0 S)) everything (between sa (sa + dim2 S)) S ;;
             if dim0 S =? 1 then copy_to_layers n everything (between sa (sa + dim2 S)) (fun _ => layer S 0) m else Ok m) = Ok m /\
    wf_cube m /\ dim0 m = n /\ dim1 m = dim1 m0 /\ dim2 m = len /\
    forall i j k, 0 <= i < n -> 0 <= j < dim1 m0 -> 0 <= k < len ->
      cell m i j k = match cell S (stretch (dim0 S) i) j (k - sa) with Some x => Some x | None => cell m0 i j k end.
Proof.
  intros WS N F Sa Sb. pose proof WS as (S0 & S1 & S2 & _). do_set m1.
  destruct (Z.eqb_spec (dim0 S) 1) as [N1|N1].
  - edestruct (copy_to_layers_ok n everything (between sa (sa + dim2 S)) (fun _ => layer S 0)
                 (fun j k => cell S 0 j k) m1) as (m3 & Ek & Wk & F0 & F1 & F2 & Ck);
      [assumption|lia|bds|bds|bds|bds| |].
    { intros m' _ _ _. destruct (layer_ok S 0) as (v & Ev & Wv & V0 & V1 & V2 & Cv); auto; try lia.
      exists v. repeat split; auto; try lia; try apply Wv. intros. rewrite Cv. reflexivity. }
    exists m3. shape. intros i j k I J K. rewrite Ck, C.
    known S Ex i j (k - sa); rewrite Ex; decide_ifs; try use Ex; auto.
  - exists m1. shape. intros i j k I J K. rewrite C.
    known S Ex i j (k - sa); rewrite Ex; decide_ifs; try use Ex; auto.
Qed.

Lemma paint_spectrogram_pivot p (S : cube A) sa : wf_cube S -> 1 <= dim0 S <= n -> dim1 m0 = dim1 S -> 0 <= sa -> sa + dim2 S <= len ->
  exists m, (m <- ufunc3_into f (scalar3 p) S m0 (between 0 (dim0 S)) everything (between sa (sa + dim2 S)) ;;
             if dim0 S =? 1 then
               copy_to_layers n everything (between sa (sa + dim2 S))
                 (fun m => v <- layer m 0 ;; Ok (sub3 v everything everything (between sa (sa + dim2 S)))) m
             else Ok m) = Ok m /\
    wf_cube m /\ dim0 m = n /\ dim1 m = dim1 m0 /\ dim2 m = len /\
    forall i j k, 0 <= i < n -> 0 <= j < dim1 m0 -> 0 <= k < len ->
      cell m i j k = match cell S (stretch (dim0 S) i) j (k - sa) with Some x => Some (f p x) | None => cell m0 i j k end.
Proof.
  intros WS N F Sa Sb. pose proof WS as (S0 & S1 & S2 & _). intro_scalar w. do_ufunc m4.
  destruct (Z.eqb_spec (dim0 S) 1) as [N1|N1].
  - edestruct (copy_to_layers_ok n everything (between sa (sa + dim2 S))
                 (fun m => v <- layer m 0 ;; Ok (sub3 v everything everything (between sa (sa + dim2 S))))
                 (fun j k => if inr 0 (dim1 S) j && inr 0 (dim2 S) k then cell m4 0 j (sa + k) else None) m4)
      as (m5 & Ek & Wk & H0 & H1 & H2 & Ck); [assumption|lia|bds|bds|bds|bds| |].
    { intros m' W' (L0 & L1 & L2) C'. do_layer v. intro_sub v'. exists v'. split; auto. split; auto.
      split; [lia|]. split; [lia|]. split; [lia|]. intros j k. rewrite C2, C1, C'. decide_ifs; auto; f_equal; lia. }
    exists m5. shape. intros i j k I J K. rewrite Ck, !C0. known S Ex i j (k - sa); rewrite Ex; decide_ifs; try use Ex; auto;
      replace (cell w _ _ _) with (Some p) by (rewrite <- C; f_equal; arith); reflexivity.
  - exists m4. shape. intros i j k I J K. rewrite !C0. known S Ex i j (k - sa); rewrite Ex; decide_ifs; try use Ex; auto;
      replace (cell w _ _ _) with (Some p) by (rewrite <- C; f_equal; arith); reflexivity.
Qed.

Lemma paint_signal (Q : arr A) oa : wf Q -> 1 <= nrows Q <= n -> 0 <= oa -> oa + cols Q <= len ->
  exists m, (m <- set3_view Axes102 m0 everything (between 0 (nrows Q)) (between oa (oa + cols Q)) (cube_of Q) ;;
             if nrows Q =? 1 then
               for_each (zseq 1 (n - 1)) (fun m c => v <- row Q 0 ;; set3_view Axes102 m everything (between c (c + 1)) (between oa (oa + cols Q)) (cube_of v)) m
             else Ok m) = Ok m /\
    wf_cube m /\ dim0 m = n /\ dim1 m = dim1 m0 /\ dim2 m = len /\
    forall i j k, 0 <= i < n -> 0 <= j < dim1 m0 -> 0 <= k < len ->
      cell m i j k = match el Q (stretch (nrows Q) i) (k - oa) with Some x => Some x | None => cell m0 i j k end.
Proof.
  intros WQ N Oa Ob. pose proof WQ as (Q1 & _). pose proof Wm0 as (G0 & G1 & G2 & _).
  intro_arr w; [assumption|]. do_set_view m1.
  destruct (Z.eqb_spec (nrows Q) 1) as [N1|N1].
  - destruct (layers_loop (fun m c => v <- row Q 0 ;; set3_view Axes102 m everything (between c (c + 1)) (between oa (oa + cols Q)) (cube_of v))
      (fun j k => inr 0 (dim1 m0) j && inr oa (oa + cols Q) k) (fun i j k => el Q 0 (k - oa)) 1 (n - 1) m1)
      as (m & Em & Wm & (L0 & L1 & L2) & Cm); auto; try lia.
    { intros m c K Wm (L0 & L1 & L2) _. do_row v. intro_arr w'; [assumption|]. do_set_view m'.
      exists m'. split; auto. split; auto. split; [unfold like; auto|].
      intros i j k. rewrite C3. replace (inr c (c + 1) i) with (i =? c) by arith.
      replace (dim1 m) with (dim1 m0) by lia.
      replace (inr 0 (dim1 m0) j && (i =? c) && inr oa (oa + cols Q) k)
        with ((i =? c) && (inr 0 (dim1 m0) j && inr oa (oa + cols Q) k)) by arith.
      destruct ((i =? c) && _) eqn:B; auto. rewrite C2. decide_ifs. rewrite <- C1. f_equal; arith. }
    exists m. shape. intros i j k I J K. rewrite Cm, !C0, !C.
    known_el Q Ex i (k - oa); rewrite Ex; decide_ifs; try use Ex; auto.
  - exists m1. shape. intros i j k I J K. rewrite C0, C.
    known_el Q Ex i (k - oa); rewrite Ex; decide_ifs; try use Ex; auto.
Qed.

Lemma paint_signal_pivot p (Q : arr A) oa : wf Q -> 1 <= nrows Q <= n -> 0 <= oa -> oa + cols Q <= len ->
  exists m, (m <- ufunc3_view f (scalar3 p) (cube_of Q) Axes102 m0 everything (between 0 (nrows Q)) (between oa (oa + cols Q)) ;;
             if nrows Q =? 1 then
               copy_to_layers n everything (between oa (oa + cols Q))
                 (fun m => v <- layer m 0 ;; Ok (sub3 v everything everything (between oa (oa + cols Q)))) m
             else Ok m) = Ok m /\
    wf_cube m /\ dim0 m = n /\ dim1 m = dim1 m0 /\ dim2 m = len /\
    forall i j k, 0 <= i < n -> 0 <= j < dim1 m0 -> 0 <= k < len ->
      cell m i j k = match el Q (stretch (nrows Q) i) (k - oa) with Some x => Some (f p x) | None => cell m0 i j k end.
Proof.
  intros WQ N Oa Ob. pose proof WQ as (Q1 & _). pose proof Wm0 as (G0 & G1 & G2 & _).
  intro_arr q; [assumption|]. intro_scalar w. do_view m4.
  destruct (Z.eqb_spec (nrows Q) 1) as [N1|N1].
  - edestruct (copy_to_layers_ok n everything (between oa (oa + cols Q))
                 (fun m => v <- layer m 0 ;; Ok (sub3 v everything everything (between oa (oa + cols Q))))
                 (fun j k => if inr 0 (dim1 m0) j && inr 0 (cols Q) k then cell m4 0 j (oa + k) else None) m4)
      as (m5 & Ek & Wk & H0 & H1 & H2 & Ck); [assumption|lia|bds|bds|bds|bds| |].
    { intros m' W' (L0 & L1 & L2) C'. do_layer v. intro_sub v'. exists v'. split; auto. split; auto.
      split; [lia|]. split; [lia|]. split; [lia|]. intros j k. rewrite C3, C2, C'. decide_ifs; auto; f_equal; lia. }
    exists m5. shape. intros i j k I J K. rewrite Ck, !C1, !C. known_el Q Ex i (k - oa); rewrite Ex; decide_ifs; try use Ex; auto;
      replace (cell w _ _ _) with (Some p) by (rewrite <- C0; f_equal; arith); reflexivity.
  - exists m4. shape. intros i j k I J K. rewrite !C1, !C. known_el Q Ex i (k - oa); rewrite Ex; decide_ifs; try use Ex; auto;
      replace (cell w _ _ _) with (Some p) by (rewrite <- C0; f_equal; arith); reflexivity.
Qed.

End Paint.

Lemma overlap_left (f : A -> A -> A) (S : cube A) (Q : arr A) m4 n len sa oa ba bb : wf_cube S -> wf Q -> wf_cube m4 ->
  1 <= dim0 S -> 1 <= nrows Q -> n = Z.max (dim0 S) (nrows Q) -> dim0 m4 = n -> dim1 m4 = dim1 S -> dim2 m4 = len ->
  0 <= sa -> 0 <= oa -> sa + dim2 S <= len -> oa + cols Q <= len ->
  ba = Z.max sa oa -> bb = Z.min (sa + dim2 S) (oa + cols Q) ->
  let all := everything in
  let bc := Z.min (dim0 S) (nrows Q) in
  let sx := ba - sa in
  let sy := bb - sa in
  let ox := ba - oa in
  let oy := bb - oa in
  exists m, (if ba <? bb then
          if dim0 S =? 1 then
            for_each (zseq 0 (Z.min (nrows Q) (dim0 m4)))
              (fun m c => v <- row (block Q all (between ox oy)) c ;;
                          w <- layer S 0 ;;
                          ufunc3_into f (sub3 w all all (between sx sy)) (cube_of v) m (between c (c + 1)) all (between ba bb)) m4
          else if nrows Q =? 1 then
            v <- row Q 0 ;;
            ufunc3_view f (transpose Axes102 (sub3 S all all (between sx sy))) (cube_of (block v all (between ox oy))) Axes102 m4 all all (between ba bb)
          else
            ufunc3_view f (transpose Axes102 (sub3 S (between 0 bc) all (between sx sy))) (cube_of (block Q (between 0 bc) (between ox oy))) Axes102 m4 all (between 0 bc) (between ba bb)
        else Ok m4) = Ok m /\ wf_cube m /\ dim0 m = n /\ dim1 m = dim1 S /\ dim2 m = len /\
    forall i j k, 0 <= i < n -> 0 <= j < dim1 S -> 0 <= k < len ->
      cell m i j k = match cell S (stretch (dim0 S) i) j (k - sa), el Q (stretch (nrows Q) i) (k - oa) with
                     | Some x, Some y => Some (f x y)
                     | _, _ => cell m4 i j k
                     end.
Proof.
  intros WS WQ W4 S1 Q1 Hn F0 F1 F2 Sa Oa Sb Ob Ba Bb. cbv zeta. pose proof WS as (_ & S2 & S3 & _). pose proof WQ as (Q2 & _).
  destruct (Z.ltb_spec ba bb) as [Lt|Ge].
  2: { exists m4. shape. intros i j k I J K. known S Ex i j (k - sa); known_el Q Ey i (k - oa); rewrite Ex, ?Ey; auto. exfalso. arith. }
  set (sx := ba - sa). set (sy := bb - sa). set (ox := ba - oa). set (oy := bb - oa).
  assert (P : 0 <= sx /\ sx < sy /\ sy <= dim2 S /\ 0 <= ox /\ ox < oy /\ oy <= cols Q /\ 0 <= ba /\ bb <= len) by lia.
  assert (HS : forall i j k x, cell S i j (k - sa) = Some x -> forall y i', el Q i' (k - oa) = Some y -> ba <= k < bb).
  { intros i j k x Ex y i' Ey. apply cell_range in Ex; auto. apply el_range in Ey; auto. lia. }
  clear Ba Bb.
  destruct (Z.eqb_spec (dim0 S) 1) as [N|N]; [|destruct (Z.eqb_spec (nrows Q) 1) as [M|M]].
  - replace (Z.min (nrows Q) (dim0 m4)) with n by lia.
    set (q := block Q everything (between ox oy)).
    assert (Wq : wf q) by (now apply wf_block).
    assert (Nq : nrows q = nrows Q) by (unfold q; rewrite nrows_block, lower_everything, upper_everything by lia; lia).
    assert (Kq : cols q = oy - ox) by (unfold q; rewrite cols_block, lower_between, upper_between by lia; lia).
    assert (Vq : forall i j, 0 <= i < nrows Q -> 0 <= j < oy - ox -> el q i j = el Q i (ox + j)).
    { intros i j I J. unfold q. rewrite el_block, lower_between, upper_between, lower_everything, upper_everything by (auto; lia).
      replace (_ && _ && _ && _) with true by lia. f_equal; lia. }
    clearbody q.
    destruct (layers_loop (fun m c => v <- row q c ;; w <- layer S 0 ;;
                          ufunc3_into f (sub3 w everything everything (between sx sy)) (cube_of v) m (between c (c + 1)) everything (between ba bb))
      (fun j k => inr 0 (dim1 S) j && inr ba bb k) (fun i j k => both f (cell S 0 j (k - sa)) (el Q i (k - oa))) 0 n m4)
      as (m & Em & Wm & (L0 & L1 & L2) & Cm); auto; try lia.
    { intros m c K Wm (L0 & L1 & L2) _. do_row v. do_layer w. intro_arr u; [assumption|]. intro_sub w'. do_ufunc m'.
      exists m'. split; auto. split; auto. split; [unfold like; auto|].
      intros i j k. rewrite C3. replace (inr c (c + 1) i) with (i =? c) by arith.
      replace (dim1 m) with (dim1 S) by lia. rewrite andb_assoc. destruct ((i =? c) && _ && _) eqn:B; auto.
      rewrite C2, C1, C0. replace (inr _ _ _ && _ && _) with true by arith.
      repeat match goal with |- context [if ?b =? 0 then _ else _] => replace (b =? 0) with true by arith end.
      match goal with |- context [el v ?a ?b] => replace (el v a b) with (el Q c (k - oa))
        by (replace a with 0 by arith; rewrite C, Vq by arith; f_equal; arith) end.
      f_equal; f_equal; arith. }
    exists m. shape. intros i j k I J K. rewrite Cm. replace (stretch (dim0 S) i) with 0 by arith.
    replace (stretch (nrows Q) i) with i by arith.
    destruct (cell S 0 j (k - sa)) as [x|] eqn:Ex; destruct (el Q i (k - oa)) as [y|] eqn:Ey.
    + pose proof (HS _ _ _ _ Ex _ _ Ey). replace (inr _ _ _ && _) with true by arith. reflexivity.
    + replace (inr ba bb k) with false; [now rewrite !andb_false_r|]. symmetry. apply not_true_iff_false. intros B. destruct (el_in Q i (k - oa)) as [y Ey'] ; auto; arith || congruence.
    + replace (inr ba bb k) with false; [now rewrite !andb_false_r|]. symmetry. apply not_true_iff_false. intros B. destruct (cell_in S 0 j (k - sa)) as [x Ex'] ; auto; arith || congruence.
    + replace (inr ba bb k) with false; [now rewrite !andb_false_r|]. symmetry. apply not_true_iff_false. intros B. destruct (cell_in S 0 j (k - sa)) as [x Ex'] ; auto; arith || congruence.
  - do_row v. set (q := block v everything (between ox oy)).
    assert (Wq : wf q) by (now apply wf_block).
    assert (Nq : nrows q = 1) by (unfold q; rewrite nrows_block, lower_everything, upper_everything by lia; lia).
    assert (Kq : cols q = oy - ox) by (unfold q; rewrite cols_block, lower_between, upper_between by lia; lia).
    assert (Vq : forall j, 0 <= j < oy - ox -> el q 0 j = el Q 0 (ox + j)).
    { intros j J. unfold q. rewrite el_block, lower_between, upper_between, lower_everything, upper_everything by (auto; lia).
      replace (_ && _ && _ && _) with true by lia. rewrite <- C. f_equal; lia. }
    clearbody q. intro_sub u. intro_transpose t. intro_arr w; [assumption|]. axs. do_view m.
    exists m. shape. intros i j k I J K. rewrite C3. replace (stretch (nrows Q) i) with 0 by arith.
    replace (stretch (dim0 S) i) with i by arith. destruct (cell S i j (k - sa)) as [x|] eqn:Ex.
    2: { replace (_ && _ && _) with false; [reflexivity|]. symmetry. apply not_true_iff_false. intros B.
         destruct (cell_in S i j (k - sa)) as [x Ex']; auto; try arith. congruence. }
    destruct (el Q 0 (k - oa)) as [y|] eqn:Ey.
    2: { replace (_ && _ && _) with false; [reflexivity|]. symmetry. apply not_true_iff_false. intros B.
         destruct (el_in Q 0 (k - oa)) as [y Ey']; auto; try arith. congruence. }
    pose proof (HS _ _ _ _ Ex _ _ Ey). apply cell_range in Ex as Rx; auto. apply el_range in Ey as Ry; auto.
    replace (_ && _ && _) with true by arith.
    rewrite C2. replace (_ =? 0) with true by arith.
    match goal with |- context [el q ?a ?b] => replace (el q a b) with (Some y)
      by (replace a with 0 by arith; rewrite Vq by arith; rewrite <- Ey; f_equal; arith) end.
    match goal with |- context [cell t ?a ?b ?c] => replace (cell t a b c) with (Some x)
      by (rewrite (C1 b a c), C0; replace (inr _ _ _ && _ && _) with true by arith; rewrite <- Ex; f_equal; arith) end.
    reflexivity.
  - set (bc := Z.min (dim0 S) (nrows Q)). set (q := block Q (between 0 bc) (between ox oy)).
    assert (Bc : 0 < bc /\ bc <= dim0 S /\ bc <= nrows Q /\ (bc = dim0 S \/ bc = nrows Q)) by (unfold bc; lia). clearbody bc.
    assert (Wq : wf q) by (now apply wf_block).
    assert (Nq : nrows q = bc) by (unfold q; rewrite nrows_block, lower_between, upper_between by lia; lia).
    assert (Kq : cols q = oy - ox) by (unfold q; rewrite cols_block, lower_between, upper_between by lia; lia).
    assert (Vq : forall i j, 0 <= i < bc -> 0 <= j < oy - ox -> el q i j = el Q i (ox + j)).
    { intros i j I J. unfold q. rewrite el_block, !lower_between, !upper_between by (auto; lia).
      replace (_ && _ && _ && _) with true by lia. f_equal; lia. }
    clearbody q. intro_sub u. intro_transpose t. intro_arr w; [assumption|]. axs. do_view m.
    exists m. shape. intros i j k I J K. rewrite C2. replace (stretch (nrows Q) i) with i by arith.
    replace (stretch (dim0 S) i) with i by arith. destruct (cell S i j (k - sa)) as [x|] eqn:Ex.
    2: { replace (_ && _ && _) with false; [reflexivity|]. symmetry. apply not_true_iff_false. intros B.
         destruct (cell_in S i j (k - sa)) as [x Ex']; auto; try arith. congruence. }
    destruct (el Q i (k - oa)) as [y|] eqn:Ey.
    2: { replace (_ && _ && _) with false; [reflexivity|]. symmetry. apply not_true_iff_false. intros B.
         destruct (el_in Q i (k - oa)) as [y Ey']; auto; try arith. congruence. }
    pose proof (HS _ _ _ _ Ex _ _ Ey). apply cell_range in Ex as Rx; auto. apply el_range in Ey as Ry; auto.
    replace (_ && _ && _) with true by arith.
    rewrite C1. replace (_ =? 0) with true by arith.
    match goal with |- context [el q ?a ?b] => replace (el q a b) with (Some y)
      by (rewrite Vq by arith; rewrite <- Ey; f_equal; arith) end.
    match goal with |- context [cell t ?a ?b ?c] => replace (cell t a b c) with (Some x)
      by (rewrite (C0 b a c), C; replace (inr _ _ _ && _ && _) with true by arith; rewrite <- Ex; f_equal; arith) end.
    reflexivity.
Qed.

Lemma overlap_right (f : A -> A -> A) (S : cube A) (Q : arr A) m4 n len sa oa ba bb : wf_cube S -> wf Q -> wf_cube m4 ->
  1 <= dim0 S -> 1 <= nrows Q -> n = Z.max (dim0 S) (nrows Q) -> dim0 m4 = n -> dim1 m4 = dim1 S -> dim2 m4 = len ->
  0 <= sa -> 0 <= oa -> sa + dim2 S <= len -> oa + cols Q <= len ->
  ba = Z.max sa oa -> bb = Z.min (sa + dim2 S) (oa + cols Q) ->
  let all := everything in
  let bc := Z.min (dim0 S) (nrows Q) in
  let sx := ba - sa in
  let sy := bb - sa in
  let ox := ba - oa in
  let oy := bb - oa in
  exists m, (if ba <? bb then
          if dim0 S =? 1 then
            for_each (zseq 0 (Z.min (nrows Q) (dim0 m4)))
              (fun m c => v <- row (block Q all (between ox oy)) c ;;
                          w <- layer S 0 ;;
                          ufunc3_into f (cube_of v) (sub3 w all all (between sx sy)) m (between c (c + 1)) all (between ba bb)) m4
          else if nrows Q =? 1 then
            v <- row Q 0 ;;
            ufunc3_view f (cube_of (block v all (between ox oy))) (transpose Axes102 (sub3 S all all (between sx sy))) Axes102 m4 all all (between ba bb)
          else
            ufunc3_view f (cube_of (block Q (between 0 bc) (between ox oy))) (transpose Axes102 (sub3 S (between 0 bc) all (between sx sy))) Axes102 m4 all (between 0 bc) (between ba bb)
        else Ok m4) = Ok m /\ wf_cube m /\ dim0 m = n /\ dim1 m = dim1 S /\ dim2 m = len /\
    forall i j k, 0 <= i < n -> 0 <= j < dim1 S -> 0 <= k < len ->
      cell m i j k = match cell S (stretch (dim0 S) i) j (k - sa), el Q (stretch (nrows Q) i) (k - oa) with
                     | Some x, Some y => Some (f y x)
                     | _, _ => cell m4 i j k
                     end.
Proof.
  intros WS WQ W4 S1 Q1 Hn F0 F1 F2 Sa Oa Sb Ob Ba Bb. cbv zeta. pose proof WS as (_ & S2 & S3 & _). pose proof WQ as (Q2 & _).
  destruct (Z.ltb_spec ba bb) as [Lt|Ge].
  2: { exists m4. shape. intros i j k I J K. known S Ex i j (k - sa); known_el Q Ey i (k - oa); rewrite Ex, ?Ey; auto. exfalso. arith. }
  set (sx := ba - sa). set (sy := bb - sa). set (ox := ba - oa). set (oy := bb - oa).
  assert (P : 0 <= sx /\ sx < sy /\ sy <= dim2 S /\ 0 <= ox /\ ox < oy /\ oy <= cols Q /\ 0 <= ba /\ bb <= len) by lia.
  assert (HS : forall i j k x, cell S i j (k - sa) = Some x -> forall y i', el Q i' (k - oa) = Some y -> ba <= k < bb).
  { intros i j k x Ex y i' Ey. apply cell_range in Ex; auto. apply el_range in Ey; auto. lia. }
  clear Ba Bb.
  destruct (Z.eqb_spec (dim0 S) 1) as [N|N]; [|destruct (Z.eqb_spec (nrows Q) 1) as [M|M]].
  - replace (Z.min (nrows Q) (dim0 m4)) with n by lia.
    set (q := block Q everything (between ox oy)).
    assert (Wq : wf q) by (now apply wf_block).
    assert (Nq : nrows q = nrows Q) by (unfold q; rewrite nrows_block, lower_everything, upper_everything by lia; lia).
    assert (Kq : cols q = oy - ox) by (unfold q; rewrite cols_block, lower_between, upper_between by lia; lia).
    assert (Vq : forall i j, 0 <= i < nrows Q -> 0 <= j < oy - ox -> el q i j = el Q i (ox + j)).
    { intros i j I J. unfold q. rewrite el_block, lower_between, upper_between, lower_everything, upper_everything by (auto; lia).
      replace (_ && _ && _ && _) with true by lia. f_equal; lia. }
    clearbody q.
    destruct (layers_loop (fun m c => v <- row q c ;; w <- layer S 0 ;;
                          ufunc3_into f (cube_of v) (sub3 w everything everything (between sx sy)) m (between c (c + 1)) everything (between ba bb))
      (fun j k => inr 0 (dim1 S) j && inr ba bb k) (fun i j k => both f (el Q i (k - oa)) (cell S 0 j (k - sa))) 0 n m4)
      as (m & Em & Wm & (L0 & L1 & L2) & Cm); auto; try lia.
    { intros m c K Wm (L0 & L1 & L2) _. do_row v. do_layer w. intro_arr u; [assumption|]. intro_sub w'. do_ufunc m'.
      exists m'. split; auto. split; auto. split; [unfold like; auto|].
      intros i j k. rewrite C3. replace (inr c (c + 1) i) with (i =? c) by arith.
      replace (dim1 m) with (dim1 S) by lia. rewrite andb_assoc. destruct ((i =? c) && _ && _) eqn:B; auto.
      rewrite C2, C1, C0. replace (inr _ _ _ && _ && _) with true by arith.
      repeat match goal with |- context [if ?b =? 0 then _ else _] => replace (b =? 0) with true by arith end.
      match goal with |- context [el v ?a ?b] => replace (el v a b) with (el Q c (k - oa))
        by (replace a with 0 by arith; rewrite C, Vq by arith; f_equal; arith) end.
      f_equal; f_equal; arith. }
    exists m. shape. intros i j k I J K. rewrite Cm. replace (stretch (dim0 S) i) with 0 by arith.
    replace (stretch (nrows Q) i) with i by arith.
    destruct (cell S 0 j (k - sa)) as [x|] eqn:Ex; destruct (el Q i (k - oa)) as [y|] eqn:Ey.
    + pose proof (HS _ _ _ _ Ex _ _ Ey). replace (inr _ _ _ && _) with true by arith. reflexivity.
    + replace (inr ba bb k) with false; [now rewrite !andb_false_r|]. symmetry. apply not_true_iff_false. intros B. destruct (el_in Q i (k - oa)) as [y Ey'] ; auto; arith || congruence.
    + replace (inr ba bb k) with false; [now rewrite !andb_false_r|]. symmetry. apply not_true_iff_false. intros B. destruct (cell_in S 0 j (k - sa)) as [x Ex'] ; auto; arith || congruence.
    + replace (inr ba bb k) with false; [now rewrite !andb_false_r|]. symmetry. apply not_true_iff_false. intros B. destruct (cell_in S 0 j (k - sa)) as [x Ex'] ; auto; arith || congruence.
  - do_row v. set (q := block v everything (between ox oy)).
    assert (Wq : wf q) by (now apply wf_block).
    assert (Nq : nrows q = 1) by (unfold q; rewrite nrows_block, lower_everything, upper_everything by lia; lia).
    assert (Kq : cols q = oy - ox) by (unfold q; rewrite cols_block, lower_between, upper_between by lia; lia).
    assert (Vq : forall j, 0 <= j < oy - ox -> el q 0 j = el Q 0 (ox + j)).
    { intros j J. unfold q. rewrite el_block, lower_between, upper_between, lower_everything, upper_everything by (auto; lia).
      replace (_ && _ && _ && _) with true by lia. rewrite <- C. f_equal; lia. }
    clearbody q. intro_sub u. intro_transpose t. intro_arr w; [assumption|]. axs. do_view m.
    exists m. shape. intros i j k I J K. rewrite C3. replace (stretch (nrows Q) i) with 0 by arith.
    replace (stretch (dim0 S) i) with i by arith. destruct (cell S i j (k - sa)) as [x|] eqn:Ex.
    2: { replace (_ && _ && _) with false; [reflexivity|]. symmetry. apply not_true_iff_false. intros B.
         destruct (cell_in S i j (k - sa)) as [x Ex']; auto; try arith. congruence. }
    destruct (el Q 0 (k - oa)) as [y|] eqn:Ey.
    2: { replace (_ && _ && _) with false; [reflexivity|]. symmetry. apply not_true_iff_false. intros B.
         destruct (el_in Q 0 (k - oa)) as [y Ey']; auto; try arith. congruence. }
    pose proof (HS _ _ _ _ Ex _ _ Ey). apply cell_range in Ex as Rx; auto. apply el_range in Ey as Ry; auto.
    replace (_ && _ && _) with true by arith.
    rewrite C2. replace (_ =? 0) with true by arith.
    match goal with |- context [el q ?a ?b] => replace (el q a b) with (Some y)
      by (replace a with 0 by arith; rewrite Vq by arith; rewrite <- Ey; f_equal; arith) end.
    match goal with |- context [cell t ?a ?b ?c] => replace (cell t a b c) with (Some x)
      by (rewrite (C1 b a c), C0; replace (inr _ _ _ && _ && _) with true by arith; rewrite <- Ex; f_equal; arith) end.
    reflexivity.
  - set (bc := Z.min (dim0 S) (nrows Q)). set (q := block Q (between 0 bc) (between ox oy)).
    assert (Bc : 0 < bc /\ bc <= dim0 S /\ bc <= nrows Q /\ (bc = dim0 S \/ bc = nrows Q)) by (unfold bc; lia). clearbody bc.
    assert (Wq : wf q) by (now apply wf_block).
    assert (Nq : nrows q = bc) by (unfold q; rewrite nrows_block, lower_between, upper_between by lia; lia).
    assert (Kq : cols q = oy - ox) by (unfold q; rewrite cols_block, lower_between, upper_between by lia; lia).
    assert (Vq : forall i j, 0 <= i < bc -> 0 <= j < oy - ox -> el q i j = el Q i (ox + j)).
    { intros i j I J. unfold q. rewrite el_block, !lower_between, !upper_between by (auto; lia).
      replace (_ && _ && _ && _) with true by lia. f_equal; lia. }
    clearbody q. intro_sub u. intro_transpose t. intro_arr w; [assumption|]. axs. do_view m.
    exists m. shape. intros i j k I J K. rewrite C2. replace (stretch (nrows Q) i) with i by arith.
    replace (stretch (dim0 S) i) with i by arith. destruct (cell S i j (k - sa)) as [x|] eqn:Ex.
    2: { replace (_ && _ && _) with false; [reflexivity|]. symmetry. apply not_true_iff_false. intros B.
         destruct (cell_in S i j (k - sa)) as [x Ex']; auto; try arith. congruence. }
    destruct (el Q i (k - oa)) as [y|] eqn:Ey.
    2: { replace (_ && _ && _) with false; [reflexivity|]. symmetry. apply not_true_iff_false. intros B.
         destruct (el_in Q i (k - oa)) as [y Ey']; auto; try arith. congruence. }
    pose proof (HS _ _ _ _ Ex _ _ Ey). apply cell_range in Ex as Rx; auto. apply el_range in Ey as Ry; auto.
    replace (_ && _ && _) with true by arith.
    rewrite C1. replace (_ =? 0) with true by arith.
    match goal with |- context [el q ?a ?b] => replace (el q a b) with (Some y)
      by (rewrite Vq by arith; rewrite <- Ey; f_equal; arith) end.
    match goal with |- context [cell t ?a ?b ?c] => replace (cell t a b c) with (Some x)
      by (rewrite (C0 b a c), C; replace (inr _ _ _ && _ && _) with true by arith; rewrite <- Ex; f_equal; arith) end.
    reflexivity.
Qed.

(** ** The operators *)

Variable f : A -> A -> A.
Variable pivot : option A.
Hypothesis neutral : forall p x, pivot = Some p -> f x p = x.

Lemma bind_assoc {X Y Z'} (e : result X) (g : X -> result Y) (h : Y -> result Z') :
  bind (bind e g) h = bind e (fun x => bind (g x) h).
Proof. destruct e; reflexivity. Qed.

Lemma sg_signal_different_shapes_ok (O : ops A) label s (o : signal A) :
  wf_spectrogram s -> wf (channels o) -> 1 <= sg_count s -> 1 <= count o ->
  let start := Z.min (sg_offset s) (offset o) in
  exists r, sg_signal_different_shapes O junk f pivot label s o = Ok r /\
    computed f pivot r s label start (Z.max (sg_count s) (count o)) (sg_frequencies s)
      (Z.max (sg_offset s + sg_length s) (offset o + length o) - start) (o_zero O) (fun i j k => part s i j (k + start - sg_offset s)) (fun i j k => value Axes102 (channels o) i j (k + start - offset o)).
Proof.
  intros [Ws Ls] Wo Cs Co. unfold sg_signal_different_shapes, sg_count, sg_frequencies, sg_length, count, length in *.
  pose proof Ws as (S0 & S1 & S2 & _). pose proof Wo as (Q2 & _).
  set (start := Z.min (sg_offset s) (offset o)). cbv zeta.
  set (S := sg_channels s) in *. set (Q := channels o) in *.
  set (len := Z.max (sg_offset s + dim2 S) (offset o + cols Q) - start).
  set (n := Z.max (dim0 S) (nrows Q)).
  set (sa := sg_offset s - start). set (oa := offset o - start).
  assert (P : 0 <= sa /\ 0 <= oa /\ sa + dim2 S <= len /\ oa + cols Q <= len /\ 0 <= len /\ 1 <= n /\ dim0 S <= n /\ nrows Q <= n) by lia.
  do_allocate m0. intro_scalar zero. do_set m1.
  destruct (paint_spectrogram n len m1) with (S := S) (sa := sa) as (m3 & E3 & W3 & F0 & F1 & F2 & C3); auto; try lia.
  rewrite <- bind_assoc, E3. cbn [bind].
  match goal with |- context [bind (match pivot with None => ?a | Some p => @?b p end) _] =>
    set (step := match pivot with None => a | Some p => b p end) end.
  assert (exists m, step = Ok m /\ wf_cube m /\ dim0 m = n /\ dim1 m = dim1 S /\ dim2 m = len /\
    forall i j k, 0 <= i < n -> 0 <= j < dim1 S -> 0 <= k < len ->
      cell m i j k = match el Q (stretch (nrows Q) i) (k - oa) with Some x => Some (right_only f pivot x) | None => cell m3 i j k end)
    as (m4 & E4 & W4 & G0 & G1 & G2 & C4).
  { subst step. unfold right_only. destruct pivot as [p|].
    - destruct (paint_signal_pivot f n len m3) with (p := p) (Q := Q) (oa := oa) as (m4 & E4 & W4 & G0 & G1 & G2 & C4); auto; try lia.
      exists m4. split; [exact E4|]. split; [auto|]. split; [lia|]. split; [lia|]. split; [lia|]. intros. apply C4; lia.
    - destruct (paint_signal n len m3) with (Q := Q) (oa := oa) as (m4 & E4 & W4 & G0 & G1 & G2 & C4); auto; try lia.
      exists m4. split; [exact E4|]. split; [auto|]. split; [lia|]. split; [lia|]. split; [lia|]. intros. apply C4; lia. }
  rewrite E4. cbn [bind].
  set (ba := Z.max (sg_offset s) (offset o) - start).
  set (bb := Z.min (sg_offset s + dim2 S) (offset o + cols Q) - start).
  destruct (overlap_left f S Q m4 n len sa oa ba bb) as (m5 & E5 & W5 & H0 & H1 & H2 & C5); auto; try lia.
  cbv zeta in E5.
  replace (ba + start - sg_offset s) with (ba - sa) by lia. replace (bb + start - sg_offset s) with (bb - sa) by lia.
  replace (ba + start - offset o) with (ba - oa) by lia. replace (bb + start - offset o) with (bb - oa) by lia.
  rewrite E5. cbn [bind].
  eexists. split; [reflexivity|]. apply computed_intro; auto.
  intros i j k I J K. rewrite C5, C4, C3 by (auto; lia). unfold part, value, sg_count. fold S Q. cbn [ax2].
  replace (k + start - sg_offset s) with (k - sa) by lia. replace (k + start - offset o) with (k - oa) by lia.
  assert (Z0 : cell m1 i j k = Some (o_zero O)).
  { rewrite C0. replace (_ && _ && _) with true by arith. rewrite <- C. f_equal; arith. }
  destruct (cell S _ _ _), (el Q _ _); try reflexivity. exact Z0.
Qed.

Theorem sg_algebra_signal_ok (O : ops A) label s (o : signal A) :
  wf_spectrogram s -> wf (channels o) -> 1 <= sg_count s -> 1 <= count o ->
  let start := Z.min (sg_offset s) (offset o) in
  exists r, sg_algebra_signal O junk f pivot label s o = Ok r /\
    computed f pivot r s label start (Z.max (sg_count s) (count o)) (sg_frequencies s)
      (Z.max (sg_offset s + sg_length s) (offset o + length o) - start) (o_zero O) (fun i j k => part s i j (k + start - sg_offset s)) (fun i j k => value Axes102 (channels o) i j (k + start - offset o)).
Proof.
  intros Ws Wo Cs Co start.
  destruct ((sg_length s =? length o) && (sg_offset s =? offset o)) eqn:B.
  - destruct (sg_algebra_signal_same junk f pivot neutral O label (o_zero O) s o) as (r & E & W & P1 & P2 & P3 & P4 & P5 & P6 & P7 & C); auto; try lia.
    exists r. split; auto. unfold computed. unfold count in *. split; auto. split; auto. split; auto. split; [lia|]. split; auto. split; auto.
    split; [lia|]. split; [lia|]. intros i j k I J K. rewrite C by lia.
    replace (k + start - sg_offset s) with k by lia. replace (k + start - offset o) with k by lia. reflexivity.
  - unfold sg_algebra_signal. rewrite B. now apply sg_signal_different_shapes_ok.
Qed.

Lemma sg_signal_different_shapes_right_ok (O : ops A) label s (o : signal A) :
  wf_spectrogram s -> wf (channels o) -> 1 <= sg_count s -> 1 <= count o ->
  let start := Z.min (sg_offset s) (offset o) in
  exists r, sg_signal_different_shapes_right O junk f pivot label s o = Ok r /\
    computed f pivot r s label start (Z.max (sg_count s) (count o)) (sg_frequencies s)
      (Z.max (sg_offset s + sg_length s) (offset o + length o) - start) (o_zero O) (fun i j k => value Axes102 (channels o) i j (k + start - offset o)) (fun i j k => part s i j (k + start - sg_offset s)).
Proof.
  intros [Ws Ls] Wo Cs Co. unfold sg_signal_different_shapes_right, sg_count, sg_frequencies, sg_length, count, length in *.
  pose proof Ws as (S0 & S1 & S2 & _). pose proof Wo as (Q2 & _).
  set (start := Z.min (sg_offset s) (offset o)). cbv zeta.
  set (S := sg_channels s) in *. set (Q := channels o) in *.
  set (len := Z.max (sg_offset s + dim2 S) (offset o + cols Q) - start).
  set (n := Z.max (dim0 S) (nrows Q)).
  set (sa := sg_offset s - start). set (oa := offset o - start).
  assert (P : 0 <= sa /\ 0 <= oa /\ sa + dim2 S <= len /\ oa + cols Q <= len /\ 0 <= len /\ 1 <= n /\ dim0 S <= n /\ nrows Q <= n) by lia.
  do_allocate m0. intro_scalar zero. do_set m1.
  destruct (paint_signal n len m1) with (Q := Q) (oa := oa) as (m3 & E3 & W3 & F0 & F1 & F2 & C3); auto; try lia.
  rewrite <- bind_assoc, E3. cbn [bind].
  match goal with |- context [bind (match pivot with None => ?a | Some p => @?b p end) _] =>
    set (step := match pivot with None => a | Some p => b p end) end.
  assert (exists m, step = Ok m /\ wf_cube m /\ dim0 m = n /\ dim1 m = dim1 S /\ dim2 m = len /\
    forall i j k, 0 <= i < n -> 0 <= j < dim1 S -> 0 <= k < len ->
      cell m i j k = match cell S (stretch (dim0 S) i) j (k - sa) with Some x => Some (right_only f pivot x) | None => cell m3 i j k end)
    as (m4 & E4 & W4 & G0 & G1 & G2 & C4).
  { subst step. unfold right_only. destruct pivot as [p|].
    - destruct (paint_spectrogram_pivot f n len m3) with (p := p) (S := S) (sa := sa) as (m4 & E4 & W4 & G0 & G1 & G2 & C4); auto; try lia.
      exists m4. split; [exact E4|]. split; [auto|]. split; [lia|]. split; [lia|]. split; [lia|]. intros. apply C4; lia.
    - destruct (paint_spectrogram n len m3) with (S := S) (sa := sa) as (m4 & E4 & W4 & G0 & G1 & G2 & C4); auto; try lia.
      exists m4. split; [exact E4|]. split; [auto|]. split; [lia|]. split; [lia|]. split; [lia|]. intros. apply C4; lia. }
  rewrite E4. cbn [bind].
  set (ba := Z.max (sg_offset s) (offset o) - start).
  set (bb := Z.min (sg_offset s + dim2 S) (offset o + cols Q) - start).
  destruct (overlap_right f S Q m4 n len sa oa ba bb) as (m5 & E5 & W5 & H0 & H1 & H2 & C5); auto; try lia.
  cbv zeta in E5.
  replace (ba + start - sg_offset s) with (ba - sa) by lia. replace (bb + start - sg_offset s) with (bb - sa) by lia.
  replace (ba + start - offset o) with (ba - oa) by lia. replace (bb + start - offset o) with (bb - oa) by lia.
  rewrite E5. cbn [bind].
  eexists. split; [reflexivity|]. apply computed_intro; auto.
  intros i j k I J K. rewrite C5, C4, C3 by (auto; lia). unfold part, value, sg_count. fold S Q. cbn [ax2].
  replace (k + start - sg_offset s) with (k - sa) by lia. replace (k + start - offset o) with (k - oa) by lia.
  assert (Z0 : cell m1 i j k = Some (o_zero O)).
  { rewrite C0. replace (_ && _ && _) with true by arith. rewrite <- C. f_equal; arith. }
  destruct (cell S _ _ _), (el Q _ _); try reflexivity. exact Z0.
Qed.

Theorem sg_algebra_signal_right_ok (O : ops A) label s (o : signal A) :
  wf_spectrogram s -> wf (channels o) -> 1 <= sg_count s -> 1 <= count o ->
  let start := Z.min (sg_offset s) (offset o) in
  exists r, sg_algebra_signal_right O junk f pivot label s o = Ok r /\
    computed f pivot r s label start (Z.max (sg_count s) (count o)) (sg_frequencies s)
      (Z.max (sg_offset s + sg_length s) (offset o + length o) - start) (o_zero O) (fun i j k => value Axes102 (channels o) i j (k + start - offset o)) (fun i j k => part s i j (k + start - sg_offset s)).
Proof.
  intros Ws Wo Cs Co start.
  destruct ((sg_length s =? length o) && (sg_offset s =? offset o)) eqn:B.
  - destruct (sg_algebra_signal_right_same junk f pivot neutral O label (o_zero O) s o) as (r & E & W & P1 & P2 & P3 & P4 & P5 & P6 & P7 & C); auto; try lia.
    exists r. split; auto. unfold computed. unfold count in *. split; auto. split; auto. split; auto. split; [lia|]. split; auto. split; auto.
    split; [lia|]. split; [lia|]. intros i j k I J K. rewrite C by lia.
    replace (k + start - sg_offset s) with k by lia. replace (k + start - offset o) with k by lia. reflexivity.
  - unfold sg_algebra_signal_right. rewrite B. now apply sg_signal_different_shapes_right_ok.
Qed.

End Signal.
