(** The binary operators of spectrograms: proofs for C22. *)

From Coq Require Import String ZArith List Bool Lia ZifyBool.
From Verif.Model Require Import Py Numpy Functions Signal Spectrum Cube Spectrogram.
From Verif.Spec Require Import TimeSpec SpectrogramSpec.
From Verif.Proofs Require Import PyFacts NumpyFacts SignalAlgebra CubeFacts.
Import ListNotations.
Open Scope Z_scope.

Ltac bds := first [apply lower_everything | apply upper_everything; lia | apply lower_between; lia
                  | apply upper_between; lia | apply lower_from; lia | apply upper_from; lia].

Ltac intro_sub v :=
  match goal with
  | |- context [sub3 ?m ?b0 ?b1 ?b2] =>
      let W := fresh "W" in let D0 := fresh "D" in let D1 := fresh "D" in let D2 := fresh "D" in let C := fresh "C" in
      edestruct (sub3_ok m b0 b1 b2) as (W & D0 & D1 & D2 & C); [assumption|bds|bds|bds|bds|bds|bds|];
      set (v := sub3 m b0 b1 b2) in *; clearbody v
  end.

Ltac intro_scalar v :=
  match goal with
  | |- context [scalar3 ?x] =>
      let W := fresh "W" in let D0 := fresh "D" in let D1 := fresh "D" in let D2 := fresh "D" in let C := fresh "C" in
      destruct (scalar3_ok x) as (W & D0 & D1 & D2 & C); set (v := scalar3 x) in *; clearbody v
  end.

Ltac intro_arr v :=
  match goal with
  | |- context [cube_of ?x] =>
      let W := fresh "W" in let D0 := fresh "D" in let D1 := fresh "D" in let D2 := fresh "D" in let C := fresh "C" in
      destruct (cube_of_ok x) as (W & D0 & D1 & D2 & C); [|set (v := cube_of x) in *; clearbody v]
  end.

Ltac do_allocate m :=
  match goal with
  | |- context [allocate3 ?j ?a ?b ?c] =>
      let E := fresh "E" in let W := fresh "W" in
      let D0 := fresh "D" in let D1 := fresh "D" in let D2 := fresh "D" in
      destruct (allocate3_ok j a b c) as (m & E & W & D0 & D1 & D2); [lia|lia|lia|];
      rewrite E; cbn [bind]
  end.

Ltac do_layer v :=
  match goal with
  | |- context [bind (layer ?m ?c) _] =>
      let E := fresh "E" in let W := fresh "W" in
      let D0 := fresh "D" in let D1 := fresh "D" in let D2 := fresh "D" in let C := fresh "C" in
      destruct (layer_ok m c) as (v & E & W & D0 & D1 & D2 & C); [assumption|lia|]; rewrite E; cbn [bind]
  end.

Ltac do_set m' :=
  match goal with
  | |- context [set3 ?m ?b0 ?b1 ?b2 ?s] =>
      let E := fresh "E" in let W := fresh "W" in
      let D0 := fresh "D" in let D1 := fresh "D" in let D2 := fresh "D" in let C := fresh "C" in
      edestruct (set3_ok m b0 b1 b2 s) as (m' & E & W & D0 & D1 & D2 & C);
      [assumption|assumption|bds|bds|bds|bds|bds|bds|lia|lia|lia|]; rewrite E; cbn [bind]
  end.

Ltac do_ufunc m' :=
  match goal with
  | |- context [ufunc3_into ?f ?x ?y ?m ?b0 ?b1 ?b2] =>
      let E := fresh "E" in let W := fresh "W" in
      let D0 := fresh "D" in let D1 := fresh "D" in let D2 := fresh "D" in let C := fresh "C" in
      edestruct (ufunc3_into_ok f x y m b0 b1 b2) as (m' & E & W & D0 & D1 & D2 & C);
      [assumption|assumption|assumption|bds|bds|bds|bds|bds|bds|lia|lia|lia|lia|lia|lia|]; rewrite E; cbn [bind]
  end.

Ltac axs := cbn [ax0 ax1 ax2] in *.

Ltac do_set_view m' :=
  match goal with
  | |- context [set3_view ?a ?m ?b0 ?b1 ?b2 ?s] =>
      let E := fresh "E" in let W := fresh "W" in
      let D0 := fresh "D" in let D1 := fresh "D" in let D2 := fresh "D" in let C := fresh "C" in
      edestruct (set3_view_ok a m b0 b1 b2 s) as (m' & E & W & D0 & D1 & D2 & C);
      [assumption|assumption|axs; bds|axs; bds|axs; bds|axs; bds|axs; bds|axs; bds|axs; lia|axs; lia|axs; lia|];
      axs; rewrite E; cbn [bind]
  end.

Ltac do_view m' :=
  match goal with
  | |- context [ufunc3_view ?f ?x ?y ?a ?m ?b0 ?b1 ?b2] =>
      let E := fresh "E" in let W := fresh "W" in
      let D0 := fresh "D" in let D1 := fresh "D" in let D2 := fresh "D" in let C := fresh "C" in
      edestruct (ufunc3_view_ok f x y a m b0 b1 b2) as (m' & E & W & D0 & D1 & D2 & C);
      [assumption|assumption|assumption|axs; bds|axs; bds|axs; bds|axs; bds|axs; bds|axs; bds
      |axs; lia|axs; lia|axs; lia|axs; lia|axs; lia|axs; lia|]; axs; rewrite E; cbn [bind]
  end.

Lemma stretch_spec n i : (n = 1 /\ stretch n i = 0) \/ (n <> 1 /\ stretch n i = i).
Proof. unfold stretch. destruct (Z.eqb_spec n 1); auto. Qed.

Ltac arith :=
  repeat match goal with
  | H : forall _, _ |- _ => clear H
  | H : @eq (result _) _ _ |- _ => clear H
  | H : @eq (option _) _ _ |- _ => clear H
  | H : wf_cube _ |- _ => clear H
  end;
  unfold inr, inside in *;
  repeat match goal with
  | |- context [stretch ?n ?i] => let z := fresh "z" in let Hz := fresh "Hz" in pose proof (stretch_spec n i) as Hz; set (z := stretch n i) in *; clearbody z
  | H : context [stretch ?n ?i] |- _ => let z := fresh "z" in let Hz := fresh "Hz" in pose proof (stretch_spec n i) as Hz; set (z := stretch n i) in *; clearbody z
  end;
  lia.

(** Replaces the cells of the intermediate arrays by those of the operands. *)
Ltac expand := repeat match goal with C : forall i j k, cell ?v i j k = _ |- context [cell ?v _ _ _] => rewrite C end.

(** Decides a condition by arithmetic or by cases. *)
Ltac decide_ifs :=
  repeat match goal with
  | |- context [if ?b then _ else _] =>
      lazymatch b with
      | context [if _ then _ else _] => fail
      | _ => first [ replace b with true by (arith)
                   | replace b with false by (arith)
                   | let H := fresh "B" in destruct b eqn:H ]; try (exfalso; arith)
      end
  end.

(** Uses the known value of a cell of an operand. *)
Ltac use Ex :=
  match type of Ex with
  | cell ?s _ _ _ = ?v =>
      repeat match goal with
      | |- context [cell s ?a ?b ?c] => replace (cell s a b c) with v by (rewrite <- Ex; f_equal; arith)
      end
  | el ?s _ _ = ?v =>
      repeat match goal with
      | |- context [el s ?a ?b] => replace (el s a b) with v by (rewrite <- Ex; f_equal; arith)
      end
  end.

Section Algebra.
Context {A R : Type}.
Variable junk : Z -> Z -> Z -> A.
Implicit Types s o : spectrogram A R.

Lemma mk_spectrogram_wf (m : cube A) res rate off l : wf_cube m -> wf_spectrogram (@mk_spectrogram A R m res rate off l).
Proof.
  intros W. split; auto. unfold mk_spectrogram, sg_count; cbn. pose proof W as (H & _).
  unfold sanitize_labels. destruct l as [l|].
  - pose proof (zlen_nonneg l). zcases.
    + rewrite zlen_app, zlen_repeat. lia.
    + rewrite zlen_subseq, lower_between, upper_between by lia. lia.
  - rewrite zlen_repeat. lia.
Qed.

Lemma copy_to_layers_ok n b1 b2 (src : cube A -> result (cube A)) (w : Z -> Z -> option A) m l1 u1 l2 u2 :
  wf_cube m -> 1 <= n <= dim0 m ->
  lower b1 (dim1 m) = l1 -> upper b1 (dim1 m) = u1 -> lower b2 (dim2 m) = l2 -> upper b2 (dim2 m) = u2 ->
  (forall m', wf_cube m' -> like m' m -> (forall j k, cell m' 0 j k = cell m 0 j k) ->
     exists v, src m' = Ok v /\ wf_cube v /\ dim0 v = 1 /\ dim1 v = u1 - l1 /\ dim2 v = u2 - l2 /\
       forall j k, cell v 0 j k = w j k) ->
  exists m', copy_to_layers n b1 b2 src m = Ok m' /\ wf_cube m' /\ dim0 m' = dim0 m /\ dim1 m' = dim1 m /\ dim2 m' = dim2 m /\
    forall i j k, cell m' i j k = if inr 1 n i && inr l1 u1 j && inr l2 u2 k then w (j - l1) (k - l2) else cell m i j k.
Proof.
  intros W N L1 U1 L2 U2 S. unfold copy_to_layers.
  pose proof W as (H0 & H1 & H2 & _).
  edestruct (layers_loop (fun m c => v <- src m ;; set3 m (between c (c + 1)) b1 b2 v)
     (fun j k => inr l1 u1 j && inr l2 u2 k) (fun _ j k => w (j - l1) (k - l2)) 1 (n - 1) m) as (m' & E & W' & (D0 & D1 & D2) & C); auto; try lia.
  - intros m1 c K W1 (D0 & D1 & D2) I.
    destruct (S m1) as (v & Ev & Wv & V0 & V1 & V2 & Cv); auto; [unfold like; auto|intros; apply I; lia|].
    rewrite Ev. cbn [bind].
    edestruct (set3_ok m1 (between c (c + 1)) b1 b2 v c (c + 1) l1 u1 l2 u2) as (m2 & E2 & W2 & F0 & F1 & F2 & C2);
      auto; try bds; try congruence; try lia.
    exists m2. split; auto. split; auto. split; [unfold like; auto|]. intros. rewrite C2.
    replace (inr c (c + 1) i) with (i =? c) by (arith). rewrite andb_assoc.
    destruct ((i =? c) && _ && _) eqn:B; auto. rewrite <- Cv. f_equal; arith.
  - exists m'. repeat split; auto; try apply W'. intros. rewrite C.
    replace (1 + (n - 1)) with n by lia. rewrite andb_assoc. reflexivity.
Qed.

(** ** Spectrograms with spectrograms *)

Variable f : A -> A -> A.
Variable pivot : option A.
Definition right_only (y : A) : A := match pivot with None => y | Some p => f p y end.
Hypothesis neutral : forall p x, pivot = Some p -> f x p = x.

(** What the operations have in common. *)
Definition computed (r : spectrogram A R) (s : spectrogram A R) (label : string) (off n0 n1 n2 : Z) (gap : A)
  (x y : Z -> Z -> Z -> option A) : Prop :=
  wf_spectrogram r /\ sg_resolution r = sg_resolution s /\ sg_rate r = sg_rate s /\ sg_offset r = off /\
  sg_labels r = zrepeat label n0 /\ sg_count r = n0 /\ sg_frequencies r = n1 /\ sg_length r = n2 /\
  forall i j k, 0 <= i < n0 -> 0 <= j < n1 -> 0 <= k < n2 ->
    cell (sg_channels r) i j k = Some (combination f right_only gap (x i j k) (y i j k)).

Lemma computed_intro (m : cube A) s label off nl n0 n1 n2 gap x y :
  wf_cube m -> nl = n0 -> dim0 m = n0 -> dim1 m = n1 -> dim2 m = n2 ->
  (forall i j k, 0 <= i < n0 -> 0 <= j < n1 -> 0 <= k < n2 ->
    cell m i j k = Some (combination f right_only gap (x i j k) (y i j k))) ->
  computed (mk_spectrogram m (sg_resolution s) (sg_rate s) off (Some (zrepeat label nl))) s label off n0 n1 n2 gap x y.
Proof.
  intros W -> <- <- <- C. split; [now apply mk_spectrogram_wf|]. repeat split; auto. cbn.
  apply sanitize_same. pose proof W as (H & _). rewrite zlen_repeat. lia.
Qed.

(** The operands of the operators. *)
Definition part s (i j k : Z) : option A := cell (sg_channels s) (stretch (sg_count s) i) j k.

(** The value of an operand is known. *)
Ltac known m Ex i j k :=
  let H := fresh "In" in
  let x := fresh "x" in
  destruct (inr 0 (dim0 m) (stretch (dim0 m) i) && inr 0 (dim1 m) j && inr 0 (dim2 m) k) eqn:H;
  [ edestruct (cell_in m (stretch (dim0 m) i) j k) as [x Ex]; [assumption|arith|arith|arith|]
  | pose proof (cell_out m (stretch (dim0 m) i) j k) as Ex;
      specialize (Ex ltac:(assumption) ltac:(arith)) ].

(** The part of the result, where both operands have values. *)
Ltac overlap S Q Cm i j k t u :=
  rewrite Cm;
  match goal with |- (if ?b then _ else _) = _ => let B := fresh "B" in destruct b eqn:B end;
  [ match goal with B : (_ && _ && _) = true |- _ =>
      apply andb_true_iff in B as [[Bi Bj]%andb_true_iff Bk]; apply inr_spec in Bi, Bj, Bk end;
    repeat match goal with H : context [_ \/ _] |- _ => clear H end;
    let x := fresh "x" in let Ex := fresh "Ex" in let y := fresh "y" in let Ey := fresh "Ey" in
    destruct (cell_in S (stretch (dim0 S) i) j t) as [x Ex]; [assumption|arith|arith|arith|];
    destruct (cell_in Q (stretch (dim0 Q) i) j u) as [y Ey]; [assumption|arith|arith|arith|];
    rewrite Ex, Ey; expand;
    repeat match goal with |- context [if ?b then _ else _] => replace b with true by arith end;
    use Ex; use Ey; reflexivity
  | let Ex := fresh "Ex" in destruct (cell S (stretch (dim0 S) i) j t) eqn:Ex; [|reflexivity];
    let Ey := fresh "Ey" in destruct (cell Q (stretch (dim0 Q) i) j u) eqn:Ey; [|reflexivity];
    apply cell_range in Ex; [|assumption]; apply cell_range in Ey; [|assumption];
    match goal with B : (inr ?a ?b ?c && inr ?d ?e ?f && inr ?g ?h ?l) = false |- _ =>
      exfalso; revert B; replace (inr a b c) with true by arith; replace (inr d e f) with true by arith;
      replace (inr g h l) with true by arith; discriminate end ].

Lemma sg_same_shape_ok (O : ops A) label s o :
  wf_spectrogram s -> wf_spectrogram o -> 1 <= sg_count s -> 1 <= sg_count o ->
  sg_frequencies s = sg_frequencies o -> sg_length s = sg_length o -> sg_offset s = sg_offset o ->
  exists r, sg_algebra O junk f pivot label s o = Ok r /\
    computed r s label (sg_offset s) (Z.max (sg_count s) (sg_count o)) (sg_frequencies s) (sg_length s) (o_zero O) (part s) (part o).
Proof.
  intros [Ws Ls] [Wo Lo] Cs Co F L Off. unfold sg_algebra, sg_count, sg_frequencies, sg_length in *.
  pose proof Ws as (S0 & S1 & S2 & _). pose proof Wo as (O0 & O1 & O2 & _).
  replace ((dim1 _ =? _) && _ && _) with true by lia.
  destruct (Z.eqb_spec (dim0 (sg_channels s)) 1) as [N|N]; [|destruct (Z.eqb_spec (dim0 (sg_channels o)) 1) as [M|M];
    [|destruct (Z.eqb_spec (dim0 (sg_channels s)) (dim0 (sg_channels o))) as [K|K]]].
  - do_layer v. unfold sg_overlaps, elementwise. do_allocate m. do_ufunc m1.
    eexists. split; [reflexivity|]. apply computed_intro; auto; try lia.
    intros i j k I J T. rewrite C0. decide_ifs. unfold part, sg_count.
    known (sg_channels s) Ex i j k; known (sg_channels o) Ey i j k; try (exfalso; arith).
    expand. decide_ifs. use Ex. use Ey. reflexivity.
  - do_layer v. unfold sg_overlaps, elementwise. do_allocate m. do_ufunc m1.
    eexists. split; [reflexivity|]. apply computed_intro; auto; try lia.
    intros i j k I J T. rewrite C0. decide_ifs. unfold part, sg_count.
    known (sg_channels s) Ex i j k; known (sg_channels o) Ey i j k; try (exfalso; arith).
    expand. decide_ifs. use Ex. use Ey. reflexivity.
  - unfold sg_overlaps, elementwise. do_allocate m. do_ufunc m1.
    eexists. split; [reflexivity|]. apply computed_intro; auto; try lia.
    intros i j k I J T. rewrite C. decide_ifs. unfold part, sg_count.
    known (sg_channels s) Ex i j k; known (sg_channels o) Ey i j k; try (exfalso; arith).
    use Ex. use Ey. reflexivity.
  - unfold sg_different_number_of_channels, sg_count. destruct (Z.ltb_spec (dim0 (sg_channels o)) (dim0 (sg_channels s))).
    + do_allocate m. intro_sub v. do_ufunc m1. intro_sub v'.
      assert (exists m', (match pivot with
                          | None => set3 m1 (from (dim0 (sg_channels o))) everything everything v'
                          | Some p => ufunc3_into f v' (scalar3 p) m1 (from (dim0 (sg_channels o))) everything everything
                          end) = Ok m' /\ wf_cube m' /\ dim0 m' = dim0 m1 /\ dim1 m' = dim1 m1 /\ dim2 m' = dim2 m1 /\
                forall i j k, cell m' i j k = if inr (dim0 (sg_channels o)) (dim0 (sg_channels s)) i && inr 0 (dim1 m1) j && inr 0 (dim2 m1) k
                                              then cell (sg_channels s) i j k else cell m1 i j k) as (m2 & Em & Wm & F0 & F1 & F2 & Cm).
      { destruct pivot as [p|].
        - intro_scalar w. do_ufunc m2. exists m2. split; auto. split; auto. split; auto. split; auto. split; auto.
          intros i j k. rewrite C3. replace (dim0 m1) with (dim0 (sg_channels s)) by lia.
          destruct (inr _ _ i && _ && _) eqn:B; auto.
          destruct (cell_in (sg_channels s) i j k) as [x Ex]; auto; try arith.
          rewrite C1. decide_ifs. use Ex.
          replace (cell w _ _ _) with (Some p) by (rewrite <- C2; f_equal; arith). cbn. now rewrite neutral by auto.
        - do_set m2. exists m2. split; auto. split; auto. split; auto. split; auto. split; auto.
          intros i j k. rewrite C2. replace (dim0 m1) with (dim0 (sg_channels s)) by lia.
          destruct (inr _ _ i && _ && _) eqn:B; auto. rewrite C1. decide_ifs. f_equal; arith. }
      rewrite Em. cbn [bind fst snd].
      eexists. split; [reflexivity|]. apply computed_intro; auto; try lia.
      intros i j k I J T. rewrite Cm, C0, C. unfold part, sg_count.
      known (sg_channels s) Ex i j k; known (sg_channels o) Ey i j k; try (exfalso; arith); decide_ifs; use Ex; try use Ey; reflexivity.
    + do_allocate m. intro_sub v. do_ufunc m1. intro_sub v'.
      assert (exists m', (match pivot with
                          | None => set3 m1 (from (dim0 (sg_channels s))) everything everything v'
                          | Some p => ufunc3_into f (scalar3 p) v' m1 (from (dim0 (sg_channels s))) everything everything
                          end) = Ok m' /\ wf_cube m' /\ dim0 m' = dim0 m1 /\ dim1 m' = dim1 m1 /\ dim2 m' = dim2 m1 /\
                forall i j k, cell m' i j k = if inr (dim0 (sg_channels s)) (dim0 (sg_channels o)) i && inr 0 (dim1 m1) j && inr 0 (dim2 m1) k
                                              then option_map right_only (cell (sg_channels o) i j k) else cell m1 i j k)
        as (m2 & Em & Wm & F0 & F1 & F2 & Cm).
      { unfold right_only. destruct pivot as [p|].
        - intro_scalar w. do_ufunc m2. exists m2. split; auto. split; auto. split; auto. split; auto. split; auto.
          intros i j k. rewrite C3. replace (dim0 m1) with (dim0 (sg_channels o)) by lia.
          destruct (inr _ _ i && _ && _) eqn:B; auto.
          destruct (cell_in (sg_channels o) i j k) as [x Ex]; auto; try arith.
          rewrite C1. decide_ifs. use Ex.
          replace (cell w _ _ _) with (Some p) by (rewrite <- C2; f_equal; arith). reflexivity.
        - do_set m2. exists m2. split; auto. split; auto. split; auto. split; auto. split; auto.
          intros i j k. rewrite C2. replace (dim0 m1) with (dim0 (sg_channels o)) by lia.
          destruct (inr _ _ i && _ && _) eqn:B; auto. rewrite C1. decide_ifs.
          destruct (cell_in (sg_channels o) i j k) as [x Ex]; auto; try arith. use Ex. reflexivity. }
      rewrite Em. cbn [bind fst snd].
      eexists. split; [reflexivity|]. apply computed_intro; auto; try lia.
      intros i j k I J T. rewrite Cm, C0, C. unfold part, sg_count.
      known (sg_channels s) Ex i j k; known (sg_channels o) Ey i j k; try (exfalso; arith); decide_ifs; use Ey; try use Ex; reflexivity.
Qed.

Lemma sg_different_shapes_ok (O : ops A) label s o :
  wf_spectrogram s -> wf_spectrogram o -> 1 <= sg_count s -> 1 <= sg_count o ->
  let start := Z.min (sg_offset s) (sg_offset o) in
  exists r, sg_different_shapes O junk f pivot label s o = Ok r /\
    computed r s label start (Z.max (sg_count s) (sg_count o)) (Z.max (sg_frequencies s) (sg_frequencies o))
      (Z.max (sg_offset s + sg_length s) (sg_offset o + sg_length o) - start) (o_zero O)
      (fun i j k => part s i j (k + start - sg_offset s)) (fun i j k => part o i j (k + start - sg_offset o)).
Proof.
  intros [Ws Ls] [Wo Lo] Cs Co. unfold sg_different_shapes, sg_count, sg_frequencies, sg_length in *.
  pose proof Ws as (S0 & S1 & S2 & _). pose proof Wo as (O0 & O1 & O2 & _).
  set (start := Z.min (sg_offset s) (sg_offset o)). cbv zeta.
  set (S := sg_channels s) in *. set (Q := sg_channels o) in *.
  set (len := Z.max (sg_offset s + dim2 S) (sg_offset o + dim2 Q) - start).
  set (n := Z.max (dim0 S) (dim0 Q)). set (fr := Z.max (dim1 S) (dim1 Q)).
  set (sa := sg_offset s - start). set (oa := sg_offset o - start).
  assert (P : 0 <= sa /\ 0 <= oa /\ sa + dim2 S <= len /\ oa + dim2 Q <= len /\ 0 <= len) by lia.
  assert (P' : 1 <= n /\ dim0 S <= n /\ dim0 Q <= n /\ dim1 S <= fr /\ dim1 Q <= fr /\ 0 <= fr) by lia.
  do_allocate m0. intro_scalar zero. do_set m1. do_set m2.
  (* the left operand *)
  assert (exists m, (if dim0 S =? 1
                     then copy_to_layers n (between 0 (dim1 S)) (between sa (sa + dim2 S)) (fun _ => layer S 0) m2
                     else Ok m2) = Ok m /\ wf_cube m /\ dim0 m = n /\ dim1 m = fr /\ dim2 m = len /\
            forall i j k, 0 <= i < n -> 0 <= j < fr -> 0 <= k < len ->
              cell m i j k = match cell S (stretch (dim0 S) i) j (k - sa) with Some x => Some x | None => Some (o_zero O) end)
    as (m3 & Em & Wm & F0 & F1 & F2 & Cm).
  { destruct (Z.eqb_spec (dim0 S) 1) as [N|N].
    - edestruct (copy_to_layers_ok n (between 0 (dim1 S)) (between sa (sa + dim2 S)) (fun _ => layer S 0)
                   (fun j k => cell S 0 j k) m2) as (m3 & Ek & Wk & F0 & F1 & F2 & Ck);
        [assumption|lia|bds|bds|bds|bds| |].
      { intros m' _ _ _. destruct (layer_ok S 0) as (v & Ev & Wv & V0 & V1 & V2 & Cv); auto; try lia.
        exists v. repeat split; auto; try lia; try apply Wv. intros. rewrite Cv. reflexivity. }
      exists m3. split; auto. split; auto. split; [lia|]. split; [lia|]. split; [lia|].
      intros i j k I J K. rewrite Ck, C1, C0. known S Ex i j (k - sa); rewrite Ex; decide_ifs; try use Ex; auto;
        try (rewrite <- C; f_equal; arith).
    - exists m2. split; auto. split; auto. split; [lia|]. split; [lia|]. split; [lia|].
      intros i j k I J K. rewrite C1, C0. known S Ex i j (k - sa); rewrite Ex; decide_ifs; try use Ex; auto;
        try (rewrite <- C; f_equal; arith). }
  rewrite Em. cbn [bind]. clear C C0 C1 E E0 E1 Em W W0 W1 W2 D D0 D1 D2 D3 D4 D5 D6 D7 D8.
  (* the right operand *)
  assert (exists m, (match pivot with
                     | None =>
                         m <- set3 m3 (between 0 (dim0 Q)) (between 0 (dim1 Q)) (between oa (oa + dim2 Q)) Q ;;
                         if dim0 Q =? 1 then
                           copy_to_layers n (between 0 (dim1 Q)) (between oa (oa + dim2 Q)) (fun _ => layer Q 0) m
                         else Ok m
                     | Some p =>
                         m <- ufunc3_into f (scalar3 p) Q m3 (between 0 (dim0 Q)) (between 0 (dim1 Q)) (between oa (oa + dim2 Q)) ;;
                         if dim0 Q =? 1 then
                           copy_to_layers n (between 0 (dim1 Q)) (between oa (oa + dim2 Q))
                             (fun m => v <- layer m 0 ;; Ok (sub3 v everything (between 0 (dim1 Q)) (between oa (oa + dim2 Q)))) m
                         else Ok m
                     end) = Ok m /\ wf_cube m /\ dim0 m = n /\ dim1 m = fr /\ dim2 m = len /\
            forall i j k, 0 <= i < n -> 0 <= j < fr -> 0 <= k < len ->
              cell m i j k = match cell Q (stretch (dim0 Q) i) j (k - oa) with
                             | Some y => Some (right_only y)
                             | None => cell m3 i j k
                             end)
    as (m4 & Em & Wm' & G0 & G1 & G2 & Cm').
  { unfold right_only. destruct pivot as [p|].
    - intro_scalar w. do_ufunc m4.
      destruct (Z.eqb_spec (dim0 Q) 1) as [N|N].
      + edestruct (copy_to_layers_ok n (between 0 (dim1 Q)) (between oa (oa + dim2 Q))
                   (fun m => v <- layer m 0 ;; Ok (sub3 v everything (between 0 (dim1 Q)) (between oa (oa + dim2 Q))))
                   (fun j k => if inr 0 (dim1 Q) j && inr 0 (dim2 Q) k then cell m4 0 j (oa + k) else None) m4)
          as (m5 & Ek & Wk & H0 & H1 & H2 & Ck); [assumption|lia|bds|bds|bds|bds| |].
        { intros m' W' (L0 & L1 & L2) C'. do_layer v. intro_sub v'. exists v'. split; auto. split; auto.
          split; [lia|]. split; [lia|]. split; [lia|]. intros j k. rewrite C2, C1, C'. decide_ifs; auto; f_equal; lia. }
        exists m5. split; auto. split; auto. split; [lia|]. split; [lia|]. split; [lia|].
        intros i j k I J K. rewrite Ck, !C0. known Q Ex i j (k - oa); rewrite Ex; decide_ifs; try use Ex; auto;
          replace (cell w _ _ _) with (Some p) by (rewrite <- C; f_equal; arith); reflexivity.
      + exists m4. split; auto. split; auto. split; [lia|]. split; [lia|]. split; [lia|].
        intros i j k I J K. rewrite !C0. known Q Ex i j (k - oa); rewrite Ex; decide_ifs; try use Ex; auto;
          replace (cell w _ _ _) with (Some p) by (rewrite <- C; f_equal; arith); reflexivity.
    - do_set m4. destruct (Z.eqb_spec (dim0 Q) 1) as [N|N].
      + edestruct (copy_to_layers_ok n (between 0 (dim1 Q)) (between oa (oa + dim2 Q)) (fun _ => layer Q 0)
                   (fun j k => cell Q 0 j k) m4) as (m5 & Ek & Wk & H0 & H1 & H2 & Ck); [assumption|lia|bds|bds|bds|bds| |].
        { intros m' _ _ _. destruct (layer_ok Q 0) as (v & Ev & Wv & V0 & V1 & V2 & Cv); auto; try lia.
          exists v. repeat split; auto; try lia; try apply Wv. intros. rewrite Cv. reflexivity. }
        exists m5. split; auto. split; auto. split; [lia|]. split; [lia|]. split; [lia|].
        intros i j k I J K. rewrite Ck, C. known Q Ex i j (k - oa); rewrite Ex; decide_ifs; try use Ex; auto.
      + exists m4. split; auto. split; auto. split; [lia|]. split; [lia|]. split; [lia|].
        intros i j k I J K. rewrite C. known Q Ex i j (k - oa); rewrite Ex; decide_ifs; try use Ex; auto. }
  rewrite Em. cbn [bind]. clear Em.
  (* the overlap *)
  set (bf := Z.min (dim1 S) (dim1 Q)).
  set (ba := Z.max (sg_offset s) (sg_offset o) - start).
  set (bb := Z.min (sg_offset s + dim2 S) (sg_offset o + dim2 Q) - start).
  match goal with |- context [bind ?e _] => set (step := e) end.
  assert (exists m, step = Ok m /\ wf_cube m /\ dim0 m = n /\ dim1 m = fr /\ dim2 m = len /\
            forall i j k, 0 <= i < n -> 0 <= j < fr -> 0 <= k < len ->
              cell m i j k = match cell S (stretch (dim0 S) i) j (k - sa), cell Q (stretch (dim0 Q) i) j (k - oa) with
                             | Some x, Some y => Some (f x y)
                             | _, _ => cell m4 i j k
                             end)
    as (m5 & Em & Wk & H0 & H1 & H2 & Ck).
  { subst step. destruct (negb (bf =? 0) && (ba <? bb)) eqn:Cond.
    - assert (B : 0 <= ba /\ ba <= bb /\ bb <= len /\ 0 <= bf /\ bf <= fr /\ ba + start - sg_offset s = ba - sa /\
                  bb + start - sg_offset s = bb - sa /\ ba + start - sg_offset o = ba - oa /\ bb + start - sg_offset o = bb - oa /\
                  sa <= ba /\ oa <= ba /\ bb - sa <= dim2 S /\ bb - oa <= dim2 Q /\ bf <= dim1 S /\ bf <= dim1 Q) by lia.
      destruct B as (B1 & B2 & B3 & B4 & B5 & B6 & B7 & B8 & B9 & B10 & B11 & B12 & B13 & B14 & B15). rewrite B6, B7, B8, B9.
      assert (B16 : (ba = sa \/ ba = oa) /\ (bb = sa + dim2 S \/ bb = oa + dim2 Q) /\ (bf = dim1 S \/ bf = dim1 Q) /\
                    (n = dim0 S \/ n = dim0 Q)) by lia.
      set (bc := Z.min (dim0 S) (dim0 Q)).
      assert (B17 : bc <= dim0 S /\ bc <= dim0 Q) by (clear - bc; lia).
      assert (B18 : bc = dim0 S \/ bc = dim0 Q) by (clear - bc; lia).
      clearbody S Q bc ba bb bf start len n fr sa oa. clear B6 B7 B8 B9.
      destruct (Z.eqb_spec (dim0 S) 1) as [N|N]; [|destruct (Z.eqb_spec (dim0 Q) 1) as [M|M]].
      + assert (n = dim0 Q) by lia. do_layer v. intro_sub v1. intro_sub v2. do_ufunc m5. exists m5. split; auto. split; auto. split; [lia|]. split; [lia|]. split; [lia|].
        intros i j k I J K. overlap S Q C2 i j k (k - sa) (k - oa).
      + assert (n = dim0 S) by lia. do_layer v. intro_sub v1. intro_sub v2. do_ufunc m5. exists m5. split; auto. split; auto. split; [lia|]. split; [lia|]. split; [lia|].
        intros i j k I J K. overlap S Q C2 i j k (k - sa) (k - oa).
      + intro_sub v1. intro_sub v2. do_ufunc m5. exists m5. split; auto. split; auto. split; [lia|]. split; [lia|]. split; [lia|].
        intros i j k I J K. overlap S Q C1 i j k (k - sa) (k - oa).
    - exists m4. split; auto. split; auto. split; [lia|]. split; [lia|]. split; [lia|].
      intros i j k I J K. known S Ex i j (k - sa); known Q Ey i j (k - oa); rewrite Ex, ?Ey; auto.
      exfalso. arith. }
  rewrite Em. cbn [bind].
  eexists. split; [reflexivity|]. apply computed_intro; auto.
  intros i j k I J K. rewrite Ck, Cm', Cm by auto. unfold part, sg_count. fold S Q.
  replace (k + start - sg_offset s) with (k - sa) by lia. replace (k + start - sg_offset o) with (k - oa) by lia.
  destruct (cell S _ _ _), (cell Q _ _ _); reflexivity.
Qed.

Theorem sg_algebra_ok (O : ops A) label s o :
  wf_spectrogram s -> wf_spectrogram o -> 1 <= sg_count s -> 1 <= sg_count o ->
  let start := Z.min (sg_offset s) (sg_offset o) in
  exists r, sg_algebra O junk f pivot label s o = Ok r /\
    computed r s label start (Z.max (sg_count s) (sg_count o)) (Z.max (sg_frequencies s) (sg_frequencies o))
      (Z.max (sg_offset s + sg_length s) (sg_offset o + sg_length o) - start) (o_zero O)
      (fun i j k => part s i j (k + start - sg_offset s)) (fun i j k => part o i j (k + start - sg_offset o)).
Proof.
  intros Ws Wo Cs Co start.
  destruct ((sg_frequencies s =? sg_frequencies o) && (sg_length s =? sg_length o) && (sg_offset s =? sg_offset o)) eqn:B.
  - destruct (sg_same_shape_ok O label s o) as (r & E & W & P1 & P2 & P3 & P4 & P5 & P6 & P7 & C); auto; try lia.
    exists r. split; auto. unfold computed. split; auto. split; auto. split; auto. split; [lia|]. split; auto. split; auto.
    split; [lia|]. split; [lia|]. intros i j k I J K. rewrite C by lia.
    replace (k + start - sg_offset s) with k by lia. replace (k + start - sg_offset o) with k by lia. reflexivity.
  - unfold sg_algebra. rewrite B. now apply sg_different_shapes_ok.
Qed.

End Algebra.
