(** Lemmas about the array primitives of Model/Cube.v. *)

From Coq Require Import ZArith List Bool Lia ZifyBool.
From Verif.Model Require Import Py Numpy Cube.
From Verif.Proofs Require Import PyFacts NumpyFacts SignalAlgebra.
Import ListNotations.
Open Scope Z_scope.

(** [l <= i < u] *)
Definition inr (l u i : Z) : bool := (l <=? i) && (i <? u).

Lemma inr_spec l u i : inr l u i = true <-> l <= i < u.
Proof. unfold inr. lia. Qed.

Ltac ranges := unfold inr, inside, stretch, fits in *.

Section Facts.
Context {A : Type}.
Implicit Types m : cube A.

Lemma cell_in m i j k : wf_cube m -> 0 <= i < dim0 m -> 0 <= j < dim1 m -> 0 <= k < dim2 m ->
  exists x, cell m i j k = Some x.
Proof. intros (_ & _ & _ & H) I J K. apply H. ranges; lia. Qed.

Lemma cell_out m i j k : wf_cube m -> ~ (0 <= i < dim0 m /\ 0 <= j < dim1 m /\ 0 <= k < dim2 m) -> cell m i j k = None.
Proof.
  intros (_ & _ & _ & H) N. destruct (cell m i j k) eqn:E; auto. exfalso. apply N.
  assert (I : inside (dim0 m) (dim1 m) (dim2 m) i j k = true) by (apply H; eauto). ranges; lia.
Qed.

Lemma cell_range m i j k x : wf_cube m -> cell m i j k = Some x -> 0 <= i < dim0 m /\ 0 <= j < dim1 m /\ 0 <= k < dim2 m.
Proof.
  intros (_ & _ & _ & H) E. assert (I : inside (dim0 m) (dim1 m) (dim2 m) i j k = true) by (apply H; eauto). ranges; lia.
Qed.

Lemma wf_by_cells n0 n1 n2 (g : Z -> Z -> Z -> option A) : 0 <= n0 -> 0 <= n1 -> 0 <= n2 ->
  (forall i j k, 0 <= i < n0 -> 0 <= j < n1 -> 0 <= k < n2 -> exists x, g i j k = Some x) ->
  (forall i j k, ~ (0 <= i < n0 /\ 0 <= j < n1 /\ 0 <= k < n2) -> g i j k = None) ->
  wf_cube (Cube n0 n1 n2 g).
Proof.
  intros H0 H1 H2 I X. repeat split; auto; cbn.
  - intros [x E]. destruct (inside n0 n1 n2 i j k) eqn:R; auto.
    rewrite X in E by (ranges; lia). discriminate.
  - intros R. apply I; ranges; lia.
Qed.

(** Two arrays have the same shape. *)
Definition like {B C} (m : cube B) (m' : cube C) : Prop := dim0 m = dim0 m' /\ dim1 m = dim1 m' /\ dim2 m = dim2 m'.

Lemma allocate3_ok (junk : Z -> Z -> Z -> A) n0 n1 n2 : 0 <= n0 -> 0 <= n1 -> 0 <= n2 ->
  exists m, allocate3 junk n0 n1 n2 = Ok m /\ wf_cube m /\ dim0 m = n0 /\ dim1 m = n1 /\ dim2 m = n2.
Proof.
  intros. unfold allocate3. replace ((n0 <? 0) || (n1 <? 0) || (n2 <? 0)) with false by lia.
  eexists. split; [reflexivity|]. split; auto. apply wf_by_cells; auto; intros.
  - replace (inside _ _ _ _ _ _) with true by (ranges; lia). eauto.
  - replace (inside _ _ _ _ _ _) with false by (ranges; lia). auto.
Qed.

Lemma sub3_ok m b0 b1 b2 l0 u0 l1 u1 l2 u2 : wf_cube m ->
  lower b0 (dim0 m) = l0 -> upper b0 (dim0 m) = u0 -> lower b1 (dim1 m) = l1 -> upper b1 (dim1 m) = u1 ->
  lower b2 (dim2 m) = l2 -> upper b2 (dim2 m) = u2 ->
  wf_cube (sub3 m b0 b1 b2) /\ dim0 (sub3 m b0 b1 b2) = u0 - l0 /\ dim1 (sub3 m b0 b1 b2) = u1 - l1 /\
  dim2 (sub3 m b0 b1 b2) = u2 - l2 /\
  forall i j k, cell (sub3 m b0 b1 b2) i j k =
    if inr 0 (u0 - l0) i && inr 0 (u1 - l1) j && inr 0 (u2 - l2) k then cell m (l0 + i) (l1 + j) (l2 + k) else None.
Proof.
  intros W <- <- <- <- <- <-. pose proof W as (H0 & H1 & H2 & _).
  pose proof (lower_range b0 _ H0). pose proof (lower_range b1 _ H1). pose proof (lower_range b2 _ H2).
  pose proof (upper_range b0 _ H0). pose proof (upper_range b1 _ H1). pose proof (upper_range b2 _ H2).
  split; [|split; [|split; [|split]]]; auto.
  - apply wf_by_cells; try lia; intros.
    + replace (inside _ _ _ _ _ _) with true by (ranges; lia). apply cell_in; auto; lia.
    + replace (inside _ _ _ _ _ _) with false by (ranges; lia). auto.
  - intros. cbn. replace (inside _ _ _ _ _ _) with
      (inr 0 (upper b0 (dim0 m) - lower b0 (dim0 m)) i && inr 0 (upper b1 (dim1 m) - lower b1 (dim1 m)) j &&
       inr 0 (upper b2 (dim2 m) - lower b2 (dim2 m)) k) by (ranges; lia). reflexivity.
Qed.

Lemma layer_ok m c : wf_cube m -> 0 <= c < dim0 m ->
  exists v, layer m c = Ok v /\ wf_cube v /\ dim0 v = 1 /\ dim1 v = dim1 m /\ dim2 v = dim2 m /\
    forall i j k, cell v i j k = if i =? 0 then cell m c j k else None.
Proof.
  intros W C. unfold layer. replace (c <? 0) with false by lia.
  replace ((c <? 0) || (dim0 m <=? c)) with false by lia.
  eexists. split; [reflexivity|]. pose proof W as (H0 & H1 & H2 & _). split; auto.
  apply wf_by_cells; try lia; intros.
  - replace (i =? 0) with true by lia. apply cell_in; auto.
  - zcases. apply cell_out; auto. lia.
Qed.

Lemma cube_of_ok (m : arr A) : wf m ->
  wf_cube (cube_of m) /\ dim0 (cube_of m) = 1 /\ dim1 (cube_of m) = nrows m /\ dim2 (cube_of m) = cols m /\
  forall i j k, cell (cube_of m) i j k = if i =? 0 then el m j k else None.
Proof.
  intros W. pose proof W as [C _]. pose proof (nrows_nonneg m). split; auto.
  apply wf_by_cells; try lia; intros.
  - replace (i =? 0) with true by lia. apply el_in; auto.
  - zcases. apply el_out; auto. lia.
Qed.

Lemma scalar3_ok (x : A) :
  wf_cube (scalar3 x) /\ dim0 (scalar3 x) = 1 /\ dim1 (scalar3 x) = 1 /\ dim2 (scalar3 x) = 1 /\
  cell (scalar3 x) 0 0 0 = Some x.
Proof.
  split; auto. apply wf_by_cells; try lia; intros.
  - replace (inside _ _ _ _ _ _) with true by (ranges; lia). eauto.
  - replace (inside _ _ _ _ _ _) with false by (ranges; lia). auto.
Qed.

Lemma set3_ok m b0 b1 b2 (src : cube A) l0 u0 l1 u1 l2 u2 : wf_cube m -> wf_cube src ->
  lower b0 (dim0 m) = l0 -> upper b0 (dim0 m) = u0 -> lower b1 (dim1 m) = l1 -> upper b1 (dim1 m) = u1 ->
  lower b2 (dim2 m) = l2 -> upper b2 (dim2 m) = u2 ->
  dim0 src = u0 - l0 \/ dim0 src = 1 -> dim1 src = u1 - l1 \/ dim1 src = 1 -> dim2 src = u2 - l2 \/ dim2 src = 1 ->
  exists m', set3 m b0 b1 b2 src = Ok m' /\ wf_cube m' /\ dim0 m' = dim0 m /\ dim1 m' = dim1 m /\ dim2 m' = dim2 m /\
  forall i j k, cell m' i j k =
    if inr l0 u0 i && inr l1 u1 j && inr l2 u2 k
    then cell src (stretch (dim0 src) (i - l0)) (stretch (dim1 src) (j - l1)) (stretch (dim2 src) (k - l2))
    else cell m i j k.
Proof.
  intros W S <- <- <- <- <- <- F0 F1 F2. pose proof W as (H0 & H1 & H2 & _).
  pose proof (lower_range b0 _ H0). pose proof (lower_range b1 _ H1). pose proof (lower_range b2 _ H2).
  pose proof (upper_range b0 _ H0). pose proof (upper_range b1 _ H1). pose proof (upper_range b2 _ H2).
  unfold set3. replace (fits3 _ _ _ _) with true by (unfold fits3, fits; lia).
  assert (E : forall i j k,
    (lower b0 (dim0 m) <=? i) && (i <? upper b0 (dim0 m)) && (lower b1 (dim1 m) <=? j) && (j <? upper b1 (dim1 m)) &&
    (lower b2 (dim2 m) <=? k) && (k <? upper b2 (dim2 m)) =
    inr (lower b0 (dim0 m)) (upper b0 (dim0 m)) i && inr (lower b1 (dim1 m)) (upper b1 (dim1 m)) j &&
    inr (lower b2 (dim2 m)) (upper b2 (dim2 m)) k) by (intros; ranges; lia).
  eexists. split; [reflexivity|]. split; [|cbn; repeat split; auto; intros; now rewrite E].
  apply wf_by_cells; try lia; intros; rewrite E; destruct (inr _ _ i && _ && _) eqn:I; ranges.
  - apply cell_in; auto; ranges; zcases.
  - apply cell_in; auto; ranges; zcases.
  - lia.
  - apply cell_out; auto.
Qed.

Lemma transpose_ok (a : axes) m : wf_cube m -> wf_cube (transpose a m).
Proof.
  intros W. pose proof W as (H0 & H1 & H2 & _).
  destruct a; cbn; apply wf_by_cells; auto; intros; solve [apply cell_in; auto|apply cell_out; auto; lia].
Qed.

Lemma untranspose_ok (a : axes) m : wf_cube m -> wf_cube (untranspose a m).
Proof.
  intros W. pose proof W as (H0 & H1 & H2 & _).
  destruct a; cbn; apply wf_by_cells; auto; intros; solve [apply cell_in; auto|apply cell_out; auto; lia].
Qed.

End Facts.

Lemma map3_ok {A B} (f : A -> B) (m : cube A) : wf_cube m -> wf_cube (map3 f m).
Proof.
  intros W. pose proof W as (H0 & H1 & H2 & _). apply wf_by_cells; auto; intros.
  - destruct (cell_in m i j k) as [x E]; auto. rewrite E. cbn. eauto.
  - rewrite cell_out; auto.
Qed.

(** The first, second and third of three things after the transposition. *)
Definition ax0 {T} (a : axes) (x y z : T) : T := match a with Axes102 => y | Axes201 => z | Axes021 => x end.
Definition ax1 {T} (a : axes) (x y z : T) : T := match a with Axes102 => x | Axes201 => x | Axes021 => z end.
Definition ax2 {T} (a : axes) (x y z : T) : T := match a with Axes102 => z | Axes201 => y | Axes021 => y end.

Section Functions.
Context {A B C : Type}.

Definition both (f : A -> B -> C) (x : option A) (y : option B) : option C :=
  match x, y with Some x, Some y => Some (f x y) | _, _ => None end.

Lemma ufunc3_into_ok (f : A -> B -> C) a b m b0 b1 b2 l0 u0 l1 u1 l2 u2 : wf_cube m -> wf_cube a -> wf_cube b ->
  lower b0 (dim0 m) = l0 -> upper b0 (dim0 m) = u0 -> lower b1 (dim1 m) = l1 -> upper b1 (dim1 m) = u1 ->
  lower b2 (dim2 m) = l2 -> upper b2 (dim2 m) = u2 ->
  dim0 a = u0 - l0 \/ dim0 a = 1 -> dim1 a = u1 - l1 \/ dim1 a = 1 -> dim2 a = u2 - l2 \/ dim2 a = 1 ->
  dim0 b = u0 - l0 \/ dim0 b = 1 -> dim1 b = u1 - l1 \/ dim1 b = 1 -> dim2 b = u2 - l2 \/ dim2 b = 1 ->
  exists m', ufunc3_into f a b m b0 b1 b2 = Ok m' /\ wf_cube m' /\ dim0 m' = dim0 m /\ dim1 m' = dim1 m /\ dim2 m' = dim2 m /\
  forall i j k, cell m' i j k =
    if inr l0 u0 i && inr l1 u1 j && inr l2 u2 k
    then both f (cell a (stretch (dim0 a) (i - l0)) (stretch (dim1 a) (j - l1)) (stretch (dim2 a) (k - l2)))
                (cell b (stretch (dim0 b) (i - l0)) (stretch (dim1 b) (j - l1)) (stretch (dim2 b) (k - l2)))
    else cell m i j k.
Proof.
  intros W Wa Wb <- <- <- <- <- <- F0 F1 F2 G0 G1 G2. pose proof W as (H0 & H1 & H2 & _).
  pose proof (lower_range b0 _ H0). pose proof (lower_range b1 _ H1). pose proof (lower_range b2 _ H2).
  pose proof (upper_range b0 _ H0). pose proof (upper_range b1 _ H1). pose proof (upper_range b2 _ H2).
  unfold ufunc3_into, ufunc3.
  replace (fits3 a _ _ _ && fits3 b _ _ _) with true by (unfold fits3, fits; lia). cbn [bind].
  set (s := Cube _ _ _ _).
  assert (Ws : wf_cube s).
  { apply wf_by_cells; try lia; intros.
    - replace (inside _ _ _ _ _ _) with true by (ranges; lia). unfold cell_stretched.
      destruct (cell_in a (stretch (dim0 a) i) (stretch (dim1 a) j) (stretch (dim2 a) k)) as [x Ex]; [auto|ranges; zcases..|].
      destruct (cell_in b (stretch (dim0 b) i) (stretch (dim1 b) j) (stretch (dim2 b) k)) as [y Ey]; [auto|ranges; zcases..|].
      rewrite Ex, Ey. eexists; reflexivity.
    - replace (inside _ _ _ _ _ _) with false by (ranges; lia). auto. }
  edestruct (set3_ok m b0 b1 b2 s) as (m' & E & W' & D0 & D1 & D2 & Cl); auto; try reflexivity; try (left; reflexivity).
  exists m'. repeat split; auto; try apply W'. intros. rewrite Cl.
  destruct (inr _ _ i && _ && _) eqn:I; auto.
  assert (S : forall n x, 0 <= x < n -> stretch n x = x) by (intros; ranges; zcases).
  unfold s. cbn [cell dim0 dim1 dim2].
  rewrite !(S (_ - _)) by (ranges; lia).
  replace (inside _ _ _ _ _ _) with true by (ranges; lia). reflexivity.
Qed.

Lemma set3_view_ok (a : axes) (m : cube C) b0 b1 b2 (src : cube C) l0 u0 l1 u1 l2 u2 : wf_cube m -> wf_cube src ->
  lower b0 (ax0 a (dim0 m) (dim1 m) (dim2 m)) = l0 -> upper b0 (ax0 a (dim0 m) (dim1 m) (dim2 m)) = u0 ->
  lower b1 (ax1 a (dim0 m) (dim1 m) (dim2 m)) = l1 -> upper b1 (ax1 a (dim0 m) (dim1 m) (dim2 m)) = u1 ->
  lower b2 (ax2 a (dim0 m) (dim1 m) (dim2 m)) = l2 -> upper b2 (ax2 a (dim0 m) (dim1 m) (dim2 m)) = u2 ->
  dim0 src = u0 - l0 \/ dim0 src = 1 -> dim1 src = u1 - l1 \/ dim1 src = 1 -> dim2 src = u2 - l2 \/ dim2 src = 1 ->
  exists m', set3_view a m b0 b1 b2 src = Ok m' /\ wf_cube m' /\ dim0 m' = dim0 m /\ dim1 m' = dim1 m /\ dim2 m' = dim2 m /\
  forall i j k, cell m' i j k =
    if inr l0 u0 (ax0 a i j k) && inr l1 u1 (ax1 a i j k) && inr l2 u2 (ax2 a i j k)
    then cell src (stretch (dim0 src) (ax0 a i j k - l0)) (stretch (dim1 src) (ax1 a i j k - l1))
                  (stretch (dim2 src) (ax2 a i j k - l2))
    else cell m i j k.
Proof.
  intros W S L0 U0 L1 U1 L2 U2 F0 F1 F2. unfold set3_view.
  edestruct (set3_ok (transpose a m) b0 b1 b2 src l0 u0 l1 u1 l2 u2) as (t & E & Wt & D0 & D1 & D2 & Cl); auto;
    try (destruct a; assumption).
  { now apply transpose_ok. }
  rewrite E. cbn [bind]. eexists. split; [reflexivity|]. split; [now apply untranspose_ok|].
  destruct a; cbn in *; repeat split; auto; intros; apply Cl.
Qed.

Lemma ufunc3_view_ok (f : A -> B -> C) x y (a : axes) (m : cube C) b0 b1 b2 l0 u0 l1 u1 l2 u2 :
  wf_cube m -> wf_cube x -> wf_cube y ->
  lower b0 (ax0 a (dim0 m) (dim1 m) (dim2 m)) = l0 -> upper b0 (ax0 a (dim0 m) (dim1 m) (dim2 m)) = u0 ->
  lower b1 (ax1 a (dim0 m) (dim1 m) (dim2 m)) = l1 -> upper b1 (ax1 a (dim0 m) (dim1 m) (dim2 m)) = u1 ->
  lower b2 (ax2 a (dim0 m) (dim1 m) (dim2 m)) = l2 -> upper b2 (ax2 a (dim0 m) (dim1 m) (dim2 m)) = u2 ->
  dim0 x = u0 - l0 \/ dim0 x = 1 -> dim1 x = u1 - l1 \/ dim1 x = 1 -> dim2 x = u2 - l2 \/ dim2 x = 1 ->
  dim0 y = u0 - l0 \/ dim0 y = 1 -> dim1 y = u1 - l1 \/ dim1 y = 1 -> dim2 y = u2 - l2 \/ dim2 y = 1 ->
  exists m', ufunc3_view f x y a m b0 b1 b2 = Ok m' /\ wf_cube m' /\ dim0 m' = dim0 m /\ dim1 m' = dim1 m /\ dim2 m' = dim2 m /\
  forall i j k, cell m' i j k =
    if inr l0 u0 (ax0 a i j k) && inr l1 u1 (ax1 a i j k) && inr l2 u2 (ax2 a i j k)
    then both f (cell x (stretch (dim0 x) (ax0 a i j k - l0)) (stretch (dim1 x) (ax1 a i j k - l1))
                        (stretch (dim2 x) (ax2 a i j k - l2)))
                (cell y (stretch (dim0 y) (ax0 a i j k - l0)) (stretch (dim1 y) (ax1 a i j k - l1))
                        (stretch (dim2 y) (ax2 a i j k - l2)))
    else cell m i j k.
Proof.
  intros W Wx Wy L0 U0 L1 U1 L2 U2 F0 F1 F2 G0 G1 G2. unfold ufunc3_view.
  edestruct (ufunc3_into_ok f x y (transpose a m) b0 b1 b2 l0 u0 l1 u1 l2 u2) as (t & E & Wt & D0 & D1 & D2 & Cl); auto;
    try (destruct a; assumption).
  { now apply transpose_ok. }
  rewrite E. cbn [bind]. eexists. split; [reflexivity|]. split; [now apply untranspose_ok|].
  destruct a; cbn in *; repeat split; auto; intros; apply Cl.
Qed.

End Functions.

(** A loop over channels, each iteration of which overwrites the same part [R] of one channel. *)
Lemma layers_loop {A} (f : cube A -> Z -> result (cube A)) (R : Z -> Z -> bool) (w : Z -> Z -> Z -> option A) a n m0 :
  0 <= n -> wf_cube m0 ->
  (forall m c, a <= c < a + n -> wf_cube m -> like m m0 -> (forall i j k, i < a -> cell m i j k = cell m0 i j k) ->
     exists m', f m c = Ok m' /\ wf_cube m' /\ like m' m /\
       forall i j k, cell m' i j k = if (i =? c) && R j k then w c j k else cell m i j k) ->
  exists m', for_each (zseq a n) f m0 = Ok m' /\ wf_cube m' /\ like m' m0 /\
    forall i j k, cell m' i j k = if inr a (a + n) i && R j k then w i j k else cell m0 i j k.
Proof.
  intros N W Step.
  destruct (for_each_seq (fun c m => wf_cube m /\ like m m0 /\
      forall i j k, cell m i j k = if inr a c i && R j k then w i j k else cell m0 i j k) f n a m0) as (m' & E & Wm & L & Cl); auto.
  - repeat split; auto; try apply W. intros. replace (inr a a i) with false by (ranges; lia). reflexivity.
  - intros c m K (Wm & L & Cl). destruct (Step m c) as (m' & E & W' & L' & Cl'); auto.
    { intros. rewrite Cl. replace (inr a c i) with false by (ranges; lia). reflexivity. }
    exists m'. split; auto. split; auto. split; [unfold like in *; intuition congruence|].
    intros. rewrite Cl'. rewrite Cl.
    destruct (Z.eqb_spec i c); [subst|].
    + replace (inr a c c) with false by (ranges; lia). replace (inr a (c + 1) c) with true by (ranges; lia).
      cbn [andb]. destruct (R j k); reflexivity.
    + replace (inr a (c + 1) i) with (inr a c i) by (ranges; lia). reflexivity.
  - exists m'. auto.
Qed.
