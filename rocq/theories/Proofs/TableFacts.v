(** Reading and writing of tables: Model/Tables.v. *)

From Coq Require Import String ZArith QArith Qabs List Bool Lia Lqa ZifyBool Permutation Sorted.
From Verif.Model Require Import Py Numpy Functions Signal Spectrum Tables.
From Verif.Spec Require Import TablesSpec.
From Verif.Proofs Require Import PyFacts NumpyFacts SliceFacts SortFacts.
Import ListNotations.
Open Scope list_scope.
Open Scope Z_scope.

Lemma sequence_map_ok {X Y} (f : X -> result Y) (g : X -> Y) l : (forall x, In x l -> f x = Ok (g x)) -> sequence (map f l) = Ok (map g l).
Proof. induction l as [|x l IH]; intros H; auto. cbn [map sequence]. rewrite H by now left. cbn. rewrite IH by (intros; apply H; now right). reflexivity. Qed.
Lemma sequence_map_total {X Y} (f : X -> result Y) l : (forall x, In x l -> exists y, f x = Ok y) -> exists m, sequence (map f l) = Ok m.
Proof.
  induction l as [|x l IH]; intros H; [now exists [] |]. destruct (H x (or_introl eq_refl)) as [y E]. destruct IH as [m M]; [intros; apply H; now right |].
  exists (y :: m). cbn. rewrite E. cbn. now rewrite M.
Qed.
Lemma sequence_forall2 {X Y} (f : X -> result Y) l m : Forall2 (fun x y => f x = Ok y) l m -> sequence (map f l) = Ok m.
Proof. induction 1 as [|x y l m E F IH]; auto. cbn. rewrite E. cbn. now rewrite IH. Qed.
Lemma forall2_zlen {X Y} (R : X -> Y -> Prop) l m : Forall2 R l m -> zlen l = zlen m.
Proof. induction 1; auto. rewrite !zlen_cons. lia. Qed.
Lemma forall2_zth {X Y} (R : X -> Y -> Prop) l m : zlen l = zlen m -> (forall i x y, zth l i = Some x -> zth m i = Some y -> R x y) -> Forall2 R l m.
Proof.
  revert m. induction l as [|x l IH]; intros [|y m] L H.
  - constructor.
  - rewrite zlen_cons in L. change (zlen (@nil X)) with 0 in L. pose proof (zlen_nonneg m). lia.
  - rewrite zlen_cons in L. change (zlen (@nil Y)) with 0 in L. pose proof (zlen_nonneg l). lia.
  - rewrite !zlen_cons in L. constructor.
    + now apply (H 0).
    + apply IH; [lia |]. intros i a b E E'. pose proof (zth_range _ _ _ E). apply (H (i + 1)); rewrite zth_cons; replace (i + 1 =? 0) with false by lia; now replace (i + 1 - 1) with i by lia.
Qed.
Lemma getitem_zth {X} (l : list X) i x : 0 <= i -> zth l i = Some x -> getitem l i = Ok x.
Proof. intros I E. unfold getitem. replace (i <? 0) with false by lia. now rewrite E. Qed.
Lemma getitem_last {X} (l : list X) x : zth l (zlen l - 1) = Some x -> getitem l (-1) = Ok x.
Proof. intros E. unfold getitem. change (-1 <? 0) with true. cbn iota. replace (-1 + zlen l) with (zlen l - 1) by lia. now rewrite E. Qed.
Lemma subseq_from_1 {X} (x : X) l : subseq (from 1) (x :: l) = l.
Proof.
  pose proof (zlen_nonneg l). apply zth_ext. intros i. rewrite zth_subseq, upper_from, lower_from by (rewrite zlen_cons; lia). rewrite zth_cons, zlen_cons.
  destruct (Z.leb_spec 0 i); cbn [andb]; [| now rewrite zth_neg]. destruct (Z.ltb_spec i (1 + zlen l - 1)).
  - replace (i + 1 =? 0) with false by lia. now replace (i + 1 - 1) with i by lia.
  - now rewrite zth_ge by lia.
Qed.

(** ** Arrays *)
Lemma copy_array_ok {A} junk (m : arr A) : wf m -> copy_array junk m = Ok m.
Proof.
  intros W. pose proof (nrows_nonneg m). pose proof (proj1 W). unfold copy_array.
  destruct (allocate_ok junk (nrows m) (cols m)) as (a & E & Wa & Na & Ca); auto. rewrite E. cbn.
  destruct (set_block_ok a everything everything m) as (a' & E' & W' & N' & C' & H'); auto; try (rewrite upper_everything, lower_everything by lia; left; lia).
  rewrite E'. f_equal. rewrite Na, Ca in *. apply arr_ext; auto. rewrite N', C'. intros i j I J. rewrite H', !upper_everything, !lower_everything by lia.
  replace ((0 <=? i) && (i <? nrows m) && (0 <=? j) && (j <? cols m)) with true by lia. f_equal; zcases.
Qed.

Lemma transposed_eq {A} (rows : list (list A)) r t : rows = r :: t -> transposed rows =
  if forallb (fun s => zlen s =? zlen r) rows then
    c <- sequence (map (fun i => sequence (map (fun s => getitem s i) rows)) (zseq 0 (zlen r))) ;; Ok (Arr c (zlen rows))
  else Err ValueError.
Proof. intros ->. reflexivity. Qed.

Lemma transposed_ok {A} c (table : list (Q * list A)) : 0 <= c -> uniform c table -> 1 <= zlen table ->
  exists m, transposed (map snd table) = Ok m /\ samples_of c table m.
Proof.
  intros C U N. destruct table as [|r0 t] eqn:T; [rewrite zlen_nil in N; lia |]. rewrite <- T in *.
  assert (Z0 : zlen (snd r0) = c) by (rewrite T in U; now inversion U).
  rewrite (transposed_eq (map snd table) (snd r0) (map snd t)), Z0 by now rewrite T.
  replace (forallb _ _) with true.
  2: { symmetry. apply forallb_forall. intros s H. apply in_map_iff in H as (r & <- & I). unfold uniform in U. rewrite Forall_forall in U. apply U in I. lia. }
  assert (G : forall i, 0 <= i < c -> exists col, sequence (map (fun s => getitem s i) (map snd table)) = Ok col).
  { intros i I. apply sequence_map_total. intros s H. apply in_map_iff in H as (r & <- & J). unfold uniform in U. rewrite Forall_forall in U. apply U in J.
    destruct (zth_in (snd r) i) as [x E]; [lia |]. exists x. apply getitem_zth; auto; lia. }
  destruct (sequence_map_total (fun i => sequence (map (fun s => getitem s i) (map snd table))) (zseq 0 c)) as [cs E].
  { intros i I. apply In_zth in I as [k K]. rewrite zth_seq in K. destruct (_ && _) eqn:B in K; [| discriminate]. injection K as <-. apply G. lia. }
  rewrite E. cbn. eexists. split; [reflexivity |]. apply sequence_ok in E as [L E]. rewrite zlen_map, zlen_seq in L.
  assert (E2 : forall i col, zth cs i = Some col -> 0 <= i < c /\ zlen col = zlen table /\ forall k r, zth table k = Some r -> zth col k = zth (snd r) i).
  { intros i col K. pose proof (zth_range _ _ _ K) as R. destruct (E i (sequence (map (fun s => getitem s i) (map snd table)))) as (v & V & V').
    { rewrite zth_map, zth_seq. replace ((0 <=? i) && (i <? c)) with true by lia. cbn. now replace (0 + i) with i by lia. }
    rewrite V' in K. injection K as ->. apply sequence_ok in V as [VL V]. rewrite !zlen_map in VL. split; [lia |]. split; [auto |].
    intros k r Kr. destruct (V k (getitem (snd r) i)) as (x & X & X'). { now rewrite !zth_map, Kr. }
    rewrite X'. unfold getitem in X. replace (i <? 0) with false in X by lia. destruct (zth (snd r) i); [now injection X as -> | discriminate]. }
  split; [split | split; [| split]]; cbn [rows cols].
  - apply zlen_nonneg.
  - apply Forall_zth. intros i col K. apply E2 in K as (_ & K & _). now rewrite zlen_map.
  - unfold nrows. cbn. lia.
  - apply zlen_map.
  - intros i k r K. unfold el. cbn. destruct (zth cs i) as [col|] eqn:D; [now apply E2 in D as (_ & _ & D); apply D |].
    apply zth_none in D. symmetry. apply zth_out. apply zth_In in K. unfold uniform in U. rewrite Forall_forall in U. apply U in K. lia.
Qed.

Lemma samples_unique {A} c (table : list (Q * list A)) m m' : samples_of c table m -> samples_of c table m' -> m = m'.
Proof.
  intros (W & N & C & H) (W' & N' & C' & H'). apply arr_ext; auto; try lia. intros i j I J. rewrite C in J.
  destruct (zth_in table j J) as [r E]. now rewrite (H i j r E), (H' i j r E).
Qed.

Section Reading.
Context {A : Type}.
Variable eqb : A -> A -> bool.
Variable less : A -> A -> result bool.

Lemma row_of_samples c (table : list (Q * list A)) m i r : samples_of c table m -> zth (rows m) i = Some r ->
  0 <= i < c /\ zlen r = zlen table /\ forall k t, zth table k = Some t -> zth r k = zth (snd t) i.
Proof.
  intros (W & N & C & H) E. pose proof (zth_range _ _ _ E) as R. unfold nrows in N. split; [lia |].
  split; [rewrite (wf_zlen _ _ _ W E); lia |]. intros k t K. rewrite <- (H i k t K). unfold el. now rewrite E.
Qed.

Lemma samples_row c (table : list (Q * list A)) m i : samples_of c table m -> 0 <= i < c -> exists r, zth (rows m) i = Some r.
Proof. intros (W & N & C & H) I. apply zth_in. unfold nrows in N. lia. Qed.

(** Cells of the [i]-th column, together with the numbers of the rows *)
Definition cell (d : A) (i : Z) (r : Q * list A) : Q * A := (fst r, match zth (snd r) i with Some x => x | None => d end).

Lemma combine_cells d c (table : list (Q * list A)) m i r : uniform c table -> samples_of c table m -> zth (rows m) i = Some r ->
  combine (map fst table) r = map (cell d i) table.
Proof.
  intros U S E. destruct (row_of_samples _ _ _ _ _ S E) as (I & L & H). clear S E. revert r L H. induction table as [|t table IH]; intros r L H; auto.
  inversion U as [|? ? U1 U2]; subst. destruct r as [|x r]; [rewrite zlen_nil, zlen_cons in L; pose proof (zlen_nonneg table); lia |].
  rewrite !zlen_cons in L. cbn [map combine]. f_equal.
  - unfold cell. specialize (H 0 t eq_refl). cbn in H. now rewrite <- H.
  - apply IH; auto; [lia |]. intros k u K. pose proof (zth_range _ _ _ K). specialize (H (k + 1) u). rewrite !zth_cons in H. replace (k + 1 =? 0) with false in H by lia.
    replace (k + 1 - 1) with k in H by lia. auto.
Qed.

Lemma cells_sorted d i (l : list (Q * list A)) : StronglySorted Qlt (map fst l) -> StronglySorted before (map (cell d i) l).
Proof. intros H. apply sorted_map_fst. rewrite map_map. exact H. Qed.

Lemma sort_by_ok c (table sorted : list (Q * list A)) m m' i r : 
  uniform c table -> samples_of c table m -> samples_of c sorted m' -> arrangement table sorted -> zth (rows m) i = Some r ->
  exists r', zth (rows m') i = Some r' /\ sort_by eqb less (map fst table) r = Ok r'.
Proof.
  intros U S S' [P O] E. destruct (row_of_samples _ _ _ _ _ S E) as (I & L & H).
  assert (U' : uniform c sorted). { unfold uniform in *. now rewrite <- P. }
  destruct (samples_row _ _ _ i S' I) as [r' E']. exists r'. split; auto.
  destruct (row_of_samples _ _ _ _ _ S' E') as (_ & L' & H').
  destruct r as [|d r0] eqn:R0.
  - assert (table = []) as -> by (apply zlen_zero; rewrite <- L; reflexivity). apply Permutation_nil in P as ->. rewrite zlen_nil in L'. apply zlen_zero in L' as ->. reflexivity.
  - rewrite <- R0 in *. unfold sort_by. rewrite (combine_cells d c table m i r U S E).
    rewrite (sort_pairs_ok _ _ _ (map (cell d i) sorted)); [| now apply Permutation_map | now apply cells_sorted].
    cbn. rewrite <- (combine_cells d c sorted m' i r' U' S' E'). clear -L'. f_equal.
    revert r' L'. induction sorted as [|x l IH]; intros [|y r'] L; auto.
    + rewrite zlen_cons in L. change (zlen (@nil (Q * list A))) with 0 in L. pose proof (zlen_nonneg r'). lia.
    + rewrite !zlen_cons in L. cbn. f_equal. apply IH. lia.
Qed.

Lemma sorted_rows_ok c (table sorted : list (Q * list A)) m m' : 
  uniform c table -> samples_of c table m -> samples_of c sorted m' -> arrangement table sorted ->
  exists b, sorted_rows eqb less (map fst table) (sort_numbers (map fst table)) m = Ok (m', b).
Proof.
  intros U S S' H. pose proof H as [P O]. rewrite (sort_unique _ (map fst sorted)) by (auto using Permutation_map).
  unfold sorted_rows. destruct (equal_numbers _ _) eqn:E.
  - exists true. do 2 f_equal. apply equal_arrangement in E; auto; [| now apply sorted_map_fst]. subst. eapply samples_unique; eauto.
  - exists false. rewrite (sequence_forall2 _ _ (rows m')).
    + cbn. do 2 f_equal. destruct S as (_ & _ & C & _), S' as (W' & _ & C' & _). rewrite zlen_map, C, Z.min_id.
      destruct m'. cbn in *. f_equal. rewrite C'. unfold zlen. now rewrite (Permutation_length P).
    + apply forall2_zth.
      * destruct S as (_ & N & _), S' as (_ & N' & _). unfold nrows in *. lia.
      * intros i r r' R R'. destruct (sort_by_ok c table sorted m m' i r) as (r2 & E2 & G); auto. congruence.
Qed.

Variable parse : string -> option Q.
Variable parse_sample : string -> option A.

Lemma parse_row_ok texts r : is_row parse parse_sample texts r -> parse_row parse parse_sample texts = Ok r.
Proof.
  destruct texts as [|t cells]; cbn [is_row]; [tauto |]. intros [E F]. unfold parse_row. rewrite subseq_from_1. change (getitem (t :: cells) 0) with (Ok t).
  cbn [bind]. rewrite E. cbn [parsed bind]. rewrite (sequence_forall2 _ _ (snd r)); [now destruct r |].
  clear -F. induction F; constructor; auto. now rewrite H.
Qed.

Lemma parse_rows_ok file table : Forall2 (is_row parse parse_sample) file table -> sequence (map (parse_row parse parse_sample) file) = Ok table.
Proof. intros F. apply sequence_forall2. induction F; constructor; auto. now apply parse_row_ok. Qed.

Lemma read_header hl name header file table m : parse name = None -> Forall2 (is_row parse parse_sample) file table -> transposed (map snd table) = Ok m ->
  read_csv parse parse_sample hl ((name :: header) :: file) = Ok (map fst table, m, header).
Proof.
  intros N F T. unfold read_csv. change (getitem (name :: header) 0) with (Ok name). cbn [bind]. rewrite N, subseq_from_1, (parse_rows_ok _ _ F).
  cbn [bind app]. now rewrite T.
Qed.

Lemma read_headless hl first file table m : Forall2 (is_row parse parse_sample) (first :: file) table -> transposed (map snd table) = Ok m ->
  read_csv parse parse_sample hl (first :: file) = Ok (map fst table, m, hl (zlen first)).
Proof.
  intros F T. inversion F as [|? r ? table' R F']; subst. unfold read_csv. destruct first as [|t cells]; [destruct R |].
  cbn [is_row] in R. destruct R as [E R]. change (getitem (t :: cells) 0) with (Ok t). cbn [bind]. rewrite E, subseq_from_1.
  rewrite (sequence_forall2 _ _ (snd r)); [| clear -R; induction R; constructor; auto; now rewrite H].
  rewrite (parse_rows_ok _ _ F'). cbn [bind app map]. cbn [map] in T. change ([snd r] ++ map snd table') with (snd r :: map snd table'). now rewrite T.
Qed.

Lemma adapt_labels_ok given n : 0 <= n -> labelled given n (sanitize_labels (Some (adapt_labels given n)) n).
Proof.
  intros N. assert (H : labelled given n (adapt_labels given n)).
  { pose proof (zlen_nonneg given). unfold adapt_labels, labelled. destruct (Z.ltb_spec (zlen given) n).
    - split; [rewrite zlen_app, zlen_repeat; lia |]. intros i I. rewrite zth_app. destruct (Z.ltb_spec i (zlen given)).
      + destruct (zth_in given i) as [l L]; [lia |]. now rewrite L.
      + rewrite (zth_ge given), zth_repeat by lia. replace ((0 <=? i - zlen given) && (i - zlen given <? n - zlen given)) with true by lia. reflexivity.
    - destruct (Z.ltb_spec n (zlen given)).
      + split; [rewrite zlen_subseq, upper_between, lower_between by lia; lia |]. intros i I. rewrite zth_subseq, upper_between, lower_between by lia.
        replace ((0 <=? i) && (i <? n - 0)) with true by lia. replace (i + 0) with i by lia. destruct (zth_in given i) as [l L]; [lia |]. now rewrite L.
      + split; [lia |]. intros i I. destruct (zth_in given i) as [l L]; [lia |]. now rewrite L. }
  unfold sanitize_labels. rewrite (proj1 H), Z.ltb_irrefl. exact H.
Qed.

Lemma labelled_same given n : zlen given = n -> forall l, labelled given n l -> l = given.
Proof.
  intros L l [H1 H2]. apply zth_ext_in; [lia |]. intros i I. rewrite H2 by lia. destruct (zth_in given i) as [x E]; [lia |]. now rewrite E.
Qed.
End Reading.

Lemma inject_twice z : (inject_Z (2 * z - 1) == 2 * inject_Z z - 1 /\ inject_Z (2 * z + 1) == 2 * inject_Z z + 1)%Q.
Proof. split; [unfold Z.sub|]; rewrite inject_Z_plus, inject_Z_mult; reflexivity. Qed.

Lemma py_round_is_nearest q : nearest q (py_round q).
Proof.
  unfold nearest. pose proof (py_round_near q) as [L U]. pose proof (py_round_tie q) as T. destruct (inject_twice (py_round q)) as [I J]. rewrite I in L, T. rewrite J in U, T.
  set (z := inject_Z (py_round q)) in *. clearbody z. split.
  - apply Qabs_Qle_condition. split; lra.
  - intros E. apply T. revert E. apply Qabs_case; intros; [right | left]; lra.
Qed.
