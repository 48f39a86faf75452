(** Signals in arrays and dictionaries, and tables with inexact times: Model/Tables.v. *)

From Coq Require Import String ZArith QArith Qabs Qfield List Bool Lia Lqa ZifyBool Permutation Sorted.
From Verif.Model Require Import Py Numpy Functions Signal Spectrum Tables Pcm.
From Verif.Spec Require Import TablesSpec.
From Verif.Proofs Require Import PyFacts NumpyFacts SliceFacts SortFacts TableFacts TableResults.
Import ListNotations.
Open Scope list_scope.
Open Scope Z_scope.

Lemma file_labels path n : 0 <= n -> forall l, labelled (map (file_label path) (zseq 1 n)) n l ->
  zlen l = n /\ forall i, 0 <= i < n -> zth l i = Some (file_label path (i + 1)).
Proof.
  intros N l [L H]. split; auto. intros i I. rewrite H by auto. rewrite zth_map, zth_seq. replace ((0 <=? i) && (i <? n)) with true by lia.
  cbn [option_map]. now replace (1 + i) with (i + 1) by lia.
Qed.

Theorem npy_round_trip junk junk' path s : wf_signal s -> 1 <= count s -> 2 <= Signal.length s -> (0 < sampling_rate s)%Q ->
  exists a t, write_signal_npy junk s = Ok a /\ read_signal_npy junk' path a = Ok t /\ same_signal s t
    /\ zlen (labels t) = count s /\ forall i, 0 <= i < count s -> zth (labels t) i = Some (file_label path (i + 1)).
Proof.
  intros W C L F. destruct (npy_contents junk s W F) as (a & E & Wa & Na & Ca & H0 & H1). exists a. unfold read_signal_npy.
  destruct (zth_in (rows a) 0) as [column Col]; [unfold nrows in Na; lia |]. rewrite (getitem_zth _ 0 column) by (auto; lia). cbn [bind].
  set (m := block a (from 1) everything).
  assert (Wm : wf m) by now apply wf_block.
  assert (Nm : nrows m = count s) by (unfold m; rewrite nrows_block, upper_from, lower_from by lia; lia).
  assert (Cm : cols m = Signal.length s) by (unfold m; rewrite cols_block, upper_everything, lower_everything by lia; lia).
  assert (Em : forall i k, el m i k = el (channels s) i k).
  { intros i k. unfold m. rewrite el_block, upper_from, lower_from, upper_everything, lower_everything by (auto; lia). rewrite Na, Ca.
    destruct (_ && _) eqn:B.
    - replace (k + 0) with k by lia. apply H1. lia.
    - symmetry. apply el_out; [apply W |]. change (nrows (channels s)) with (count s). change (cols (channels s)) with (Signal.length s). lia. }
  destruct (table_of_array column m) as (table & Ft & U & S & N); auto; [rewrite (wf_zlen _ _ _ Wa Col); lia |].
  assert (T : forall k r, zth table k = Some r -> (fst r == inject_Z (offset s + k) / sampling_rate s)%Q /\
     forall i x, el (channels s) i k = Some x -> exists y, zth (snd r) i = Some y /\ (y == x)%Q).
  { intros k r K. pose proof (zth_range _ _ _ K) as R. split.
    - destruct (H0 k) as (t & Et & Tn); [lia |]. unfold el in Et. rewrite Col, <- Ft, zth_map, K in Et. injection Et as <-. exact Tn.
    - intros i x X. rewrite <- Em in X. destruct S as (_ & _ & _ & S). rewrite (S i k r K) in X. exists x. split; auto. reflexivity. }
  assert (A : arrangement table table). { apply (table_sorted s); auto. intros k r K. now apply T. }
  destruct (zth_in (map fst table) 0) as [first Hf]; [rewrite zlen_map; lia |]. destruct (zth_in (map fst table) (zlen table - 1)) as [last Hl]; [rewrite zlen_map; lia |].
  rewrite Nm in U, S. replace (nrows a - 1) with (count s) by lia. rewrite <- Ft.
  destruct (signal_from_rows_ok junk' (count s) table table m (map (file_label path) (zseq 1 (count s))) first last) as (t & Et & D); auto; try lia.
  exists t. split; [auto |]. split; [auto |]. split.
  - eapply described_same; eauto. lia.
  - destruct D as (_ & _ & _ & D). apply file_labels; auto; lia.
Qed.

(** ** Inexact times *)
Lemma Qabs_scale f x y d : (0 < f -> Qabs (x - y / f) <= d / f -> Qabs (f * x - y) <= d)%Q.
Proof.
  intros F H. assert (F0 : ~ (f == 0)%Q) by (intros E; rewrite E in F; now apply Qlt_irrefl in F).
  assert (E : (f * x - y == f * (x - y / f))%Q) by (field; auto). rewrite E, Qabs_Qmult, (Qabs_pos f) by lra.
  assert (E2 : (d == f * (d / f))%Q) by (field; auto). rewrite E2. apply Qmult_le_l; auto.
Qed.

Lemma rounding_bound (N O d rate first last f : Q) :
  (0 < f -> 0 <= d -> 0 < N -> 2 * d * (N + 1 + 2 * Qabs O) < N -> Qabs (f * first - O) <= d -> Qabs (f * last - (O + N)) <= d ->
   rate == N / (last - first) -> Qabs (first * rate - O) < 1 # 2 /\ Qabs (rate - f) <= f * (2 * d / (N - 2 * d)))%Q.
Proof.
  intros F D0 Np B HA HB R. pose proof (Qabs_nonneg O) as PO. set (AO := Qabs O) in *.
  set (a' := (f * first - O)%Q) in *. set (b' := (f * last - (O + N))%Q) in *.
  pose proof HA as HA'. pose proof HB as HB'. apply Qabs_Qle_condition in HA' as [A1 A2]. apply Qabs_Qle_condition in HB' as [B1 B2].
  assert (D : (f * (last - first) == N + (b' - a'))%Q) by (unfold a', b'; ring).
  assert (ND : (2 * d < N)%Q) by nra.
  assert (Dp : (0 < N + (b' - a'))%Q) by lra.
  assert (F0 : ~ (f == 0)%Q) by (intros E; rewrite E in F; now apply Qlt_irrefl in F).
  assert (LF : ~ (last - first == 0)%Q) by (intros E; rewrite E in D; lra).
  assert (DD : ~ (N + (b' - a') == 0)%Q) by (intros E; rewrite E in Dp; now apply Qlt_irrefl in Dp).
  assert (Fi : (first == (O + a') / f)%Q) by (unfold a'; field; auto).
  assert (Re : (rate == f * N / (N + (b' - a')))%Q). { rewrite R, <- D. field. auto. }
  assert (E1 : (first * rate - O == (a' * N - O * (b' - a')) / (N + (b' - a')))%Q) by (rewrite Fi, Re; field; auto).
  assert (E2 : (rate - f == f * (- (b' - a')) / (N + (b' - a')))%Q) by (rewrite Re; field; auto).
  assert (EE : (Qabs (b' - a') <= 2 * d)%Q) by (apply Qabs_Qle_condition; split; lra).
  assert (P : (0 < / (N + (b' - a')))%Q) by now apply Qinv_lt_0_compat.
  split.
  - rewrite E1. unfold Qdiv. rewrite Qabs_Qmult, (Qabs_pos (/ _)) by lra.
    assert (G : (Qabs (a' * N - O * (b' - a')) < (1 # 2) * (N + (b' - a')))%Q).
    { eapply Qle_lt_trans; [apply Qabs_triangle|]. rewrite Qabs_opp, !Qabs_Qmult, (Qabs_pos N) by lra. fold AO.
      set (e := Qabs (b' - a')) in *. assert (0 <= e)%Q by apply Qabs_nonneg. set (aa := Qabs a') in *. clearbody e aa AO.
      assert (aa * N <= d * N)%Q by nra. assert (AO * e <= AO * (2 * d))%Q by nra. nra. }
    apply (Qmult_lt_r _ _ (/ (N + (b' - a'))) P) in G. eapply Qlt_le_trans; [exact G|]. rewrite <- Qmult_assoc, Qmult_inv_r by auto. lra.
  - rewrite E2. unfold Qdiv. rewrite !Qabs_Qmult, Qabs_opp, (Qabs_pos f), (Qabs_pos (/ _)) by lra. rewrite <- Qmult_assoc. apply Qmult_le_l; auto.
    assert (P2 : (/ (N + (b' - a')) <= / (N - 2 * d))%Q).
    { apply Qle_shift_inv_l; [lra|]. rewrite Qmult_comm. apply Qle_shift_div_r; lra. }
    set (e := Qabs (b' - a')) in *. assert (0 <= e)%Q by apply Qabs_nonneg. set (i := (/ (N + (b' - a')))%Q) in *. set (j := (/ (N - 2 * d))%Q) in *. clearbody e i j. nra.
Qed.

Lemma nearest_close q z o : nearest q z -> (Qabs (q - inject_Z o) < 1 # 2)%Q -> z = o.
Proof.
  intros [A _] B. apply Qabs_Qle_condition in A as [A1 A2]. apply Qabs_Qlt_condition in B as [B1 B2].
  assert (C : (inject_Z (-1) < inject_Z (o - z))%Q) by (unfold Z.sub; rewrite inject_Z_plus, inject_Z_opp; change (inject_Z (-1)) with (-(1))%Q; lra).
  assert (D : (inject_Z (o - z) < inject_Z 1)%Q) by (unfold Z.sub; rewrite inject_Z_plus, inject_Z_opp; change (inject_Z 1) with 1%Q; lra).
  rewrite <- Zlt_Qlt in C, D. lia.
Qed.

(** A table, the first and the last time of which are off by at most the [d]-th part of a sampling interval *)
Theorem rounded_times (f d : Q) (o : Z) c given sorted first last s : describes_signal c given sorted first last s -> 2 <= zlen sorted -> (0 < f)%Q -> (0 <= d)%Q ->
  (Qabs (first - inject_Z o / f) <= d / f)%Q -> (Qabs (last - inject_Z (o + zlen sorted - 1) / f) <= d / f)%Q ->
  (2 * d * inject_Z (zlen sorted + 2 * Z.abs o) < inject_Z (zlen sorted - 1))%Q ->
  offset s = o /\ (Qabs (sampling_rate s - f) <= f * (2 * d / (inject_Z (zlen sorted - 1) - 2 * d)))%Q.
Proof.
  intros (_ & R & Of & _) N F D A B H. apply Qabs_scale in A, B; auto.
  destruct (rounding_bound (inject_Z (zlen sorted - 1)) (inject_Z o) d (sampling_rate s) first last f) as [G1 G2]; auto.
  - apply inject_pos. lia.
  - eapply Qle_lt_trans; [| exact H]. apply Qle_lteq. right.
    assert (E : (inject_Z (zlen sorted + 2 * Z.abs o) == inject_Z (zlen sorted - 1) + 1 + 2 * Qabs (inject_Z o))%Q).
    { rewrite inject_Z_plus, inject_Z_mult, inject_minus_1. change (inject_Z (Z.abs o)) with (Qabs (inject_Z o)). change (inject_Z 2) with 2%Q. ring. }
    rewrite E. reflexivity.
  - replace (o + zlen sorted - 1) with (o + (zlen sorted - 1)) in B by lia. rewrite inject_Z_plus in B. exact B.
  - split; auto. eapply nearest_close; eauto.
Qed.

(** ** Dictionaries *)
Theorem signal_dictionary junk s : wf_signal s -> 1 <= count s -> signal_from_dict junk (signal_as_dict s) = Ok s.
Proof.
  intros W C. destruct s as [m f o l]. unfold signal_from_dict, signal_as_dict. cbn [d_channels d_sampling_rate d_offset d_labels Signal.channels sampling_rate offset labels get].
  destruct W as [W L]. cbn [Signal.channels labels] in *. unfold count in C. cbn [Signal.channels] in C. destruct m as [r c]. cbn [rows] in *.
  destruct r as [|r0 t] eqn:Er; [change (nrows (Arr (@nil (list Q)) c)) with 0 in C; lia |]. rewrite <- Er in *.
  assert (Z0 : zlen r0 = c) by (destruct W as [_ W]; cbn in W; rewrite Er in W; now inversion W).
  replace (forallb _ r) with true.
  2: { symmetry. apply forallb_forall. intros x X. destruct W as [_ W]. cbn in W. rewrite Forall_forall in W. apply W in X. lia. }
  rewrite Z0, copy_array_ok by auto. cbn [bind]. unfold mk_signal. do 2 f_equal. cbn [rows] in *. unfold sanitize_labels. rewrite L, Z.ltb_irrefl. reflexivity.
Qed.
