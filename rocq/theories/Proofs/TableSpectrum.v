(** Spectrums in tables: Model/Tables.v. *)

From Coq Require Import String ZArith QArith Qabs Qfield List Bool Lia Lqa ZifyBool Permutation Sorted.
From Verif.Model Require Import Py Numpy Functions Signal Spectrum Tables Pcm.
From Verif.Spec Require Import TablesSpec.
From Verif.Proofs Require Import PyFacts NumpyFacts SliceFacts SortFacts TableFacts TableResults TableRounding.
Import ListNotations.
Open Scope list_scope.
Open Scope Z_scope.

Lemma positive_nonzero q : (0 < q -> ~ q == 0)%Q.
Proof. intros H E. rewrite E in H. now apply Qlt_irrefl in H. Qed.

Section Spectrum.
Context {A : Type}.
Variable zero : A.
Variable eqb : A -> A -> bool.
Variable same : A -> A -> Prop.

Lemma frequency_samples_ok (s : spectrum A Q) : wf_spectrum s -> exists l, frequency_samples s = Ok l /\ zlen l = sp_length s
  /\ forall k, 0 <= k < sp_length s -> exists t, zth l k = Some t /\ (t == inject_Z k * resolution s)%Q.
Proof.
  intros W. unfold frequency_samples. destruct (linspace_ok 0%Q (inject_Z (sp_length s - 1) * resolution s) (sp_length s)) as (l & L & N & H); [apply W |].
  exists l. split; [auto |]. split; [auto |]. intros k K. destruct (H k K) as (t & T & T1 & T2). exists t. split; [auto |].
  destruct (Z.eq_dec (sp_length s) 1) as [E1 | N1].
  - assert (k = 0) as -> by lia. rewrite T1 by auto. change (inject_Z 0) with 0%Q. ring.
  - rewrite T2 by lia. field. apply positive_nonzero, inject_pos. lia.
Qed.

Lemma spectrum_from_rows_ok junk c table sorted (m : arr A) given first last : 1 <= c -> 2 <= zlen table -> uniform c table -> samples_of c table m ->
  arrangement table sorted -> zth (map fst sorted) 0 = Some first -> zth (map fst sorted) (zlen table - 1) = Some last -> (0 <= first)%Q ->
  exists s, spectrum_from_rows zero eqb junk (map fst table) m given = Ok s /\ describes_spectrum zero c given sorted first last s.
Proof.
  intros C N U S H F L P0. destruct (arranged_uniform _ _ _ U H) as [U' N']. pose proof H as [P O].
  assert (FL := sorted_ends sorted _ first last N' N O F L).
  destruct (transposed_ok c sorted) as (m' & _ & S'); auto; try lia.
  unfold spectrum_from_rows. destruct (sorted_rows_ok eqb less_complex c table sorted m m') as (b & B); auto. rewrite B.
  rewrite (sort_unique _ (map fst sorted)) by (auto using Permutation_map).
  destruct S as (W & Nm & Cm & _). replace (negb (nrows m =? 0) && negb (cols m =? 0)) with true by lia.
  rewrite (getitem_zth _ 0 first) by (auto; lia). rewrite (getitem_last _ last) by (now rewrite zlen_map, N'). cbn [bind].
  rewrite zlen_map, N'. replace (zlen table <=? 1) with false by lia.
  set (res := ((last - first) / inject_Z (zlen table - 1))%Q).
  assert (Rp : (0 < res)%Q). { unfold res, Qdiv. apply Qmult_lt_0_compat; [lra |]. apply Qinv_lt_0_compat, inject_pos. lia. }
  destruct (Qeq_bool res 0) eqn:E. { apply Qeq_bool_iff in E. now apply positive_nonzero in Rp. }
  set (z := py_round (first / res)%Q). assert (Nz : nearest (first / res) z) by apply py_round_is_nearest.
  assert (Z0 : 0 <= z). { apply (nearest_nonneg (first / res)); auto. apply Qle_shift_div_l; auto. lra. }
  destruct S' as (W' & Nm' & Cm' & E'). rewrite N' in Cm'.
  assert (G : exists ch, (if z =? 0 then copy_array junk m'
     else if z <? 0 then channels <- allocate junk (nrows m') (cols m' - z);; (if b then set_block channels everything everything (block m' everything (from z)) else Err TypeError)
     else channels <- allocate junk (nrows m') (cols m' + z);; channels0 <- set_block channels everything (between 0 z) (scalar zero);; set_block channels0 everything (from z) m') = Ok ch
     /\ wf ch /\ nrows ch = c /\ cols ch = zlen table + z
     /\ (forall i k, 0 <= i < c -> 0 <= k < z -> el ch i k = Some zero)
     /\ (forall i k r, zth sorted k = Some r -> 0 <= z + k -> el ch i (z + k) = zth (snd r) i)).
  { destruct (Z.eqb_spec z 0) as [Ez | Dz].
    - exists m'. rewrite copy_array_ok by auto. split; [auto |]. split; [auto |]. split; [auto |]. split; [lia |]. split; [lia |].
      intros i k r K _. rewrite Ez. replace (0 + k) with k by lia. auto.
    - replace (z <? 0) with false by lia. destruct (allocate_ok junk (nrows m') (cols m' + z)) as (a & Ea & Wa & Na & Ca); try lia. rewrite Ea. cbn [bind].
      destruct (set_scalar_ok a everything (between 0 z) zero Wa) as (a2 & Ea2 & W2 & N2 & C2 & H2). rewrite Ea2. cbn [bind].
      rewrite upper_everything, lower_everything, upper_between, lower_between in H2 by lia.
      destruct (set_block_ok a2 everything (from z) m') as (a3 & Ea3 & W3 & N3 & C3 & H3); auto.
      { left. rewrite upper_everything, lower_everything by lia. lia. }
      { left. rewrite upper_from, lower_from by lia. lia. }
      rewrite upper_everything, lower_everything, upper_from, lower_from in H3 by lia.
      exists a3. split; [auto |]. split; [auto |]. split; [lia |]. split; [lia |]. split.
      + intros i k I K. rewrite H3. replace (_ && _) with false by lia. rewrite H2. replace (_ && _) with true by lia. reflexivity.
      + intros i k r K _. pose proof (zth_range _ _ _ K) as KR. rewrite <- (E' i k r K), H3.
        destruct ((0 <=? i) && (i <? nrows m')) eqn:I.
        * replace (_ && _) with true by lia. f_equal; zcases.
        * replace (_ && _ && _ && _) with false by lia. rewrite H2. replace (_ && _ && _ && _) with false by lia. rewrite (el_out m'), (el_out a); auto; lia. }
  destruct G as (ch & -> & Wc & Nc & Cc & Hz & Hs). cbn [bind]. eexists. split; [reflexivity |].
  exists z. cbn [resolution sp_channels sp_labels mk_spectrum]. unfold sp_count, sp_length. cbn [resolution sp_channels sp_labels mk_spectrum].
  split; [unfold res; rewrite N'; reflexivity |]. split; [auto |]. split; [auto |]. split; [auto |]. split; [lia |]. split; [auto |]. split; [auto |].
  rewrite Nc. apply adapt_labels_ok. lia.
Qed.

Variables (parse : string -> option Q) (parse_sample : string -> option A).

Theorem spectrum_read_with_header junk path name header file table sorted c first last : parse name = None ->
  Forall2 (is_row parse parse_sample) file table -> uniform c table -> 1 <= c -> 2 <= zlen table -> arrangement table sorted ->
  zth (map fst sorted) 0 = Some first -> zth (map fst sorted) (zlen table - 1) = Some last -> (0 <= first)%Q ->
  exists s, read_spectrum_csv zero eqb junk parse parse_sample path ((name :: header) :: file) = Ok s /\ describes_spectrum zero c header sorted first last s.
Proof.
  intros N F U C T H E L. destruct (transposed_ok c table) as (m & M & S); auto; try lia.
  unfold read_spectrum_csv. rewrite (read_header _ _ _ _ _ _ table m) by auto. cbn [bind]. eapply spectrum_from_rows_ok; eauto.
Qed.

Theorem spectrum_read_without_header junk path file table sorted c first last :
  Forall2 (is_row parse parse_sample) file table -> uniform c table -> 1 <= c -> 2 <= zlen table -> arrangement table sorted ->
  zth (map fst sorted) 0 = Some first -> zth (map fst sorted) (zlen table - 1) = Some last -> (0 <= first)%Q ->
  exists s, read_spectrum_csv zero eqb junk parse parse_sample path file = Ok s
    /\ describes_spectrum zero c (map (file_label path) (zseq 1 c)) sorted first last s.
Proof.
  intros F U C T H E L P0. destruct (transposed_ok c table) as (m & M & S); auto; try lia.
  unfold read_spectrum_csv. destruct file as [|row file]; [inversion F; subst; rewrite zlen_nil in T; lia |].
  rewrite (read_headless _ _ _ _ _ table m) by auto. cbn [bind].
  replace (zlen row - 1) with c. { eapply spectrum_from_rows_ok; eauto. }
  inversion F as [|? r ? t R F2]; subst. unfold uniform in U. inversion U; subst. destruct row as [|t0 cells]; [destruct R |]. destruct R as [_ R].
  rewrite zlen_cons, (forall2_zlen _ _ _ R). lia.
Qed.

Lemma described_spectrum_same (s t : spectrum A Q) table first last given : (0 < resolution s)%Q -> wf_spectrum s -> 2 <= sp_length s -> zlen table = sp_length s ->
  (forall k r, zth table k = Some r -> (fst r == inject_Z k * resolution s)%Q /\
     forall i x, el (sp_channels s) i k = Some x -> exists y, zth (snd r) i = Some y /\ same y x) ->
  zth (map fst table) 0 = Some first -> zth (map fst table) (zlen table - 1) = Some last ->
  describes_spectrum zero (sp_count s) given table first last t -> same_spectrum same s t.
Proof.
  intros F W L N H Hf Hl (z & Rt & Oz & Wt & Nt & Ct & _ & Et & _). assert (F0 := positive_nonzero _ F).
  rewrite zth_map in Hf, Hl. destruct (zth table 0) as [r0|] eqn:T0; [| discriminate]. destruct (zth table (zlen table - 1)) as [r1|] eqn:T1; [| discriminate].
  injection Hf as <-. injection Hl as <-. apply H in T0 as [T0 _]. apply H in T1 as [T1 _].
  assert (P0 : ~ (inject_Z (zlen table - 1) == 0)%Q) by (apply positive_nonzero, inject_pos; lia).
  assert (R : (resolution t == resolution s)%Q). { rewrite Rt, T0, T1. change (inject_Z 0) with 0%Q. field. auto. }
  assert (z = 0) as ->. { apply nearest_integer. eapply nearest_compat; [| exact Oz]. rewrite R, T0. change (inject_Z 0) with 0%Q. field. auto. }
  split; auto. split; [auto |]. split; [auto |]. split; [unfold sp_length in *; lia |]. intros i k x X. destruct (el_range _ _ _ _ (proj1 W) X) as [I K].
  change (cols (sp_channels s)) with (sp_length s) in K. destruct (zth_in table k) as [r Hr]; [lia |].
  replace k with (0 + k) by lia. rewrite (Et i k r Hr) by lia. now apply (H k r Hr).
Qed.

Lemma frequency_table_sorted (s : spectrum A Q) (table : list (Q * list A)) : (0 < resolution s)%Q ->
  (forall k r, zth table k = Some r -> (fst r == inject_Z k * resolution s)%Q) -> arrangement table table.
Proof.
  intros F H. split; [reflexivity |]. apply increasing_sorted. intros i j x y L X Y. rewrite zth_map in X, Y.
  destruct (zth table i) as [r|] eqn:R; [| discriminate]. destruct (zth table j) as [r'|] eqn:R'; [| discriminate]. injection X as <-. injection Y as <-.
  rewrite (H _ _ R), (H _ _ R'). apply Qmult_lt_r; auto. rewrite <- Zlt_Qlt. lia.
Qed.

Variables (show : Q -> string) (show_sample : A -> string).

Theorem spectrum_csv_contents (s : spectrum A Q) : wf_spectrum s ->
  exists file, write_spectrum_csv show show_sample s = Ok file
    /\ written_table show show_sample "frequency" (sp_labels s) (fun k => inject_Z k * resolution s)%Q (sp_channels s) file.
Proof.
  intros W. destruct (frequency_samples_ok s W) as (l & E & L & H). unfold write_spectrum_csv. rewrite E. cbn [bind]. apply write_csv_ok; auto. apply W.
Qed.

Theorem spectrum_csv_round_trip junk path (s : spectrum A Q) : restores Qeq show parse -> restores same show_sample parse_sample -> parse "frequency"%string = None ->
  wf_spectrum s -> 1 <= sp_count s -> 2 <= sp_length s -> (0 < resolution s)%Q ->
  exists file t, write_spectrum_csv show show_sample s = Ok file /\ read_spectrum_csv zero eqb junk parse parse_sample path file = Ok t
    /\ same_spectrum same s t /\ sp_labels t = sp_labels s.
Proof.
  intros R R2 P W C L F. destruct (spectrum_csv_contents s W) as (file & E & T). pose proof T as (body & -> & _ & _).
  destruct (reread show parse show_sample parse_sample same R R2 _ _ _ _ body (proj1 W) T) as (table & F2 & U & N & H).
  assert (O : arrangement table table). { apply (frequency_table_sorted s); auto. intros k r K. now apply H. }
  change (cols (sp_channels s)) with (sp_length s) in N.
  destruct (zth_in (map fst table) 0) as [first Hf]; [rewrite zlen_map; lia |]. destruct (zth_in (map fst table) (zlen table - 1)) as [last Hl]; [rewrite zlen_map; lia |].
  destruct (spectrum_read_with_header junk path "frequency"%string (sp_labels s) body table table (sp_count s) first last) as (t & Et & D); auto; try lia.
  { rewrite zth_map in Hf. destruct (zth table 0) as [r0|] eqn:T0; [| discriminate]. injection Hf as <-. apply H in T0 as [-> _]. change (inject_Z 0) with 0%Q. lra. }
  eexists. exists t. split; [exact E |]. split; [exact Et |]. split.
  - eapply described_spectrum_same; eauto.
  - destruct D as (z & _ & _ & _ & _ & _ & _ & _ & D). eapply labelled_same; [| exact D]. apply W.
Qed.

(** ** Arrays *)
Variables (complex : Q -> A) (real : A -> Q).

Theorem spectrum_npy_contents junk (s : spectrum A Q) : wf_spectrum s ->
  exists a, write_spectrum_npy junk complex s = Ok a /\ wf a /\ nrows a = sp_count s + 1 /\ cols a = sp_length s
    /\ (forall k, 0 <= k < sp_length s -> exists t, el a 0 k = Some (complex t) /\ (t == inject_Z k * resolution s)%Q)
    /\ (forall i k, 0 <= i < sp_count s -> el a (i + 1) k = el (sp_channels s) i k).
Proof.
  intros W. destruct (frequency_samples_ok s W) as (l & E & L & H). unfold write_spectrum_npy.
  assert (N0 : 0 <= sp_count s) by apply zlen_nonneg. assert (L0 : 0 <= sp_length s) by apply W.
  destruct (allocate_ok junk (sp_count s + 1) (sp_length s)) as (a & Ea & Wa & Na & Ca); auto; try lia. rewrite Ea. cbn [bind]. rewrite E. cbn [bind].
  destruct (set_row_block_ok a 0 everything (Arr [map complex l] (zlen l))) as (b & Eb & Wb & Nb & Cb & Hb); auto; try lia.
  { split; cbn; [apply zlen_nonneg |]. repeat constructor. apply zlen_map. }
  { cbn [cols]. left. rewrite upper_everything, lower_everything by lia. lia. }
  rewrite Eb. cbn [bind].
  destruct (set_block_ok b (from 1) everything (sp_channels s)) as (d & Ed & Wd & Nd & Cd & Hd); auto; [apply W | | |].
  { left. rewrite upper_from, lower_from by lia. change (nrows (sp_channels s)) with (sp_count s). lia. }
  { left. rewrite upper_everything, lower_everything by lia. change (cols (sp_channels s)) with (sp_length s). lia. }
  exists d. split; [auto |]. split; [auto |]. split; [lia |]. split; [lia |]. split.
  - intros k K. destruct (H k K) as (t & T & Tn). exists t. split; auto. rewrite Hd, upper_from, lower_from, upper_everything, lower_everything by lia.
    cbn [Z.leb Z.compare andb]. rewrite Hb. rewrite upper_everything, lower_everything by lia. cbn [cols].
    replace (_ && _) with true by lia. replace (if zlen l =? 1 then 0 else k - 0) with k by zcases. unfold el. cbn [rows]. change (zth [map complex l] 0) with (Some (map complex l)). cbv iota beta. rewrite zth_map, T. reflexivity.
  - intros i k I. rewrite Hd, upper_from, lower_from, upper_everything, lower_everything by lia.
    destruct ((0 <=? k) && (k <? cols b)) eqn:B.
    + replace (_ && _) with true by lia. change (nrows (sp_channels s)) with (sp_count s). change (cols (sp_channels s)) with (sp_length s). f_equal; zcases.
    + replace (_ && _ && _ && _) with false by lia. rewrite (el_out b), (el_out (sp_channels s)); auto; [apply W | |].
      * intros [_ K]. change (cols (sp_channels s)) with (sp_length s) in K. lia.
      * intros [_ K]. lia.
Qed.

Theorem spectrum_npy_round_trip junk junk' path (s : spectrum A Q) : (forall q, real (complex q) == q)%Q -> (forall x, same x x) ->
  wf_spectrum s -> 1 <= sp_count s -> 2 <= sp_length s -> (0 < resolution s)%Q ->
  exists a t, write_spectrum_npy junk complex s = Ok a /\ read_spectrum_npy zero eqb junk' real path a = Ok t /\ same_spectrum same s t
    /\ zlen (sp_labels t) = sp_count s /\ forall i, 0 <= i < sp_count s -> zth (sp_labels t) i = Some (file_label path (i + 1)).
Proof.
  intros RC SR W C L F. destruct (spectrum_npy_contents junk s W) as (a & E & Wa & Na & Ca & H0 & H1). exists a. unfold read_spectrum_npy.
  destruct (zth_in (rows a) 0) as [column Col]; [unfold nrows in Na; lia |]. rewrite (getitem_zth _ 0 column) by (auto; lia). cbn [bind].
  set (m := block a (from 1) everything).
  assert (Wm : wf m) by now apply wf_block.
  assert (Nm : nrows m = sp_count s) by (unfold m; rewrite nrows_block, upper_from, lower_from by lia; lia).
  assert (Cm : cols m = sp_length s) by (unfold m; rewrite cols_block, upper_everything, lower_everything by lia; lia).
  assert (Em : forall i k, el m i k = el (sp_channels s) i k).
  { intros i k. unfold m. rewrite el_block, upper_from, lower_from, upper_everything, lower_everything by (auto; lia). rewrite Na, Ca.
    destruct (_ && _) eqn:B.
    - replace (k + 0) with k by lia. apply H1. lia.
    - symmetry. apply el_out; [apply W |]. change (nrows (sp_channels s)) with (sp_count s). change (cols (sp_channels s)) with (sp_length s). lia. }
  destruct (table_of_array (map real column) m) as (table & Ft & U & S & N); auto; [rewrite zlen_map, (wf_zlen _ _ _ Wa Col); lia |].
  assert (T : forall k r, zth table k = Some r -> (fst r == inject_Z k * resolution s)%Q /\
     forall i x, el (sp_channels s) i k = Some x -> exists y, zth (snd r) i = Some y /\ same y x).
  { intros k r K. pose proof (zth_range _ _ _ K) as R. split.
    - destruct (H0 k) as (t & Et & Tn); [lia |]. unfold el in Et. rewrite Col in Et.
      assert (X : zth (map fst table) k = Some (fst r)) by (now rewrite zth_map, K). rewrite Ft, zth_map, Et in X. injection X as <-. now rewrite RC.
    - intros i x X. rewrite <- Em in X. destruct S as (_ & _ & _ & S). rewrite (S i k r K) in X. eauto. }
  assert (O : arrangement table table). { apply (frequency_table_sorted s); auto. intros k r K. now apply T. }
  destruct (zth_in (map fst table) 0) as [first Hf]; [rewrite zlen_map; lia |]. destruct (zth_in (map fst table) (zlen table - 1)) as [last Hl]; [rewrite zlen_map; lia |].
  rewrite Nm in U, S. replace (nrows a - 1) with (sp_count s) by lia. rewrite <- Ft.
  destruct (spectrum_from_rows_ok junk' (sp_count s) table table m (map (file_label path) (zseq 1 (sp_count s))) first last) as (t & Et & D); auto; try lia.
  { rewrite zth_map in Hf. destruct (zth table 0) as [r0|] eqn:T0; [| discriminate]. injection Hf as <-. apply T in T0 as [-> _]. change (inject_Z 0) with 0%Q. lra. }
  exists t. split; [auto |]. split; [auto |]. split.
  - eapply described_spectrum_same; eauto. lia.
  - destruct D as (z & _ & _ & _ & _ & _ & _ & _ & D). apply file_labels; auto; lia.
Qed.
End Spectrum.

(** ** Dictionaries *)
Theorem spectrum_dictionary junk (s : spectrum (Q * Q) Q) : wf_spectrum s -> 1 <= sp_count s -> 1 <= sp_length s ->
  exists t, read_spectrum_json junk (spectrum_as_dict s) = Ok t /\ same_spectrum same_complex s t /\ sp_labels t = sp_labels s.
Proof.
  intros W C L. unfold read_spectrum_json, spectrum_as_dict. cbn [j_channels j_resolution j_labels get].
  set (data := map (fun r : list (Q * Q) => (map fst r, map snd r)) (rows (sp_channels s))).
  assert (Ld : zlen data = sp_count s) by apply zlen_map.
  assert (Hd : forall i c, zth data i = Some c -> zlen (fst c) = sp_length s /\ zlen (snd c) = sp_length s
    /\ forall k x, el (sp_channels s) i k = Some x -> zth (fst c) k = Some (fst x) /\ zth (snd c) k = Some (snd x)).
  { intros i c K. unfold data in K. rewrite zth_map in K. destruct (zth (rows (sp_channels s)) i) as [r|] eqn:R; [| discriminate]. injection K as <-. cbn [fst snd].
    rewrite !zlen_map, (wf_zlen _ _ _ (proj1 W) R). split; [auto |]. split; [auto |]. intros k x X. unfold el in X. rewrite R in X. now rewrite !zth_map, X. }
  clearbody data. destruct data as [|c0 data'] eqn:Ed; [rewrite zlen_nil in Ld; lia |]. rewrite <- Ed in *.
  assert (L0 : zlen (fst c0) = sp_length s) by (apply (Hd 0); now rewrite Ed). rewrite L0. replace (sp_length s =? 0) with false by lia.
  destruct (allocate_ok junk (zlen data) (sp_length s)) as (a & Ea & Wa & Na & Ca); try lia. rewrite Ea. cbn [bind].
  (* the loop *)
  assert (G : forall l a j, wf a -> nrows a = zlen data -> cols a = sp_length s -> 0 <= j -> j + zlen l = zlen data ->
    (forall i, zth l i = if (0 <=? i) && (i <? zlen l) then zth data (j + i) else None) ->
    (forall i k x, i < j -> el (sp_channels s) i k = Some x -> exists y, el a i k = Some y /\ same_complex y x) ->
    exists b, for_each (combine (zseq j (zlen l)) l) (fun channels ic =>
             let '(i, c) := ic in
             let imaginary := Arr [map (fun x => (x, 0)%Q) (snd c)] (zlen (snd c)) in
             let real := Arr [map (fun x => (x, 0)%Q) (fst c)] (zlen (fst c)) in
             channels <- set_row_block channels i everything (ufunc1 (times (0, 1)%Q) imaginary) ;;
             view <- row channels i ;;
             sum <- ufunc2 plus view real 1 (cols channels) ;;
             set_row_block channels i everything sum) a = Ok b
      /\ same_matrix same_complex (sp_channels s) b).
  { clear Ea a Wa Na Ca L0 Ed c0 data'. induction l as [|c l IH]; intros a j Wa Na Ca J0 J Hl Ha.
    - exists a. split; [reflexivity |]. rewrite zlen_nil in J. split; [auto |]. split; [unfold sp_count in Ld; lia |]. split; [auto |].
      intros i k x X. destruct (el_range _ _ _ _ (proj1 W) X) as [I _]. apply Ha; auto. unfold sp_count in Ld. lia.
    - rewrite zlen_cons in *. pose proof (zlen_nonneg l) as L1. replace (zseq j (1 + zlen l)) with (j :: zseq (j + 1) (zlen l)).
      2: { apply zth_ext. intros i. rewrite zth_cons, !zth_seq. destruct (Z.eqb_spec i 0) as [-> | D].
           - replace ((0 <=? 0) && (0 <? 1 + zlen l)) with true by lia. f_equal. lia.
           - destruct (_ && _) eqn:B1; destruct ((0 <=? i) && _) eqn:B2; try lia; auto. f_equal. lia. }
      cbn [combine for_each]. assert (Hc : zth data j = Some c). { specialize (Hl 0). rewrite zth_cons in Hl. change (0 =? 0) with true in Hl. replace ((0 <=? 0) && (0 <? 1 + zlen l)) with true in Hl by lia. cbv iota in Hl. replace (j + 0) with j in Hl by lia. congruence. }
      destruct (Hd j c Hc) as (Lf & Ls & Hx).
      set (im := ufunc1 (times (0, 1)%Q) (Arr [map (fun x => (x, 0)%Q) (snd c)] (zlen (snd c)))).
      assert (Wi : wf im). { apply ufunc1_wf. split; cbn; [apply zlen_nonneg |]. repeat constructor. apply zlen_map. }
      destruct (set_row_block_ok a j everything im) as (a1 & E1 & W1 & N1 & C1 & H1); auto; try lia.
      { left. change (cols im) with (zlen (snd c)). rewrite upper_everything, lower_everything by lia. lia. }
      rewrite E1. cbn [bind]. destruct (row_ok a1 j W1) as (v & Ev & Wv & Nv & Cv & Hv); [lia |]. rewrite Ev. cbn [bind].
      destruct (ufunc2_ok plus v (Arr [map (fun x => (x, 0)%Q) (fst c)] (zlen (fst c))) 1 (cols a1)) as (sm & Es & Wsm & Nsm & Csm & Hsm); auto; try lia.
      { split; cbn; [apply zlen_nonneg |]. repeat constructor. apply zlen_map. }
      { left. cbn. lia. }
      rewrite Es. cbn [bind].
      destruct (set_row_block_ok a1 j everything sm) as (a2 & E2 & W2 & N2 & C2 & H2); auto; try lia.
      { left. rewrite upper_everything, lower_everything by lia. lia. }
      rewrite E2. cbn [bind]. apply (IH a2 (j + 1)); auto; try lia.
      + intros i. destruct ((0 <=? i) && (i <? zlen l)) eqn:B; [| apply zth_out; lia]. specialize (Hl (i + 1)). rewrite zth_cons in Hl.
        replace (i + 1 =? 0) with false in Hl by lia. replace ((0 <=? i + 1) && (i + 1 <? 1 + zlen l)) with true in Hl by lia.
        replace (i + 1 - 1) with i in Hl by lia. rewrite Hl. f_equal. lia.
      + intros i k x I X. destruct (el_range _ _ _ _ (proj1 W) X) as [_ K]. change (cols (sp_channels s)) with (sp_length s) in K.
        rewrite H2, upper_everything, lower_everything by lia. destruct (Z.eqb_spec i j) as [-> | D].
        * replace (_ && _) with true by lia. rewrite Csm. replace (if cols a1 =? 1 then 0 else k - 0) with k by zcases.
          destruct (Hx k x X) as [X1 X2]. rewrite Hsm by lia. rewrite Nv, Cv. cbn [nrows cols rows]. change (zlen [map (fun x0 : Q => (x0, 0%Q)) (fst c)] =? 1) with true.
          replace (if cols a1 =? 1 then 0 else k) with k by zcases. replace (if zlen (fst c) =? 1 then 0 else k) with k by zcases.
          rewrite Hv, H1, upper_everything, lower_everything by lia. replace (_ && _) with true by lia. change (cols im) with (zlen (snd c)).
          replace (if zlen (snd c) =? 1 then 0 else k - 0) with k by zcases. unfold im. rewrite el_ufunc1. unfold el. cbn [rows].
          change (zth [map (fun x0 : Q => (x0, 0%Q)) (snd c)] 0) with (Some (map (fun x0 : Q => (x0, 0%Q)) (snd c))).
          match goal with |- context [if ?b then 0 else 0] => replace (if b then 0 else 0) with 0 by (destruct b; reflexivity) end.
          change (zth [map (fun x0 : Q => (x0, 0%Q)) (fst c)] 0) with (Some (map (fun x0 : Q => (x0, 0%Q)) (fst c))). cbv iota beta.
          rewrite !zth_map, X1, X2. cbn [option_map].
          eexists. split; [reflexivity |]. split; cbn; ring.
        * cbn [andb]. rewrite H1. replace (i =? j) with false by lia. cbn [andb]. apply Ha; auto. lia. }
  destruct (G data a 0) as (b & Eb & Sb); auto; try lia.
  { intros i. replace (0 + i) with i by lia. destruct (_ && _) eqn:B; auto. apply zth_out. lia. }
  { intros i k x I X. destruct (el_range _ _ _ _ (proj1 W) X). lia. }
  cbn [bind] in Eb. rewrite Eb. cbn [bind]. eexists. split; [reflexivity |]. destruct Sb as (Wb & Nb & Cb & Hb). split.
  - split; [repeat split; auto; apply Wb |]. reflexivity.
  - cbn [sp_labels mk_spectrum]. unfold sanitize_labels. rewrite Nb. destruct W as [_ Wl]. rewrite Wl, Z.ltb_irrefl. reflexivity.
Qed.
