(** Signals in tables: Model/Tables.v. *)

From Coq Require Import String ZArith QArith Qabs Qfield List Bool Lia Lqa ZifyBool Permutation Sorted.
From Verif.Model Require Import Py Numpy Functions Signal Spectrum Tables Pcm.
From Verif.Spec Require Import TablesSpec.
From Verif.Proofs Require Import PyFacts NumpyFacts SliceFacts SortFacts TableFacts.
Import ListNotations.
Open Scope list_scope.
Open Scope Z_scope.

(** ** Numbers *)
Lemma nearest_compat q q' z : (q == q')%Q -> nearest q z -> nearest q' z.
Proof. intros E [A B]. unfold nearest. rewrite <- E. auto. Qed.
Lemma nearest_integer o z : nearest (inject_Z o) z -> z = o.
Proof.
  intros [A _]. apply Qabs_Qle_condition in A as [A B].
  assert (C : (inject_Z (-1) < inject_Z (o - z))%Q) by (unfold Z.sub; rewrite inject_Z_plus, inject_Z_opp; change (inject_Z (-1)) with (-(1))%Q; lra).
  assert (D : (inject_Z (o - z) < inject_Z 1)%Q) by (unfold Z.sub; rewrite inject_Z_plus, inject_Z_opp; change (inject_Z 1) with 1%Q; lra).
  rewrite <- Zlt_Qlt in C, D. lia.
Qed.
Lemma nearest_nonneg q z : (0 <= q)%Q -> nearest q z -> 0 <= z.
Proof.
  intros H [A _]. apply Qabs_Qle_condition in A as [A B].
  assert (C : (inject_Z (-1) < inject_Z z)%Q) by (change (inject_Z (-1)) with (-(1))%Q; lra). rewrite <- Zlt_Qlt in C. lia.
Qed.
Lemma inject_pos n : 0 < n -> (0 < inject_Z n)%Q.
Proof. intros H. change 0%Q with (inject_Z 0). now rewrite <- Zlt_Qlt. Qed.
Lemma inject_minus_1 n : (inject_Z (n - 1) == inject_Z n - 1)%Q.
Proof. unfold Z.sub. rewrite inject_Z_plus. reflexivity. Qed.

Lemma linspace_ok a b n : 0 <= n -> exists l, linspace a b n = Ok l /\ zlen l = n
  /\ forall k, 0 <= k < n -> exists t, zth l k = Some t /\ (n = 1 -> (t == a)%Q) /\ (1 < n -> (t == a + inject_Z k * ((b - a) / inject_Z (n - 1)))%Q).
Proof.
  intros N. unfold linspace. replace (n <? 0) with false by lia. eexists. split; [reflexivity |]. split; [rewrite zlen_map, zlen_seq; lia |].
  intros k K. eexists. rewrite zth_map, zth_seq. replace ((0 <=? k) && (k <? n)) with true by lia. cbn [option_map]. split; [reflexivity |].
  replace (0 + k) with k by lia. split; intros M.
  - subst n. change (1 <? 1) with false. cbn [andb]. assert (k = 0) as -> by lia. change (inject_Z 0) with 0%Q. now rewrite Qmult_0_l, Qplus_0_l.
  - replace (1 <? n) with true by lia. cbn [andb]. destruct (Z.eqb_spec k (n - 1)) as [-> | D].
    + pose proof (inject_pos (n - 1) ltac:(lia)). field. intros E. rewrite E in H. now apply Qlt_irrefl in H.
    + apply Qplus_comm.
Qed.

Lemma time_samples_ok s : (0 < sampling_rate s)%Q -> wf_signal s -> exists l, time_samples s = Ok l /\ zlen l = Signal.length s
  /\ forall k, 0 <= k < Signal.length s -> exists t, zth l k = Some t /\ (t == inject_Z (offset s + k) / sampling_rate s)%Q.
Proof.
  intros F W. unfold time_samples. assert (F0 : ~ (sampling_rate s == 0)%Q) by (intros E; rewrite E in F; now apply Qlt_irrefl in F).
  destruct (Qeq_bool (sampling_rate s) 0) eqn:E; [apply Qeq_bool_iff in E; tauto |].
  set (a := (inject_Z (offset s) / sampling_rate s)%Q). set (b := (inject_Z (Signal.length s + offset s - 1) / sampling_rate s)%Q).
  destruct (linspace_ok a b (Signal.length s)) as (l & L & N & H); [apply W |]. exists l. split; [auto |]. split; [auto |].
  intros k K. destruct (H k K) as (t & T & T1 & T2). exists t. split; [auto |]. rewrite inject_Z_plus.
  destruct (Z.eq_dec (Signal.length s) 1) as [E1 | N1].
  - assert (k = 0) as -> by lia. rewrite T1 by auto. unfold a. change (inject_Z 0) with 0%Q. field. auto.
  - rewrite T2 by lia. unfold a, b. replace (Signal.length s + offset s - 1) with (offset s + (Signal.length s - 1)) by lia. rewrite inject_Z_plus.
    pose proof (inject_pos (Signal.length s - 1) ltac:(lia)) as P. field. split; auto. intros Z. rewrite Z in P. now apply Qlt_irrefl in P.
Qed.

(** ** Reading *)
Lemma sorted_ends {A} (sorted : list (Q * list A)) n first last : zlen sorted = n -> 2 <= n -> StronglySorted Qlt (map fst sorted) ->
  zth (map fst sorted) 0 = Some first -> zth (map fst sorted) (n - 1) = Some last -> (first < last)%Q.
Proof.
  intros N N2 S F L. destruct sorted as [|x t]; [rewrite zlen_nil in N; lia |]. cbn [map] in *. injection F as <-. inversion S as [|? ? S' FF]; subst.
  rewrite zth_cons in L. replace (zlen (x :: t) - 1 =? 0) with false in L by lia. apply zth_In in L. rewrite Forall_forall in FF. now apply FF.
Qed.

Lemma arranged_uniform {A} c (table sorted : list (Q * list A)) : uniform c table -> arrangement table sorted -> uniform c sorted /\ zlen sorted = zlen table.
Proof. intros U [P S]. unfold uniform in *. split; [now rewrite <- P |]. unfold zlen. now rewrite (Permutation_length P). Qed.

Lemma signal_from_rows_ok junk c table sorted m given first last : 1 <= c -> 2 <= zlen table -> uniform c table -> samples_of c table m ->
  arrangement table sorted -> zth (map fst sorted) 0 = Some first -> zth (map fst sorted) (zlen table - 1) = Some last ->
  exists s, signal_from_rows junk (map fst table) m given = Ok s /\ describes_signal c given sorted first last s.
Proof.
  intros C N U S H F L. destruct (arranged_uniform _ _ _ U H) as [U' N']. pose proof H as [P O].
  assert (FL := sorted_ends sorted _ first last N' N O F L).
  destruct (transposed_ok c sorted) as (m' & _ & S'); auto; try lia.
  unfold signal_from_rows. destruct (sorted_rows_ok Qeq_bool less_number c table sorted m m') as (b & B); auto. rewrite B.
  rewrite (sort_unique _ (map fst sorted)) by (auto using Permutation_map).
  destruct S as (W & Nm & Cm & _). replace (negb (nrows m =? 0) && negb (cols m =? 0)) with true by lia.
  rewrite (getitem_zth _ 0 first) by (auto; lia). rewrite (getitem_last _ last) by (now rewrite zlen_map, N'). cbn [bind].
  rewrite zlen_map, N'. replace (zlen table <=? 1) with false by lia.
  destruct (Qeq_bool (last - first) 0) eqn:E. { apply Qeq_bool_iff in E. lra. }
  cbn [bind fst]. rewrite copy_array_ok by apply S'. cbn [bind]. eexists. split; [reflexivity |].
  destruct S' as (W' & Nm' & Cm' & E'). split; [| split; [| split]]; cbn [Signal.channels sampling_rate offset labels mk_signal].
  - repeat split; auto; apply W'.
  - rewrite N'. reflexivity.
  - apply py_round_is_nearest.
  - rewrite Nm'. apply adapt_labels_ok. lia.
Qed.

Theorem read_with_header junk parse name header file table sorted c first last : parse name = None ->
  Forall2 (is_row parse parse) file table -> uniform c table -> 1 <= c -> 2 <= zlen table -> arrangement table sorted ->
  zth (map fst sorted) 0 = Some first -> zth (map fst sorted) (zlen table - 1) = Some last ->
  exists s, read_signal_csv junk parse ((name :: header) :: file) = Ok s /\ describes_signal c header sorted first last s.
Proof.
  intros N F U C T H E L. destruct (transposed_ok c table) as (m & M & S); auto; try lia.
  unfold read_signal_csv. rewrite (read_header _ _ _ _ _ _ table m) by auto. cbn [bind]. eapply signal_from_rows_ok; eauto.
Qed.

Theorem read_without_header junk parse file table sorted c first last :
  Forall2 (is_row parse parse) file table -> uniform c table -> 1 <= c -> 2 <= zlen table -> arrangement table sorted ->
  zth (map fst sorted) 0 = Some first -> zth (map fst sorted) (zlen table - 1) = Some last ->
  exists s, read_signal_csv junk parse file = Ok s /\ describes_signal c [] sorted first last s.
Proof.
  intros F U C T H E L. destruct (transposed_ok c table) as (m & M & S); auto; try lia.
  unfold read_signal_csv. destruct file as [|row file]; [inversion F; subst; rewrite zlen_nil in T; lia |].
  rewrite (read_headless _ _ _ _ _ table m) by auto. cbn [bind]. eapply signal_from_rows_ok; eauto.
Qed.

(** ** Writing *)
Section Writing.
Context {A : Type}.
Variables (show : Q -> string) (parse : string -> option Q) (show_sample : A -> string) (parse_sample : string -> option A).

Lemma columns_ok (m : arr A) : wf m -> exists cs, sequence (map (fun i => sequence (map (fun r => getitem r i) (rows m))) (zseq 0 (cols m))) = Ok cs
  /\ zlen cs = cols m /\ forall k col, zth cs k = Some col -> zlen col = nrows m /\ forall i, zth col i = el m i k.
Proof.
  intros W. pose proof (proj1 W) as C0. destruct (sequence_map_total (fun i => sequence (map (fun r => getitem r i) (rows m))) (zseq 0 (cols m))) as [cs E].
  - intros k I. apply In_zth in I as [k' K]. rewrite zth_seq in K. destruct (_ && _) eqn:B in K; [| discriminate]. injection K as <-.
    apply sequence_map_total. intros r R. apply In_zth in R as [i R]. destruct (zth_in r (0 + k')) as [x X]; [rewrite (wf_zlen _ _ _ W R); lia |].
    exists x. apply getitem_zth; auto; lia.
  - exists cs. split; auto. apply sequence_ok in E as [L E]. rewrite zlen_map, zlen_seq in L. split; [lia |].
    intros k col K. pose proof (zth_range _ _ _ K) as R.
    destruct (E k (sequence (map (fun r => getitem r k) (rows m)))) as (v & V & V').
    { rewrite zth_map, zth_seq. replace ((0 <=? k) && (k <? cols m)) with true by lia. cbn. now replace (0 + k) with k by lia. }
    rewrite V' in K. injection K as ->. apply sequence_ok in V as [VL V]. rewrite zlen_map in VL. split; auto. intros i.
    unfold el. destruct (zth (rows m) i) as [r|] eqn:Ri.
    + destruct (V i (getitem r k)) as (x & X & X'); [now rewrite zth_map, Ri |]. rewrite X'.
      unfold getitem in X. replace (k <? 0) with false in X by lia. destruct (zth r k); [now injection X as -> | discriminate].
    + apply zth_none in Ri. apply zth_out. now rewrite VL.
Qed.

Lemma write_csv_ok title (column : list Q) (m : arr A) given number : wf m -> zlen column = cols m ->
  (forall k, 0 <= k < cols m -> exists t, zth column k = Some t /\ (t == number k)%Q) ->
  exists file, write_csv show show_sample title column m given = Ok file /\ written_table show show_sample title given number m file.
Proof.
  intros W L H. destruct (columns_ok m W) as (cs & E & Lc & Hc). unfold write_csv. rewrite E. cbn [bind]. eexists. split; [reflexivity |].
  eexists. split; [reflexivity |]. split; [rewrite zlen_map2; lia |]. intros k K. destruct (H k K) as (t & T & Tn).
  destruct (zth_in cs k) as [col Col]; [lia |]. destruct (Hc _ _ Col) as [N1 N2]. exists t, (map show_sample col).
  rewrite zth_map2, T, Col. repeat split; auto; [now rewrite zlen_map |]. intros i x X. now rewrite zth_map, N2, X.
Qed.

Lemma forall2_exists {X Y} (R : X -> Y -> Prop) l : (forall x, In x l -> exists y, R x y) -> exists m, Forall2 R l m.
Proof.
  induction l as [|x l IH]; intros H; [exists []; constructor |]. destruct (H x (or_introl eq_refl)) as [y E].
  destruct IH as [m M]; [intros; apply H; now right |]. exists (y :: m). now constructor.
Qed.
Lemma forall2_at {X Y} (R : X -> Y -> Prop) l m : Forall2 R l m -> forall i x y, zth l i = Some x -> zth m i = Some y -> R x y.
Proof.
  induction 1 as [|a b l m E F IH]; intros i x y Hx Hy; [rewrite zth_nil in Hx; discriminate |].
  rewrite zth_cons in Hx. rewrite zth_cons in Hy. destruct (i =? 0); [congruence | eauto].
Qed.

Variable same : A -> A -> Prop.
Hypothesis restore : restores Qeq show parse.
Hypothesis restore_sample : restores same show_sample parse_sample.

Lemma reread title given number (m : arr A) body : wf m -> written_table show show_sample title given number m ((title :: given) :: body) ->
  exists table, Forall2 (is_row parse parse_sample) body table /\ uniform (nrows m) table /\ zlen table = cols m
  /\ forall k r, zth table k = Some r -> (fst r == number k)%Q /\ forall i x, el m i k = Some x -> exists y, zth (snd r) i = Some y /\ same y x.
Proof.
  intros W (body' & E & L & H). injection E as <-. pose (R := fun texts r => is_row parse parse_sample texts r /\
    exists k, zth body k = Some texts /\ (fst r == number k)%Q /\ zlen (snd r) = nrows m /\ forall i x, el m i k = Some x -> exists y, zth (snd r) i = Some y /\ same y x).
  assert (RR : forall k texts, zth body k = Some texts -> exists r, is_row parse parse_sample texts r /\ (fst r == number k)%Q /\ zlen (snd r) = nrows m
     /\ forall i x, el m i k = Some x -> exists y, zth (snd r) i = Some y /\ same y x).
  { intros k texts K. pose proof (zth_range _ _ _ K) as KR. rewrite L in KR. destruct (H k KR) as (t & cells & B & T & Lc & Hc). rewrite K in B. injection B as ->.
    destruct (restore t) as (t' & P & Eq). 
    destruct (forall2_exists (fun c y => parse_sample c = Some y /\ exists x, c = show_sample x /\ same y x) cells) as [ys Y].
    { intros c Ic. apply In_zth in Ic as [i I]. pose proof (zth_range _ _ _ I) as IR. rewrite Lc in IR. destruct (el_in m i k W IR KR) as [x X].
      rewrite (Hc _ _ X) in I. injection I as <-. destruct (restore_sample x) as (y & Py & Sy). exists y. eauto. }
    exists (t', ys). cbn [fst snd]. split; [| split; [| split]].
    - split; auto. clear -Y. induction Y; constructor; tauto.
    - now rewrite Eq.
    - now rewrite <- Lc, (forall2_zlen _ _ _ Y).
    - intros i x X. destruct (zth_in ys i) as [y Hy]. { rewrite <- (forall2_zlen _ _ _ Y), Lc. now apply (el_range _ _ _ _ W X). }
      exists y. split; auto. destruct (restore_sample x) as (y' & Py & Sy).
      destruct (forall2_at _ _ _ Y i _ _ (Hc _ _ X) Hy) as [Q _]. assert (y = y') as -> by congruence. exact Sy. }
  assert (T : exists table, zlen table = zlen body /\ forall k texts r, zth body k = Some texts -> zth table k = Some r -> is_row parse parse_sample texts r /\ (fst r == number k)%Q /\ zlen (snd r) = nrows m
     /\ forall i x, el m i k = Some x -> exists y, zth (snd r) i = Some y /\ same y x).
  { clear R L H. clear -RR. revert number RR. generalize m as mm. revert body.
    assert (G : forall body (P : Z -> list string -> Q * list A -> Prop), (forall k texts, zth body k = Some texts -> exists r, P k texts r) ->
       exists table, zlen table = zlen body /\ forall k texts r, zth body k = Some texts -> zth table k = Some r -> P k texts r).
    { induction body as [|t body IH]; intros P HP.
      - exists []. split; [reflexivity |]. intros k texts r K. rewrite zth_nil in K. discriminate.
      - destruct (HP 0 t eq_refl) as [r0 H0]. destruct (IH (fun k => P (k + 1))) as (table & LT & HT).
        { intros k texts K. apply HP. pose proof (zth_range _ _ _ K). rewrite zth_cons. replace (k + 1 =? 0) with false by lia. now replace (k + 1 - 1) with k by lia. }
        exists (r0 :: table). split; [rewrite !zlen_cons; lia |]. intros k texts r. rewrite !zth_cons. destruct (Z.eqb_spec k 0) as [-> | D].
        + intros E1 E2. injection E1 as <-. injection E2 as <-. auto.
        + intros E1 E2. replace k with (k - 1 + 1) by lia. eapply HT; eauto. }
    intros body mm number RR. apply G. exact RR. }
  destruct T as (table & LT & HT). exists table. split; [| split; [| split]].
  - apply forall2_zth; auto. intros i x y Hx Hy. now destruct (HT i x y Hx Hy).
  - apply Forall_zth. intros k r K. destruct (zth_some_of_len table body k r LT K) as [texts B]. now destruct (HT k texts r B K) as (_ & _ & ? & _).
  - lia.
  - intros k r K. destruct (zth_some_of_len table body k r LT K) as [texts B]. now destruct (HT k texts r B K) as (_ & ? & _ & ?).
Qed.
End Writing.

(** Increasing numbers *)
Lemma increasing_sorted l : (forall i j x y, i < j -> zth l i = Some x -> zth l j = Some y -> (x < y)%Q) -> StronglySorted Qlt l.
Proof.
  induction l as [|x l IH]; intros H; constructor.
  - apply IH. intros i j a b L A B. pose proof (zth_range _ _ _ A). pose proof (zth_range _ _ _ B).
    apply (H (i + 1) (j + 1)); [lia | |]; rewrite zth_cons; [replace (i + 1 =? 0) with false by lia | replace (j + 1 =? 0) with false by lia];
      [now replace (i + 1 - 1) with i by lia | now replace (j + 1 - 1) with j by lia].
  - apply Forall_zth. intros i y Y. pose proof (zth_range _ _ _ Y). apply (H 0 (i + 1)); [lia | reflexivity |].
    rewrite zth_cons. replace (i + 1 =? 0) with false by lia. now replace (i + 1 - 1) with i by lia.
Qed.

(** ** Round trips *)
Lemma described_same s t table first last given : (0 < sampling_rate s)%Q -> wf_signal s -> 2 <= Signal.length s ->
  zlen table = Signal.length s ->
  (forall k r, zth table k = Some r -> (fst r == inject_Z (offset s + k) / sampling_rate s)%Q /\
     forall i x, el (channels s) i k = Some x -> exists y, zth (snd r) i = Some y /\ (y == x)%Q) ->
  zth (map fst table) 0 = Some first -> zth (map fst table) (zlen table - 1) = Some last ->
  describes_signal (count s) given table first last t -> same_signal s t.
Proof.
  intros F W L N H Hf Hl ((Wt & Nt & Ct & Et) & Rt & Ot & _). assert (F0 : ~ (sampling_rate s == 0)%Q) by (intros E; rewrite E in F; now apply Qlt_irrefl in F).
  rewrite zth_map in Hf, Hl. destruct (zth table 0) as [r0|] eqn:T0; [| discriminate]. destruct (zth table (zlen table - 1)) as [r1|] eqn:T1; [| discriminate].
  injection Hf as <-. injection Hl as <-. apply H in T0 as [T0 _]. apply H in T1 as [T1 _].
  pose proof (inject_pos (zlen table - 1) ltac:(lia)) as P. assert (P0 : ~ (inject_Z (zlen table - 1) == 0)%Q) by (intros Z; rewrite Z in P; now apply Qlt_irrefl in P).
  assert (R : (sampling_rate t == sampling_rate s)%Q).
  { rewrite Rt, T0, T1, !inject_Z_plus. change (inject_Z 0) with 0%Q. field. split; auto.
    intros Z. apply P0. rewrite <- Z. ring. }
  split; [| split]; auto.
  - split; [auto |]. split; [auto |]. split; [rewrite Ct; exact N |]. intros i k x X. destruct (el_range _ _ _ _ (proj1 W) X) as [I K].
    destruct (zth_in table k) as [r Hr]; [change (cols (channels s)) with (Signal.length s) in K; lia |]. rewrite (Et i k r Hr). now apply (H k r Hr).
  - apply nearest_integer. eapply nearest_compat; [| exact Ot]. rewrite R, T0. replace (offset s + 0) with (offset s) by lia. field. auto.
Qed.

Lemma table_sorted (s : signal Q) (table : list (Q * list Q)) : (0 < sampling_rate s)%Q ->
  (forall k r, zth table k = Some r -> (fst r == inject_Z (offset s + k) / sampling_rate s)%Q) -> arrangement table table.
Proof.
  intros F H. split; [reflexivity |]. apply increasing_sorted. intros i j x y L X Y. rewrite zth_map in X, Y.
  destruct (zth table i) as [r|] eqn:R; [| discriminate]. destruct (zth table j) as [r'|] eqn:R'; [| discriminate]. injection X as <-. injection Y as <-.
  rewrite (H _ _ R), (H _ _ R'). apply Qmult_lt_r; [now apply Qinv_lt_0_compat |]. rewrite <- Zlt_Qlt. lia.
Qed.

Theorem csv_contents show s : wf_signal s -> (0 < sampling_rate s)%Q ->
  exists file, write_signal_csv show s = Ok file
    /\ written_table show show "time" (labels s) (fun k => inject_Z (offset s + k) / sampling_rate s)%Q (channels s) file.
Proof.
  intros W F. destruct (time_samples_ok s F W) as (l & E & L & H). unfold write_signal_csv. rewrite E. cbn [bind]. apply write_csv_ok; auto. apply W.
Qed.

Theorem csv_round_trip junk show parse s : restores Qeq show parse -> parse "time"%string = None ->
  wf_signal s -> 1 <= count s -> 2 <= Signal.length s -> (0 < sampling_rate s)%Q ->
  exists file t, write_signal_csv show s = Ok file /\ read_signal_csv junk parse file = Ok t /\ same_signal s t /\ labels t = labels s.
Proof.
  intros R P W C L F. destruct (csv_contents show s W F) as (file & E & T). pose proof T as (body & -> & _ & _).
  destruct (reread show parse show parse Qeq R R _ _ _ _ body (proj1 W) T) as (table & F2 & U & N & H).
  assert (A : arrangement table table). { apply (table_sorted s); auto. intros k r K. now apply H. }
  change (cols (channels s)) with (Signal.length s) in N.
  destruct (zth_in (map fst table) 0) as [first Hf]; [rewrite zlen_map; lia |]. destruct (zth_in (map fst table) (zlen table - 1)) as [last Hl]; [rewrite zlen_map; lia |].
  destruct (read_with_header junk parse "time"%string (labels s) body table table (count s) first last) as (t & Et & D); auto; try lia.
  eexists. exists t. split; [exact E |]. split; [exact Et |]. split.
  - eapply described_same; eauto.
  - destruct D as (_ & _ & _ & D). eapply labelled_same; [| exact D]. apply W.
Qed.

(** ** Arrays in files *)
Lemma table_of_array {A} (column : list Q) (m : arr A) : wf m -> zlen column = cols m ->
  exists table, map fst table = column /\ uniform (nrows m) table /\ samples_of (nrows m) table m /\ zlen table = cols m.
Proof.
  intros W L. destruct (columns_ok m W) as (cs & _ & Lc & Hc). exists (combine column cs).
  assert (N : zlen (combine column cs) = cols m) by (unfold zlen in *; rewrite combine_length; lia).
  assert (Z : forall k r, zth (combine column cs) k = Some r -> zth cs k = Some (snd r)).
  { clear. revert cs. induction column as [|t l IH]; intros [|c cs] k r; cbn [combine]; rewrite ?zth_nil; try discriminate.
    rewrite !zth_cons. destruct (k =? 0); [intros E; now injection E as <- | apply IH]. }
  repeat split; auto; try apply W.
  - clear -L Lc. assert (E : zlen column = zlen cs) by lia. clear L Lc. revert cs E. induction column as [|t l IH]; intros [|c cs] E; auto.
    + rewrite zlen_cons in E. change (zlen (@nil (list A))) with 0 in E. pose proof (zlen_nonneg l). lia.
    + rewrite !zlen_cons in E. cbn. f_equal. apply IH. lia.
  - apply Forall_zth. intros k r K. now destruct (Hc _ _ (Z _ _ K)).
  - intros i k r K. destruct (Hc _ _ (Z _ _ K)) as [_ H]. now rewrite H.
Qed.

Theorem npy_contents junk s : wf_signal s -> (0 < sampling_rate s)%Q ->
  exists a, write_signal_npy junk s = Ok a /\ wf a /\ nrows a = count s + 1 /\ cols a = Signal.length s
    /\ (forall k, 0 <= k < Signal.length s -> exists t, el a 0 k = Some t /\ (t == inject_Z (offset s + k) / sampling_rate s)%Q)
    /\ (forall i k, 0 <= i < count s -> el a (i + 1) k = el (channels s) i k).
Proof.
  intros W F. destruct (time_samples_ok s F W) as (l & E & L & H). unfold write_signal_npy.
  assert (N0 : 0 <= count s) by apply zlen_nonneg. assert (L0 : 0 <= Signal.length s) by apply W.
  destruct (allocate_ok junk (count s + 1) (Signal.length s)) as (a & Ea & Wa & Na & Ca); auto; try lia. rewrite Ea. cbn [bind]. rewrite E. cbn [bind].
  destruct (set_row_block_ok a 0 everything (Arr [l] (zlen l))) as (b & Eb & Wb & Nb & Cb & Hb); auto; try lia.
  { split; cbn; [apply zlen_nonneg |]. repeat constructor. }
  { cbn [cols]. left. rewrite upper_everything, lower_everything by lia. lia. }
  rewrite Eb. cbn [bind].
  destruct (set_block_ok b (from 1) everything (channels s)) as (d & Ed & Wd & Nd & Cd & Hd); auto; [apply W | | |].
  { left. rewrite upper_from, lower_from by lia. change (nrows (channels s)) with (count s). lia. }
  { left. rewrite upper_everything, lower_everything by lia. change (cols (channels s)) with (Signal.length s). lia. }
  exists d. split; [auto |]. split; [auto |]. split; [lia |]. split; [lia |]. split.
  - intros k K. destruct (H k K) as (t & T & Tn). exists t. split; auto. rewrite Hd, upper_from, lower_from, upper_everything, lower_everything by lia.
    cbn [Z.leb Z.compare andb]. rewrite Hb. rewrite upper_everything, lower_everything by lia. cbn [cols].
    replace (_ && _) with true by lia. unfold el. cbn. replace (if zlen l =? 1 then 0 else k - 0) with k by zcases. exact T.
  - intros i k I. rewrite Hd, upper_from, lower_from, upper_everything, lower_everything by lia.
    destruct ((0 <=? k) && (k <? cols b)) eqn:B.
    + replace (_ && _) with true by lia. change (nrows (channels s)) with (count s). change (cols (channels s)) with (Signal.length s). f_equal; zcases.
    + replace (_ && _ && _ && _) with false by lia. rewrite (el_out b), (el_out (channels s)); auto; [apply W | |].
      * intros [_ K]. change (cols (channels s)) with (Signal.length s) in K. lia.
      * intros [_ K]. lia.
Qed.
