(** Merging signals and spectrums. *)

From Coq Require Import String ZArith List Bool Lia ZifyBool Sorting.Sorted.
From Verif.Model Require Import Py Numpy Functions Signal Spectrum Merge.
From Verif.Spec Require Import TimeSpec FrequencySpec MergeSpec.
From Verif.Proofs Require Import PyFacts NumpyFacts SignalAlgebra SignalShape SpectrumFacts MergeOrder.
Import ListNotations.
Open Scope Z_scope.

Ltac iftrue := match goal with |- (if ?b then _ else _) = _ => replace b with true by lia end.
Ltac iffalse := match goal with |- (if ?b then _ else _) = _ => replace b with false by lia end.

Lemma setitem_ok {A} (l : list A) k x : 0 <= k < zlen l ->
  exists l', setitem l k x = Ok l' /\ zlen l' = zlen l /\ forall i, zth l' i = if i =? k then Some x else zth l i.
Proof.
  intros K. unfold setitem. replace (k <? 0) with false by lia. cbv zeta beta iota.
  replace ((k <? 0) || (zlen l <=? k)) with false by lia.
  eexists; split; [reflexivity|]. split.
  - rewrite zlen_app, zlen_cons, zlen_take, zlen_drop. lia.
  - intros i. rewrite zth_app, zlen_take, zth_cons, zth_take, zth_drop.
    zcases; try (f_equal; lia); destruct (Z.lt_ge_cases i 0); try (rewrite !zth_neg by lia; reflexivity); try lia.
Qed.

Section Merge.
Context {A R : Type}.
Variable O : ops A.
Variable junk : Z -> Z -> A.

(** Row [k] of the table holds the given channel, delayed by the given number of samples, between zeros. *)
Definition holds (N L mo : Z) (k : Z) (x : list A * (Z * string)) (st : arr A * list string) : Prop :=
  let '(ch, (off, lab)) := x in
  zth (snd st) k = Some lab /\
  forall j, 0 <= j < L -> el (fst st) k j = Some (match zth ch (j - (off - mo)) with Some v => v | None => o_zero O end).

Definition table (N L : Z) (st : arr A * list string) : Prop :=
  wf (fst st) /\ nrows (fst st) = N /\ cols (fst st) = L /\ zlen (snd st) = N.

Lemma wf_one_row (ch : list A) : wf (Arr [ch] (zlen ch)).
Proof. split; cbn; [apply zlen_nonneg|]. repeat constructor. Qed.

Lemma el_one_row (ch : list A) j : el (Arr [ch] (zlen ch)) 0 j = zth ch j.
Proof. reflexivity. Qed.

Lemma signal_step_ok N L mo st k ch off lab :
  table N L st -> 0 <= k < N -> mo <= off -> off - mo + zlen ch <= L ->
  exists st', merge_signal_step O mo st (k, (ch, (off, lab))) = Ok st' /\ table N L st' /\
    holds N L mo k (ch, (off, lab)) st' /\
    forall k' y, k' <> k -> holds N L mo k' y st -> holds N L mo k' y st'.
Proof.
  destruct st as [m ls]. intros (W & HN & HL & HS) K Hm HL'. cbn [fst snd] in *.
  pose proof (zlen_nonneg ch) as Lc. unfold merge_signal_step.
  destruct (set_row_block_ok m k (between 0 (off - mo)) (scalar (o_zero O)) W (wf_scalar _)) as (m1 & -> & W1 & N1 & C1 & H1);
    try (rewrite ?nrows_scalar, ?cols_scalar; auto; lia).
  cbn [bind].
  destruct (set_row_block_ok m1 k (between (off - mo) (off - mo + zlen ch)) (Arr [ch] (zlen ch)) W1 (wf_one_row ch))
    as (m2 & -> & W2 & N2 & C2 & H2); try lia; [reflexivity|left; cbn [cols]; bnd; lia|].
  cbn [bind].
  destruct (set_row_block_ok m2 k (from (off - mo + zlen ch)) (scalar (o_zero O)) W2 (wf_scalar _)) as (m3 & -> & W3 & N3 & C3 & H3);
    try (rewrite ?nrows_scalar, ?cols_scalar; auto; lia).
  cbn [bind].
  destruct (setitem_ok ls k lab) as (ls' & -> & Z' & H'); [lia|]. cbn [bind].
  eexists; split; [reflexivity|]. split; [split; cbn [fst snd]; auto; lia|]. 
  rewrite C2, C1, HL in H3. rewrite C1, HL in H2. rewrite HL in H1.
  bnd_in H1. bnd_in H2. bnd_in H3. cbn [cols] in H2.
  split.
  - cbn [holds fst snd]. rewrite H', Z.eqb_refl. split; [reflexivity|]. intros j J.
    rewrite H3, Z.eqb_refl. change (el (scalar (o_zero O)) 0 _) with (Some (o_zero O)) at 1.
    destruct (Z.lt_ge_cases j (off - mo)) as [J1|J1]; [|destruct (Z.lt_ge_cases j (off - mo + zlen ch)) as [J2|J2]].
    + iffalse. rewrite H2. iffalse. rewrite H1, Z.eqb_refl. iftrue. rewrite (zth_neg ch) by lia. reflexivity.
    + iffalse. rewrite H2, Z.eqb_refl. iftrue. rewrite el_one_row.
      destruct (zth_in ch (j - (off - mo))) as [v E]; [lia|]. rewrite E.
      destruct (Z.eqb_spec (zlen ch) 1); [|exact E]. replace (j - (off - mo)) with 0 in E by lia. exact E.
    + iftrue. rewrite (zth_ge ch) by lia. reflexivity.
  - intros k' [ch' [off' lab']] NK [Hl Hj]. cbn [holds fst snd] in *. rewrite H'. split.
    + replace (k' =? k) with false by lia. exact Hl.
    + intros j J. rewrite H3. iffalse. rewrite H2. iffalse. rewrite H1. iffalse. apply Hj; auto.
Qed.

Lemma counts_nonneg (data : list (signal A)) : Forall (fun n => 0 <= n) (map count data).
Proof. apply Forall_forall. intros n I. apply in_map_iff in I as (d & <- & _). apply nrows_nonneg. Qed.

Lemma merge_one mode s : wf_signal s -> merged_signal O mode [s] s.
Proof.
  intros W. split; auto. split; [exists s; split; auto|]. split; [intros d [<-|[]]; lia|].
  split; [exists s; cbn; auto|]. split; [exists s; cbn; auto|].
  pose proof (nrows_nonneg (channels s)) as Nn. fold (count s) in Nn.
  exists (enum 0 [count s]). split; [split|split].
  - destruct mode; [apply enum_sorted|]. cbn [enum]. rewrite app_nil_r. unfold zseq. rewrite map_map.
    generalize 0%nat as a. induction (Z.to_nat (count s)) as [|k IH]; intros a; cbn [seq map]; constructor; auto.
    apply Forall_forall. intros x I. apply in_map_iff in I as (j & <- & J). apply in_seq in J. cbn. lia.
  - intros o i. rewrite enum_In, Z.sub_0_r. reflexivity.
  - rewrite zlen_enum by (repeat constructor; lia). cbn. lia.
  - intros k o i d E D.
    assert (o = 0 /\ i = k /\ d = s /\ 0 <= k < count s) as (-> & -> & -> & I).
    { cbn [enum] in E. rewrite app_nil_r, zth_map_zseq in E. revert E. zcase; [|discriminate]. intros [= <- <-].
      rewrite zth_cons in D. cbn in D. injection D as <-. repeat split; lia. }
    split; auto. intros t T. destruct (at_time s k t) as [x|] eqn:X; auto. exfalso.
    unfold at_time, begins, ends in *. destruct (el_in (channels s) k (t - offset s) (proj1 W)) as [a Ea]; try congruence; auto.
    unfold length in T. lia.
Qed.

Theorem merge_signals_ok mode data :
  data <> [] -> Forall wf_signal data ->
  (mode = FIRST_CHANNELS_FIRST -> Forall (fun d => 1 <= count d) data) ->
  exists r, merge_signals O junk mode data = Ok r /\ merged_signal O mode data r.
Proof.
  intros NE W F1. destruct data as [|first rest]; [contradiction|].
  destruct rest as [|second rest].
  { exists first. split; auto. inversion W; subst. apply merge_one; auto. }
  remember (first :: second :: rest) as data eqn:D.
  assert (Hd : merge_signals O junk mode data =
      (let number_of_channels := zsum (map count data) in
      let merged_offset := zminimum (offset first) (map offset data) in
      let len := zmaximum (offset first + length first) (map (fun s => offset s + length s) data) - merged_offset in
      m <- allocate junk number_of_channels len ;;
      let items := combine (merge_indices mode (map count data))
                     (combine (flat_map (fun d => rows (channels d)) data)
                        (combine (flat_map (fun d => map (fun _ => offset d) (rows (channels d))) data)
                                 (flat_map labels data))) in
      st <- for_each items (merge_signal_step O merged_offset) (m, zrepeat EmptyString number_of_channels) ;;
      Ok (mk_signal (fst st) (sampling_rate first) merged_offset (Some (snd st))))) by (subst; reflexivity).
  rewrite Hd. clear Hd. cbv zeta.
  assert (First : In first data) by (subst; cbn; auto).
  assert (First0 : zth data 0 = Some first) by (subst; reflexivity).
  clear D NE second rest.
  rewrite Forall_forall in W.
  pose proof (counts_nonneg data) as F0.
  assert (F1' : mode = FIRST_CHANNELS_FIRST -> Forall (fun n => 1 <= n) (map count data)).
  { intros M. apply Forall_map. auto. }
  destruct (merge_indices_ok mode (map count data) F0 F1') as (order & Ar & Zo & Zi & ND & Pos).
  set (N := zsum (map count data)) in *. set (mo := zminimum (offset first) (map offset data)).
  set (top := zmaximum (offset first + length first) (map (fun s => offset s + length s) data)).
  assert (Nn : 0 <= N) by (rewrite <- Zo; apply zlen_nonneg).
  destruct (zminimum_le (map offset data) (offset first)) as [M1 M2]. fold mo in M1, M2.
  destruct (zmaximum_ge (map (fun s => offset s + length s) data) (offset first + length first)) as [T1 T2]. fold top in T1, T2.
  assert (M2' : forall d, In d data -> mo <= offset d) by (intros; apply M2, in_map; auto).
  assert (T2' : forall d, In d data -> offset d + length d <= top) by (intros d I; apply T2; apply (in_map (fun s => offset s + length s)); auto).
  assert (Lf : 0 <= length first) by (apply wf_length; auto).
  destruct (allocate_ok junk N (top - mo)) as (m & -> & Wm & Nm & Cm); [lia|lia|]. cbn [bind].
  assert (G1 : forall d, In d data -> zlen (rows (channels d)) = count d) by reflexivity.
  assert (G2 : forall d, In d data -> zlen (map (fun _ => offset d) (rows (channels d))) = count d) by (intros; apply zlen_map).
  assert (G3 : forall d, In d data -> zlen (labels d) = count d) by (intros d I; apply (proj2 (W d I))).
  set (l1 := flat_map (fun d => rows (channels d)) data).
  set (l2 := flat_map (fun d => map (fun _ => offset d) (rows (channels d))) data).
  set (l3 := flat_map labels data).
  assert (Z1 : zlen l1 = N) by (apply zlen_flat; auto).
  assert (Z2 : zlen l2 = N) by (apply zlen_flat; auto).
  assert (Z3 : zlen l3 = N) by (apply zlen_flat; auto).
  set (items := combine (merge_indices mode (map count data)) (combine l1 (combine l2 l3))).
  (* the item for a channel *)
  assert (Item : forall q o i, zth (enum 0 (map count data)) q = Some (o, i) ->
     exists d k ch lab, zth data o = Some d /\ In d data /\ 0 <= i < count d /\ zth order k = Some (o, i) /\
       zth (rows (channels d)) i = Some ch /\ zth (labels d) i = Some lab /\
       zth items q = Some (k, (ch, (offset d, lab)))).
  { intros q o i E. destruct (Pos q (o, i) E) as (k & Ek & Eo).
    destruct (flat_zth _ count data G1 0 q o i E) as (d & Ed & I & E1). rewrite Z.sub_0_r in Ed.
    destruct (flat_zth _ count data G2 0 q o i E) as (d2 & Ed2 & _ & E2). rewrite Z.sub_0_r in Ed2.
    destruct (flat_zth _ count data G3 0 q o i E) as (d3 & Ed3 & _ & E3). rewrite Z.sub_0_r in Ed3.
    assert (d2 = d) by congruence. assert (d3 = d) by congruence. subst d2 d3.
    assert (Id : In d data) by (eapply zth_In; eauto).
    destruct (zth_in (rows (channels d)) i) as [ch Ech]; [rewrite G1; auto|].
    destruct (zth_in (labels d) i) as [lab Elab]; [rewrite G3; auto|].
    exists d, k, ch, lab. split; [auto|]. split; [auto|]. split; [auto|]. split; [auto|]. split; [auto|]. split; [auto|].
    unfold items. rewrite !zth_combine, Ek. fold l1 in E1. rewrite E1, Ech. fold l2 in E2. rewrite E2, zth_map, Ech.
    fold l3 in E3. cbn [option_map]. rewrite E3, Elab. reflexivity. }
  assert (Zitems : zlen items = N).
  { unfold items. rewrite !zlen_combine, Zi, Z1, Z2, Z3. lia. }
  assert (ItemInv : forall q k x, zth items q = Some (k, x) ->
     exists o i d ch lab, zth (enum 0 (map count data)) q = Some (o, i) /\ zth order k = Some (o, i) /\ zth data o = Some d /\ In d data /\
       0 <= i < count d /\ zth (rows (channels d)) i = Some ch /\ zth (labels d) i = Some lab /\ x = (ch, (offset d, lab))).
  { intros q k x E. pose proof (zth_range _ _ _ E) as Rq. rewrite Zitems in Rq.
    destruct (zth_in (enum 0 (map count data)) q) as [[o i] Eq]; [rewrite zlen_enum by auto; exact Rq|].
    destruct (Item q o i Eq) as (d & k' & ch & lab & Ed & Id & I & Eo & Ech & Elab & Eit).
    rewrite E in Eit. injection Eit as -> ->. exists o, i, d, ch, lab. auto 10. }
  assert (Lch : forall d ch i, In d data -> zth (rows (channels d)) i = Some ch -> zlen ch = length d).
  { intros d ch i I E. eapply wf_zlen; eauto. apply (W d I). }
  destruct (scatter (table N (top - mo)) (holds N (top - mo) mo)
     (fun k x => 0 <= k < N /\ mo <= fst (snd x) /\ fst (snd x) - mo + zlen (fst x) <= top - mo)
     (merge_signal_step O mo)) with (items := items) (s := (m, zrepeat EmptyString N))
     as ([m' ls'] & Ef & (W' & N' & C' & Z') & H & _).
  - intros st k [ch [off lab]] T (K & V1 & V2). apply signal_step_ok; auto.
  - split; [auto|]. split; [auto|]. split; [auto|]. cbn. rewrite zlen_repeat. lia.
  - unfold items. rewrite fst_combine; auto. rewrite !zlen_combine. lia.
  - intros k x I. apply In_zth in I as [q E]. destruct (ItemInv q k x E) as (o & i & d & ch & lab & Eq & Eo & Ed & Id & I & Ech & Elab & ->).
    cbn [fst snd]. pose proof (zth_range _ _ _ Eo). rewrite (Lch d ch i) by auto. specialize (M2' d Id). specialize (T2' d Id). lia.
  - rewrite Ef. cbn [bind fst snd] in *. eexists; split; [reflexivity|].
    assert (Bg : begins (mk_signal m' (sampling_rate first) mo (Some ls')) = mo) by reflexivity.
    assert (En : ends (mk_signal m' (sampling_rate first) mo (Some ls')) = top) by (unfold ends, length; cbn [mk_signal offset channels]; lia).
    unfold merged_signal. rewrite Bg, En. split; [apply mk_signal_wf; auto|].
    split; [exists first; auto|]. split; [intros d I; split; [apply M2'|apply T2']; auto|].
    split.
    { destruct (zminimum_in (map offset data) (offset first)) as [E|I]; [fold mo in E|fold mo in I].
      - exists first. auto.
      - apply in_map_iff in I as (d & E & I). exists d. auto. }
    split.
    { destruct (zmaximum_in (map (fun s => offset s + length s) data) (offset first + length first)) as [E|I]; [fold top in E|fold top in I].
      - exists first. auto.
      - apply in_map_iff in I as (d & E & I). exists d. auto. }
    exists order. split; [auto|]. split; [unfold count; cbn [mk_signal channels]; lia|].
    intros k o i d Eo Ed.
    assert (Io : In (o, i) (enum 0 (map count data))).
    { apply enum_In. rewrite Z.sub_0_r. apply Ar. eapply zth_In; eauto. }
    apply In_zth in Io as [q Eq].
    destruct (Item q o i Eq) as (d' & k' & ch & lab & Ed' & Id & I & Eo' & Ech & Elab & Eit).
    assert (d' = d) by congruence. subst d'.
    assert (k' = k).
    { eapply NoDup_zth_inj; [|exact Eo'|exact Eo]. eapply SSorted_NoDup; [|apply Ar]. apply before_irrefl. }
    subst k'. destruct (H k (ch, (offset d, lab)) (zth_In _ _ _ Eit)) as [Hl Hj]. cbn [fst snd] in Hl, Hj.
    cbn [mk_signal labels]. rewrite sanitize_same by lia. rewrite Elab. split; [exact Hl|].
    intros t T. unfold at_time. cbn [mk_signal channels offset]. rewrite Hj by lia.
    f_equal. replace (t - mo - (offset d - mo)) with (t - offset d) by lia. unfold el. rewrite Ech. reflexivity.
Qed.

(** ** Spectrums *)

Lemma spectrum_step_ok N L st k ch lab :
  table N L st -> 0 <= k < N -> zlen ch <= L ->
  exists st', merge_spectrum_step O st (k, (ch, lab)) = Ok st' /\ table N L st' /\
    holds N L 0 k (ch, (0, lab)) st' /\
    forall k' y, k' <> k -> holds N L 0 k' y st -> holds N L 0 k' y st'.
Proof.
  destruct st as [m ls]. intros (W & HN & HL & HS) K HL'. cbn [fst snd] in *.
  pose proof (zlen_nonneg ch) as Lc. unfold merge_spectrum_step.
  destruct (set_row_block_ok m k (between 0 (zlen ch)) (Arr [ch] (zlen ch)) W (wf_one_row ch))
    as (m2 & -> & W2 & N2 & C2 & H2); try lia; [reflexivity|left; cbn [cols]; bnd; lia|].
  cbn [bind].
  destruct (set_row_block_ok m2 k (from (zlen ch)) (scalar (o_zero O)) W2 (wf_scalar _)) as (m3 & -> & W3 & N3 & C3 & H3);
    try (rewrite ?nrows_scalar, ?cols_scalar; auto; lia).
  cbn [bind].
  destruct (setitem_ok ls k lab) as (ls' & -> & Z' & H'); [lia|]. cbn [bind].
  eexists; split; [reflexivity|]. split; [split; cbn [fst snd]; auto; lia|].
  rewrite C2, HL in H3. rewrite HL in H2.
  bnd_in H2. bnd_in H3. cbn [cols] in H2.
  split.
  - cbn [holds fst snd]. rewrite H', Z.eqb_refl. split; [reflexivity|]. intros j J.
    rewrite H3, Z.eqb_refl. change (el (scalar (o_zero O)) 0 _) with (Some (o_zero O)) at 1.
    replace (j - (0 - 0)) with j by lia.
    destruct (Z.lt_ge_cases j (zlen ch)) as [J2|J2].
    + iffalse. rewrite H2, Z.eqb_refl. iftrue. rewrite el_one_row.
      destruct (zth_in ch j) as [v E]; [lia|]. rewrite E.
      destruct (Z.eqb_spec (zlen ch) 1); [|rewrite Z.sub_0_r; exact E]. replace j with 0 in E by lia. exact E.
    + iftrue. rewrite (zth_ge ch) by lia. reflexivity.
  - intros k' [ch' [off' lab']] NK [Hl Hj]. cbn [holds fst snd] in *. rewrite H'. split.
    + replace (k' =? k) with false by lia. exact Hl.
    + intros j J. rewrite H3. iffalse. rewrite H2. iffalse. apply Hj; auto.
Qed.

Lemma sp_counts_nonneg (data : list (spectrum A R)) : Forall (fun n => 0 <= n) (map sp_count data).
Proof. apply Forall_forall. intros n I. apply in_map_iff in I as (d & <- & _). apply nrows_nonneg. Qed.

Lemma merge_one_spectrum mode (s : spectrum A R) : wf_spectrum s -> merged_spectrum O mode [s] s.
Proof.
  intros W. split; auto. split; [exists s; split; auto|]. split; [intros d [<-|[]]; lia|].
  split; [exists s; cbn; auto|].
  pose proof (nrows_nonneg (sp_channels s)) as Nn. fold (sp_count s) in Nn.
  exists (enum 0 [sp_count s]). split; [split|split].
  - destruct mode; [apply enum_sorted|]. cbn [enum]. rewrite app_nil_r. unfold zseq. rewrite map_map.
    generalize 0%nat as a. induction (Z.to_nat (sp_count s)) as [|k IH]; intros a; cbn [seq map]; constructor; auto.
    apply Forall_forall. intros x I. apply in_map_iff in I as (j & <- & J). apply in_seq in J. cbn. lia.
  - intros o i. rewrite enum_In, Z.sub_0_r. reflexivity.
  - rewrite zlen_enum by (repeat constructor; lia). cbn. lia.
  - intros k o i d E D.
    assert (o = 0 /\ i = k /\ d = s /\ 0 <= k < sp_count s) as (-> & -> & -> & I).
    { cbn [enum] in E. rewrite app_nil_r, zth_map_zseq in E. revert E. zcase; [|discriminate]. intros [= <- <-].
      rewrite zth_cons in D. cbn in D. injection D as <-. repeat split; lia. }
    split; auto. intros t T. destruct (bin s k t) as [x|] eqn:X; auto. exfalso.
    unfold bin in *. destruct (el_in (sp_channels s) k t (proj1 W)) as [a Ea]; try congruence; auto.
Qed.

Theorem merge_spectrums_ok mode (data : list (spectrum A R)) :
  data <> [] -> Forall wf_spectrum data ->
  (mode = FIRST_CHANNELS_FIRST -> Forall (fun d => 1 <= sp_count d) data) ->
  exists r, merge_spectrums O junk mode data = Ok r /\ merged_spectrum O mode data r.
Proof.
  intros NE W F1. destruct data as [|first rest]; [contradiction|].
  destruct rest as [|second rest].
  { exists first. split; auto. inversion W; subst. apply merge_one_spectrum; auto. }
  remember (first :: second :: rest) as data eqn:D.
  assert (Hd : merge_spectrums O junk mode data =
      (let number_of_channels := zsum (map sp_count data) in
      let len := zmaximum (sp_length first) (map sp_length data) in
      m <- allocate junk number_of_channels len ;;
      let items := combine (merge_indices mode (map sp_count data))
                     (combine (flat_map (fun d => rows (sp_channels d)) data) (flat_map sp_labels data)) in
      st <- for_each items (merge_spectrum_step O) (m, zrepeat EmptyString number_of_channels) ;;
      Ok (mk_spectrum (fst st) (resolution first) (Some (snd st))))) by (subst; reflexivity).
  rewrite Hd. clear Hd. cbv zeta.
  assert (First : In first data) by (subst; cbn; auto).
  assert (First0 : zth data 0 = Some first) by (subst; reflexivity).
  clear D NE second rest.
  rewrite Forall_forall in W.
  pose proof (sp_counts_nonneg data) as F0.
  assert (F1' : mode = FIRST_CHANNELS_FIRST -> Forall (fun n => 1 <= n) (map sp_count data)).
  { intros M. apply Forall_map. auto. }
  destruct (merge_indices_ok mode (map sp_count data) F0 F1') as (order & Ar & Zo & Zi & ND & Pos).
  set (N := zsum (map sp_count data)) in *.
  set (top := zmaximum (sp_length first) (map sp_length data)).
  assert (Nn : 0 <= N) by (rewrite <- Zo; apply zlen_nonneg).
  destruct (zmaximum_ge (map sp_length data) (sp_length first)) as [T1 T2]. fold top in T1, T2.
  assert (T2' : forall d, In d data -> sp_length d <= top) by (intros d I; apply T2, in_map; auto).
  assert (Lf : 0 <= sp_length first) by (apply (W first First)).
  destruct (allocate_ok junk N top) as (m & -> & Wm & Nm & Cm); [lia|lia|]. cbn [bind].
  assert (G1 : forall d, In d data -> zlen (rows (sp_channels d)) = sp_count d) by reflexivity.
  assert (G3 : forall d, In d data -> zlen (sp_labels d) = sp_count d) by (intros d I; apply (proj2 (W d I))).
  set (l1 := flat_map (fun d => rows (sp_channels d)) data).
  set (l3 := flat_map sp_labels data).
  assert (Z1 : zlen l1 = N) by (apply zlen_flat; auto).
  assert (Z3 : zlen l3 = N) by (apply zlen_flat; auto).
  set (items := combine (merge_indices mode (map sp_count data)) (combine l1 l3)).
  assert (Item : forall q o i, zth (enum 0 (map sp_count data)) q = Some (o, i) ->
     exists d k ch lab, zth data o = Some d /\ In d data /\ 0 <= i < sp_count d /\ zth order k = Some (o, i) /\
       zth (rows (sp_channels d)) i = Some ch /\ zth (sp_labels d) i = Some lab /\
       zth items q = Some (k, (ch, lab))).
  { intros q o i E. destruct (Pos q (o, i) E) as (k & Ek & Eo).
    destruct (flat_zth _ sp_count data G1 0 q o i E) as (d & Ed & I & E1). rewrite Z.sub_0_r in Ed.
    destruct (flat_zth _ sp_count data G3 0 q o i E) as (d3 & Ed3 & _ & E3). rewrite Z.sub_0_r in Ed3.
    assert (d3 = d) by congruence. subst d3.
    assert (Id : In d data) by (eapply zth_In; eauto).
    destruct (zth_in (rows (sp_channels d)) i) as [ch Ech]; [rewrite G1; auto|].
    destruct (zth_in (sp_labels d) i) as [lab Elab]; [rewrite G3; auto|].
    exists d, k, ch, lab. split; [auto|]. split; [auto|]. split; [auto|]. split; [auto|]. split; [auto|]. split; [auto|].
    unfold items. rewrite !zth_combine, Ek. fold l1 in E1. rewrite E1, Ech.
    fold l3 in E3. rewrite E3, Elab. reflexivity. }
  assert (Zitems : zlen items = N).
  { unfold items. rewrite !zlen_combine, Zi, Z1, Z3. lia. }
  assert (ItemInv : forall q k x, zth items q = Some (k, x) ->
     exists o i d ch lab, zth (enum 0 (map sp_count data)) q = Some (o, i) /\ zth order k = Some (o, i) /\ zth data o = Some d /\ In d data /\
       0 <= i < sp_count d /\ zth (rows (sp_channels d)) i = Some ch /\ zth (sp_labels d) i = Some lab /\ x = (ch, lab)).
  { intros q k x E. pose proof (zth_range _ _ _ E) as Rq. rewrite Zitems in Rq.
    destruct (zth_in (enum 0 (map sp_count data)) q) as [[o i] Eq]; [rewrite zlen_enum by auto; exact Rq|].
    destruct (Item q o i Eq) as (d & k' & ch & lab & Ed & Id & I & Eo & Ech & Elab & Eit).
    rewrite E in Eit. injection Eit as -> ->. exists o, i, d, ch, lab. auto 10. }
  assert (Lch : forall d ch i, In d data -> zth (rows (sp_channels d)) i = Some ch -> zlen ch = sp_length d).
  { intros d ch i I E. eapply wf_zlen; eauto. apply (W d I). }
  destruct (scatter (table N top) (fun k (x : list A * string) st => holds N top 0 k (fst x, (0, snd x)) st)
     (fun k (x : list A * string) => 0 <= k < N /\ zlen (fst x) <= top)
     (merge_spectrum_step O)) with (items := items) (s := (m, zrepeat EmptyString N))
     as ([m' ls'] & Ef & (W' & N' & C' & Z') & H & _).
  - intros st k [ch lab] T (K & V1). cbn [fst snd] in *.
    destruct (spectrum_step_ok N top st k ch lab T K V1) as (st' & E & T' & H & Hk).
    exists st'. split; [exact E|]. split; [exact T'|]. split; [exact H|]. intros; apply Hk; auto.
  - split; [auto|]. split; [auto|]. split; [auto|]. cbn. rewrite zlen_repeat. lia.
  - unfold items. rewrite fst_combine; auto. rewrite !zlen_combine. lia.
  - intros k x I. apply In_zth in I as [q E]. destruct (ItemInv q k x E) as (o & i & d & ch & lab & Eq & Eo & Ed & Id & I & Ech & Elab & ->).
    cbn [fst snd]. pose proof (zth_range _ _ _ Eo). rewrite (Lch d ch i) by auto. specialize (T2' d Id). lia.
  - rewrite Ef. cbn [bind fst snd] in *. eexists; split; [reflexivity|].
    assert (En : sp_length (mk_spectrum m' (resolution first) (Some ls')) = top) by (unfold sp_length; cbn [mk_spectrum sp_channels]; lia).
    unfold merged_spectrum. rewrite En. split; [apply mk_spectrum_wf; auto|].
    split; [exists first; auto|]. split; [intros d I; apply T2'; auto|].
    split.
    { destruct (zmaximum_in (map sp_length data) (sp_length first)) as [E|I]; [fold top in E|fold top in I].
      - exists first. auto.
      - apply in_map_iff in I as (d & E & I). exists d. auto. }
    exists order. split; [auto|]. split; [unfold sp_count; cbn [mk_spectrum sp_channels]; lia|].
    intros k o i d Eo Ed.
    assert (Io : In (o, i) (enum 0 (map sp_count data))).
    { apply enum_In. rewrite Z.sub_0_r. apply Ar. eapply zth_In; eauto. }
    apply In_zth in Io as [q Eq].
    destruct (Item q o i Eq) as (d' & k' & ch & lab & Ed' & Id & I & Eo' & Ech & Elab & Eit).
    assert (d' = d) by congruence. subst d'.
    assert (k' = k).
    { eapply NoDup_zth_inj; [|exact Eo'|exact Eo]. eapply SSorted_NoDup; [|apply Ar]. apply before_irrefl. }
    subst k'. destruct (H k (ch, lab) (zth_In _ _ _ Eit)) as [Hl Hj]. cbn [fst snd] in Hl, Hj.
    cbn [mk_spectrum sp_labels]. rewrite sanitize_same by lia. rewrite Elab. split; [exact Hl|].
    intros t T. unfold bin. cbn [mk_spectrum sp_channels]. rewrite Hj by lia.
    f_equal. replace (t - (0 - 0)) with t by lia. unfold el. rewrite Ech. reflexivity.
Qed.

End Merge.
