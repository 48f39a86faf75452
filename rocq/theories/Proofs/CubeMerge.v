(** Merging spectrograms and filters. *)

From Coq Require Import String ZArith List Bool Lia ZifyBool Sorting.Sorted.
From Verif.Model Require Import Py Numpy Functions Signal Cube Spectrogram Merge Concatenate Terms Filter CubeBlocks.
From Verif.Spec Require Import TimeSpec SpectrogramSpec MergeSpec ConcatSpec CubeBlocksSpec.
From Verif.Proofs Require Import PyFacts NumpyFacts SignalAlgebra SignalShape CubeFacts MergeOrder MergeFacts.
Import ListNotations.
Open Scope Z_scope.

Lemma combine_app {X Y} (a a' : list X) (b b' : list Y) : zlen a = zlen b -> combine (a ++ a') (b ++ b') = combine a b ++ combine a' b'.
Proof.
  revert b. induction a as [|x a IH]; intros [|y b] L; rewrite ?zlen_cons in L; cbn; auto.
  - pose proof (zlen_nonneg b). change (zlen (@nil X)) with 0 in L. lia.
  - pose proof (zlen_nonneg a). change (zlen (@nil Y)) with 0 in L. lia.
  - f_equal. apply IH. lia.
Qed.
Lemma combine_flat {D X Y} (g : D -> list X) (h : D -> list Y) data : (forall d, In d data -> zlen (g d) = zlen (h d)) ->
  combine (flat_map g data) (flat_map h data) = flat_map (fun d => combine (g d) (h d)) data.
Proof.
  induction data as [|d data IH]; intros H; cbn; auto. rewrite combine_app by (apply H; cbn; auto). f_equal. apply IH.
  intros; apply H; cbn; auto.
Qed.

(** The items of the loop: the channel number [k] of the result is the channel [i] of the data set [o]. *)
Lemma channel_items {D B} mode (cnt : D -> Z) (g : D -> list B) data :
  (forall d, In d data -> zlen (g d) = cnt d) -> (mode = FIRST_CHANNELS_FIRST -> Forall (fun d => 1 <= cnt d) data) ->
  let items := combine (merge_indices mode (map cnt data)) (flat_map g data) in
  exists order, arrangement mode (map cnt data) order /\ zlen order = zsum (map cnt data) /\ NoDup (map fst items) /\
    (forall k x, In (k, x) items -> exists o i d, zth order k = Some (o, i) /\ zth data o = Some d /\ zth (g d) i = Some x) /\
    (forall k o i d x, zth order k = Some (o, i) -> zth data o = Some d -> zth (g d) i = Some x -> In (k, x) items).
Proof.
  intros G F1 items.
  assert (F0 : Forall (fun n => 0 <= n) (map cnt data)).
  { apply Forall_forall. intros n I. apply in_map_iff in I as (d & <- & I). rewrite <- G by auto. apply zlen_nonneg. }
  destruct (merge_indices_ok mode (map cnt data) F0) as (order & Ar & Zo & Zi & ND & Pos).
  { intros M. apply Forall_map. auto. }
  assert (ZF : zlen (flat_map g data) = zsum (map cnt data)) by (apply zlen_flat; auto).
  exists order. split; [auto|]. split; [auto|]. split; [unfold items; rewrite fst_combine; auto; congruence|].
  assert (Item : forall q o i, zth (enum 0 (map cnt data)) q = Some (o, i) -> exists k d x, zth order k = Some (o, i) /\
     zth data o = Some d /\ zth (g d) i = Some x /\ zth items q = Some (k, x)).
  { intros q o i E. destruct (Pos q (o, i) E) as (k & Ek & Eo).
    destruct (flat_zth _ cnt data G 0 q o i E) as (d & Ed & I & E1). rewrite Z.sub_0_r in Ed.
    destruct (zth_in (g d) i) as [x Ex]; [rewrite G; auto; eapply zth_In; eauto|].
    exists k, d, x. repeat split; auto. unfold items. rewrite zth_combine, Ek, E1, Ex. reflexivity. }
  split.
  - intros k x I. apply In_zth in I as [q E]. pose proof (zth_range _ _ _ E) as Rq. unfold items in Rq. rewrite zlen_combine, Zi, ZF in Rq.
    destruct (zth_in (enum 0 (map cnt data)) q) as [[o i] Eq]; [rewrite zlen_enum by auto; lia|].
    destruct (Item q o i Eq) as (k' & d & x' & Eo & Ed & Ex & Eit). rewrite E in Eit. injection Eit as -> ->. exists o, i, d. auto.
  - intros k o i d x Eo Ed Ex.
    assert (Io : In (o, i) (enum 0 (map cnt data))).
    { apply enum_In. rewrite Z.sub_0_r. apply Ar. eapply zth_In; eauto. }
    apply In_zth in Io as [q Eq]. destruct (Item q o i Eq) as (k' & d' & x' & Eo' & Ed' & Ex' & Eit).
    assert (d' = d) by congruence. subst d'. assert (x' = x) by congruence. subst x'.
    assert (k' = k). { eapply NoDup_zth_inj; [|exact Eo'|exact Eo]. eapply SSorted_NoDup; [|apply Ar]. apply before_irrefl. }
    subst k'. eapply zth_In; eauto.
Qed.

(** ** Spectrograms *)
Section Spectrograms.
Context {A R : Type}.
Variable O : ops A.
Variable junk : Z -> Z -> Z -> A.

Definition table3 (N F L : Z) (st : cube A * list string) : Prop :=
  wf_cube (fst st) /\ dim0 (fst st) = N /\ dim1 (fst st) = F /\ dim2 (fst st) = L /\ zlen (snd st) = N.

Definition fitting (N F L mo : Z) (k : Z) (x : cube A * (Z * string)) : Prop :=
  let '(ch, (off, lab)) := x in
  0 <= k < N /\ wf_cube ch /\ dim0 ch = 1 /\ dim1 ch <= F /\ mo <= off /\ off - mo + dim2 ch <= L.

Lemma spectrogram_step_ok N F L mo st k ch off lab : table3 N F L st -> fitting N F L mo k (ch, (off, lab)) ->
  exists st', merge_spectrogram_step mo st (k, (ch, (off, lab))) = Ok st' /\ table3 N F L st' /\
    (forall i, zth (snd st') i = if i =? k then Some lab else zth (snd st) i) /\
    forall i f j, cell (fst st') i f j =
      if (i =? k) && inr 0 (dim1 ch) f && inr (off - mo) (off - mo + dim2 ch) j then cell ch 0 f (j - (off - mo)) else cell (fst st) i f j.
Proof.
  destruct st as [m ls]. intros (W & H0 & H1 & H2 & HS) (K & Wc & D0 & D1 & Mo & D2). cbn [fst snd] in *.
  pose proof Wc as (_ & P1 & P2 & _).
  unfold merge_spectrogram_step, set_layer. replace (k <? 0) with false by lia. cbv zeta.
  replace ((k <? 0) || (dim0 m <=? k)) with false by lia.
  edestruct (set3_ok m (between k (k + 1)) (between 0 (dim1 ch)) (between (off - mo) (off - mo + dim2 ch)) ch
    k (k + 1) 0 (dim1 ch) (off - mo) (off - mo + dim2 ch)) as (m' & E & W' & E0 & E1 & E2 & Cl); auto; try (bnd; lia); try (left; lia).
  rewrite E. cbn [bind]. destruct (setitem_ok ls k lab) as (ls' & -> & Z' & H'); [lia|]. cbn [bind].
  eexists; split; [reflexivity|]. split; [repeat split; cbn [fst snd]; auto; try apply W'; lia|]. split; [exact H'|].
  intros i f j. cbn [fst]. rewrite Cl. replace (inr k (k + 1) i) with (i =? k) by (ranges; lia).
  destruct ((i =? k) && _ && _) eqn:C; auto. ranges.
  replace (if dim0 ch =? 1 then 0 else i - k) with 0 by zcases.
  f_equal; zcases.
Qed.

Lemma spectrogram_loop N F L mo : forall items st, table3 N F L st -> NoDup (map fst items) ->
  (forall k x, In (k, x) items -> fitting N F L mo k x) ->
  exists st', for_each items (merge_spectrogram_step mo) st = Ok st' /\ table3 N F L st' /\
    (forall i, ~ In i (map fst items) -> zth (snd st') i = zth (snd st) i /\ forall f j, cell (fst st') i f j = cell (fst st) i f j) /\
    forall k ch off lab, In (k, (ch, (off, lab))) items -> zth (snd st') k = Some lab /\
      forall f j, cell (fst st') k f j =
        if inr 0 (dim1 ch) f && inr (off - mo) (off - mo + dim2 ch) j then cell ch 0 f (j - (off - mo)) else cell (fst st) k f j.
Proof.
  induction items as [|[k [ch [off lab]]] items IH]; intros st T N0 V.
  - exists st. split; [reflexivity|]. split; [auto|]. split; [auto|]. intros ? ? ? ? [].
  - cbn [map fst] in N0. inversion N0 as [|? ? N1 N2]; subst.
    destruct (spectrogram_step_ok N F L mo st k ch off lab T (V _ _ (or_introl eq_refl))) as (s1 & E1 & T1 & L1 & C1).
    destruct (IH s1 T1 N2) as (s2 & E2 & T2 & U2 & P2). { intros; apply V; cbn; auto. }
    exists s2. cbn [for_each]. rewrite E1. cbn [bind]. split; auto. split; auto. split.
    + intros i I. cbn [map fst In] in I. destruct (U2 i) as [Ul Uc]; [tauto|]. rewrite Ul, L1.
      replace (i =? k) with false by (symmetry; apply Z.eqb_neq; intros ->; tauto). split; auto.
      intros f j. rewrite Uc, C1. replace (i =? k) with false by (symmetry; apply Z.eqb_neq; intros ->; tauto). reflexivity.
    + intros k' ch' off' lab' [[= <- <- <- <-]|I].
      * destruct (U2 k N1) as [Ul Uc]. rewrite Ul, L1, Z.eqb_refl. split; auto. intros f j. rewrite Uc, C1, Z.eqb_refl. reflexivity.
      * destruct (P2 _ _ _ _ I) as [Pl Pc]. split; auto. intros f j. rewrite Pc, C1.
        replace (k' =? k) with false; auto. symmetry. apply Z.eqb_neq. intros ->. apply N1. apply in_map_iff. exists (k, (ch', (off', lab'))). auto.
Qed.

Lemma zlen_layers (m : cube A) : 0 <= dim0 m -> zlen (CubeBlocks.layers m) = dim0 m.
Proof. intros. unfold CubeBlocks.layers. rewrite zlen_map, zlen_seq. lia. Qed.

Lemma zth_layers (m : cube A) i ch : wf_cube m -> zth (CubeBlocks.layers m) i = Some ch ->
  0 <= i < dim0 m /\ wf_cube ch /\ dim0 ch = 1 /\ dim1 ch = dim1 m /\ dim2 ch = dim2 m /\ forall f j, cell ch 0 f j = cell m i f j.
Proof.
  intros W. pose proof W as (P0 & P1 & P2 & _). unfold CubeBlocks.layers. rewrite zth_map_zseq. destruct (_ && _) eqn:I; [|discriminate]. intros [= <-].
  split; [lia|]. cbn [dim0 dim1 dim2 cell]. split; [|repeat split; auto].
  apply wf_by_cells; try lia; intros.
  - replace (i0 =? 0) with true by lia. apply cell_in; auto; lia.
  - zcases. apply cell_out; auto. lia.
Qed.

Lemma mk_spectrogram_wf (m : cube A) (res rate : R) o ls : wf_cube m -> zlen ls = dim0 m -> wf_spectrogram (mk_spectrogram m res rate o (Some ls)).
Proof. intros W L. split; auto. unfold sg_count. cbn [mk_spectrogram sg_labels sg_channels]. rewrite sanitize_same; auto. Qed.

Lemma merge_one_spectrogram mode (s : spectrogram A R) : wf_spectrogram s -> merged_spectrogram O mode [s] s.
Proof.
  intros W. split; auto. split; [exists s; split; auto|]. split; [intros d [<-|[]]; lia|].
  do 3 (split; [exists s; cbn; auto|]).
  pose proof W as [(Nn & _ & _ & _) _]. fold (sg_count s) in Nn.
  exists (enum 0 [sg_count s]). split; [split|split].
  - destruct mode; [apply enum_sorted|]. cbn [enum]. rewrite app_nil_r. unfold zseq. rewrite map_map.
    generalize 0%nat as a. induction (Z.to_nat (sg_count s)) as [|k IH]; intros a; cbn [seq map]; constructor; auto.
    apply Forall_forall. intros x I. apply in_map_iff in I as (j & <- & J). apply in_seq in J. cbn. lia.
  - intros o i. rewrite enum_In, Z.sub_0_r. reflexivity.
  - rewrite zlen_enum by (repeat constructor; lia). cbn. lia.
  - intros k o i d E D.
    assert (o = 0 /\ i = k /\ d = s /\ 0 <= k < sg_count s) as (-> & -> & -> & I).
    { cbn [enum] in E. rewrite app_nil_r, zth_map_zseq in E. revert E. zcase; [|discriminate]. intros [= <- <-].
      rewrite zth_cons in D. cbn in D. injection D as <-. repeat split; lia. }
    split; auto. intros f t F T. destruct (sg_at s k f t) as [x|] eqn:X; auto. exfalso.
    unfold sg_at, sg_begins, sg_ends, sg_length, sg_frequencies, sg_count in *.
    destruct (cell_in (sg_channels s) k f (t - sg_offset s) (proj1 W)) as [a Ea]; try congruence; auto. lia.
Qed.

Theorem merge_spectrograms_ok mode (data : list (spectrogram A R)) :
  data <> [] -> Forall wf_spectrogram data ->
  (mode = FIRST_CHANNELS_FIRST -> Forall (fun d => 1 <= sg_count d) data) ->
  exists r, merge_spectrograms O junk mode data = Ok r /\ merged_spectrogram O mode data r.
Proof.
  intros NE W F1. destruct data as [|first rest]; [contradiction|].
  destruct rest as [|second rest].
  { exists first. split; auto. inversion W; subst. apply merge_one_spectrogram; auto. }
  remember (first :: second :: rest) as data eqn:D.
  assert (Hd : merge_spectrograms O junk mode data =
      (let number_of_channels := zsum (map sg_count data) in
      let merged_offset := zminimum (sg_offset first) (map sg_offset data) in
      let len := zmaximum (sg_offset first + sg_length first) (map (fun s => sg_offset s + sg_length s) data) - merged_offset in
      let number_of_frequencies := zmaximum (sg_frequencies first) (map sg_frequencies data) in
      m <- allocate3 junk number_of_channels number_of_frequencies len ;;
      m <- set3 m everything everything everything (scalar3 (o_zero O)) ;;
      let items := combine (merge_indices mode (map sg_count data))
                     (combine (flat_map (fun d => CubeBlocks.layers (sg_channels d)) data)
                        (combine (flat_map (fun d => map (fun _ => sg_offset d) (CubeBlocks.layers (sg_channels d))) data)
                                 (flat_map sg_labels data))) in
      st <- for_each items (merge_spectrogram_step merged_offset) (m, zrepeat EmptyString number_of_channels) ;;
      Ok (mk_spectrogram (fst st) (sg_resolution first) (sg_rate first) merged_offset (Some (snd st))))) by (subst; reflexivity).
  rewrite Hd. clear Hd. cbv zeta.
  assert (First : In first data) by (subst; cbn; auto).
  assert (First0 : zth data 0 = Some first) by (subst; reflexivity).
  clear D NE second rest.
  rewrite Forall_forall in W.
  assert (Zl : forall d, In d data -> zlen (CubeBlocks.layers (sg_channels d)) = sg_count d).
  { intros d I. apply zlen_layers. apply (W d I). }
  rewrite (combine_flat _ sg_labels).
  2:{ intros d I. rewrite zlen_map, Zl by auto. symmetry. apply (W d I). }
  rewrite combine_flat.
  2:{ intros d I. rewrite zlen_combine, zlen_map. pose proof (proj2 (W d I)). pose proof (Zl d I). lia. }
  set (g := fun d : spectrogram A R => combine (CubeBlocks.layers (sg_channels d))
     (combine (map (fun _ => sg_offset d) (CubeBlocks.layers (sg_channels d))) (sg_labels d))).
  assert (G : forall d, In d data -> zlen (g d) = sg_count d).
  { intros d I. unfold g. rewrite !zlen_combine, zlen_map. pose proof (proj2 (W d I)). pose proof (Zl d I). lia. }
  destruct (channel_items mode sg_count g data G F1) as (order & Ar & Zo & ND & It1 & It2).
  assert (Zg : forall d i x, In d data -> zth (g d) i = Some x ->
     exists ch lab, x = (ch, (sg_offset d, lab)) /\ zth (CubeBlocks.layers (sg_channels d)) i = Some ch /\ zth (sg_labels d) i = Some lab).
  { intros d i x I. unfold g. rewrite !zth_combine, zth_map. destruct (zth (CubeBlocks.layers _) i) as [ch|]; [|discriminate].
    cbn [option_map]. destruct (zth (sg_labels d) i) as [lab|]; [|discriminate]. intros [= <-]. eauto. }
  set (N := zsum (map sg_count data)) in *. set (mo := zminimum (sg_offset first) (map sg_offset data)).
  set (top := zmaximum (sg_offset first + sg_length first) (map (fun s => sg_offset s + sg_length s) data)).
  set (F := zmaximum (sg_frequencies first) (map sg_frequencies data)).
  assert (Nn : 0 <= N) by (rewrite <- Zo; apply zlen_nonneg).
  destruct (zminimum_le (map sg_offset data) (sg_offset first)) as [M1 M2]. fold mo in M1, M2.
  destruct (zmaximum_ge (map (fun s => sg_offset s + sg_length s) data) (sg_offset first + sg_length first)) as [T1 T2]. fold top in T1, T2.
  destruct (zmaximum_ge (map sg_frequencies data) (sg_frequencies first)) as [Q1 Q2]. fold F in Q1, Q2.
  assert (M2' : forall d, In d data -> mo <= sg_offset d) by (intros; apply M2, in_map; auto).
  assert (T2' : forall d, In d data -> sg_offset d + sg_length d <= top) by (intros d I; apply T2; apply (in_map (fun s => sg_offset s + sg_length s)); auto).
  assert (Q2' : forall d, In d data -> sg_frequencies d <= F) by (intros d I; apply Q2, in_map; auto).
  assert (Lf : 0 <= sg_length first) by (apply (W first First)).
  assert (Ff : 0 <= sg_frequencies first) by (apply (W first First)).
  destruct (allocate3_ok junk N F (top - mo)) as (m & -> & Wm & D0 & D1 & D2); [lia|lia|lia|]. cbn [bind].
  destruct (scalar3_ok (o_zero O)) as (Ws & S0 & S1 & S2 & Sc).
  edestruct (set3_ok m everything everything everything (scalar3 (o_zero O)) 0 N 0 F 0 (top - mo)) as (m0 & -> & W0 & E0 & E1 & E2 & C0);
    auto; try (bnd; lia). cbn [bind].
  assert (C0' : forall i f j, 0 <= i < N -> 0 <= f < F -> 0 <= j < top - mo -> cell m0 i f j = Some (o_zero O)).
  { intros i f j Hi Hf Hj. rewrite C0. replace (_ && _) with true by (ranges; lia). rewrite S0, S1, S2. exact Sc. }
  set (items := combine (merge_indices mode (map sg_count data)) (flat_map g data)) in *.
  destruct (spectrogram_loop N F (top - mo) mo items (m0, zrepeat EmptyString N)) as ([m' ls'] & Ef & (W' & N' & F' & L' & Z') & _ & H).
  - repeat split; cbn [fst snd]; auto; try apply W0; try lia. rewrite zlen_repeat. lia.
  - exact ND.
  - intros k x I. destruct (It1 k x I) as (o & i & d & Eo & Ed & Eg).
    assert (Id : In d data) by (eapply zth_In; eauto).
    destruct (Zg d i x Id Eg) as (ch & lab & -> & Ech & Elab).
    destruct (zth_layers _ _ _ (proj1 (W d Id)) Ech) as (_ & Wc & H0 & H1 & H2 & _).
    pose proof (zth_range _ _ _ Eo). specialize (M2' d Id). specialize (T2' d Id). specialize (Q2' d Id).
    unfold sg_frequencies, sg_length in *. repeat split; auto; try apply Wc; lia.
  - fold items. rewrite Ef. cbn [bind fst snd] in *. eexists; split; [reflexivity|].
    set (r := mk_spectrogram m' (sg_resolution first) (sg_rate first) mo (Some ls')).
    assert (Bg : sg_begins r = mo) by reflexivity.
    assert (En : sg_ends r = top) by (unfold sg_ends, sg_length, r; cbn [mk_spectrogram sg_offset sg_channels]; lia).
    assert (Fr : sg_frequencies r = F) by exact F'.
    unfold merged_spectrogram. rewrite Bg, En, Fr. split; [apply mk_spectrogram_wf; auto; lia|].
    split; [exists first; auto|]. split; [intros d I; split; [apply M2'|split; [apply T2'|apply Q2']]; auto|].
    split.
    { destruct (zminimum_in (map sg_offset data) (sg_offset first)) as [E|I]; [fold mo in E|fold mo in I].
      - exists first. auto.
      - apply in_map_iff in I as (d & E & I). exists d. auto. }
    split.
    { destruct (zmaximum_in (map (fun s => sg_offset s + sg_length s) data) (sg_offset first + sg_length first)) as [E|I]; [fold top in E|fold top in I].
      - exists first. auto.
      - apply in_map_iff in I as (d & E & I). exists d. auto. }
    split.
    { destruct (zmaximum_in (map sg_frequencies data) (sg_frequencies first)) as [E|I]; [fold F in E|fold F in I].
      - exists first. auto.
      - apply in_map_iff in I as (d & E & I). exists d. auto. }
    exists order. split; [auto|]. split; [unfold sg_count, r; cbn [mk_spectrogram sg_channels]; lia|].
    intros k o i d Eo Ed.
    assert (Id : In d data) by (eapply zth_In; eauto).
    assert (Ii : 0 <= i < sg_count d).
    { assert (Io : In (o, i) order) by (eapply zth_In; eauto). apply Ar in Io as (n & En' & I). rewrite zth_map, Ed in En'. injection En' as <-. auto. }
    destruct (zth_in (g d) i) as [x Ex]; [rewrite G; auto|].
    pose proof (It2 k o i d x Eo Ed Ex) as Iit.
    destruct (Zg d i x Id Ex) as (ch & lab & -> & Ech & Elab).
    destruct (zth_layers _ _ _ (proj1 (W d Id)) Ech) as (_ & Wc & H0 & H1 & H2 & Hc).
    destruct (H k ch (sg_offset d) lab Iit) as [Hl Hj].
    unfold r. cbn [mk_spectrogram sg_labels]. rewrite sanitize_same by lia. rewrite Elab. split; [exact Hl|].
    intros f t Hf T. unfold sg_at. cbn [mk_spectrogram sg_channels sg_offset]. rewrite Hj.
    pose proof (zth_range _ _ _ Eo) as Hk. rewrite Zo in Hk.
    replace (t - mo - (sg_offset d - mo)) with (t - sg_offset d) by lia. rewrite Hc.
    destruct (_ && _) eqn:C.
    + destruct (cell_in (sg_channels d) i f (t - sg_offset d)) as [v Ev]; [apply (W d Id)|auto|ranges; lia|ranges; lia|]. rewrite Ev. reflexivity.
    + rewrite C0' by lia. rewrite cell_out; auto; [apply (W d Id)|]. ranges; lia.
Qed.

End Spectrograms.

(** ** Filters *)
Section Filters.
Context {K X : Type}.

Lemma filter_loop N : forall items (st : list (option (term K X)) * list string), zlen (fst st) = N -> zlen (snd st) = N -> NoDup (map fst items) ->
  (forall k x, In (k, x) items -> 0 <= k < N) ->
  exists st', for_each items merge_filter_step st = Ok st' /\ zlen (fst st') = N /\ zlen (snd st') = N /\
    (forall i, ~ In i (map fst items) -> zth (fst st') i = zth (fst st) i /\ zth (snd st') i = zth (snd st) i) /\
    forall k t lab, In (k, (t, lab)) items -> zth (fst st') k = Some (Some t) /\ zth (snd st') k = Some lab.
Proof.
  induction items as [|[k [t lab]] items IH]; intros [tfs ls] Z1 Z2 N0 V; cbn [fst snd] in Z1, Z2.
  - exists (tfs, ls). split; [reflexivity|]. do 3 (split; [auto|]). intros ? ? ? [].
  - cbn [map fst] in N0. inversion N0 as [|? ? N1 N2]; subst.
    pose proof (V k (t, lab) (or_introl eq_refl)) as Hk.
    destruct (setitem_ok tfs k (Some t)) as (tfs' & E1 & Zt & Ht); [lia|].
    destruct (setitem_ok ls k lab) as (ls' & E2 & Zs & Hs); [lia|].
    destruct (IH (tfs', ls')) as (st & E & Y1 & Y2 & U & P); cbn [fst snd]; auto; try lia.
    { intros; eapply V; cbn; eauto. }
    exists st. cbn [for_each]. unfold merge_filter_step at 1. rewrite E1. cbn [bind]. rewrite E2. cbn [bind]. rewrite E.
    split; auto. split; auto. split; auto. cbn [fst snd] in U. split.
    + intros i I. cbn [map fst In] in I. destruct (U i) as [U1 U2]; [tauto|]. rewrite U1, U2, Ht, Hs.
      replace (i =? k) with false by (symmetry; apply Z.eqb_neq; intros ->; tauto). auto.
    + intros k' t' lab' [[= <- <- <-]|I]; auto. destruct (U k N1) as [U1 U2]. rewrite U1, U2, Ht, Hs, Z.eqb_refl. auto.
Qed.

Lemma complete_ok (tfs : list (option (term K X))) : (forall k, 0 <= k < zlen tfs -> exists t, zth tfs k = Some (Some t)) ->
  exists ts, complete tfs = Ok ts /\ zlen ts = zlen tfs /\ forall k t, zth tfs k = Some (Some t) -> zth ts k = Some t.
Proof.
  unfold complete. induction tfs as [|x tfs IH]; intros H.
  - exists []. split; [reflexivity|]. split; [reflexivity|]. intros k t E. apply zth_range in E. change (zlen (@nil (option (term K X)))) with 0 in E. lia.
  - pose proof (zlen_nonneg tfs). destruct (H 0) as [t Et]; [rewrite zlen_cons; lia|]. rewrite zth_cons in Et. cbn in Et. injection Et as ->.
    destruct IH as (ts & E & Zt & Hts).
    { intros k Hk. destruct (H (k + 1)) as [u Eu]; [rewrite zlen_cons; lia|]. exists u. rewrite zth_cons in Eu.
      replace (k + 1 =? 0) with false in Eu by lia. replace (k + 1 <? 0) with false in Eu by lia. replace (k + 1 - 1) with k in Eu by lia. exact Eu. }
    exists (t :: ts). cbn [map sequence bind]. rewrite E. cbn [bind]. split; [reflexivity|]. split; [rewrite !zlen_cons; lia|].
    intros k u. rewrite !zth_cons. zcases; auto. congruence.
Qed.

Lemma merge_one_filter mode (F : filter K X) : zlen (f_labels F) = f_count F -> merged_filter mode [F] F.
Proof.
  intros W. split; auto. pose proof (zlen_nonneg (transfer_functions F)) as Nn. fold (f_count F) in Nn.
  exists (enum 0 [f_count F]). split; [split|split].
  - destruct mode; [apply enum_sorted|]. cbn [enum]. rewrite app_nil_r. unfold zseq. rewrite map_map.
    generalize 0%nat as a. induction (Z.to_nat (f_count F)) as [|k IH]; intros a; cbn [seq map]; constructor; auto.
    apply Forall_forall. intros x I. apply in_map_iff in I as (j & <- & J). apply in_seq in J. cbn. lia.
  - intros o i. rewrite enum_In, Z.sub_0_r. reflexivity.
  - rewrite zlen_enum by (repeat constructor; lia). cbn. lia.
  - intros k o i d E D.
    assert (i = k /\ d = F) as (-> & ->); auto.
    cbn [enum] in E. rewrite app_nil_r, zth_map_zseq in E. revert E. zcase; [|discriminate]. intros [= <- <-].
    rewrite zth_cons in D. cbn in D. injection D as <-. repeat split; lia.
Qed.

Theorem merge_filters_ok mode (data : list (filter K X)) :
  data <> [] -> Forall (fun F => zlen (f_labels F) = f_count F) data ->
  (mode = FIRST_CHANNELS_FIRST -> Forall (fun d => 1 <= f_count d) data) ->
  exists r, merge_filters mode data = Ok r /\ merged_filter mode data r.
Proof.
  intros NE W F1. destruct data as [|first rest]; [contradiction|].
  destruct rest as [|second rest].
  { exists first. split; auto. inversion W; subst. apply merge_one_filter; auto. }
  remember (first :: second :: rest) as data eqn:D.
  assert (Hd : merge_filters mode data =
      (let number_of_channels := zsum (map f_count data) in
      let items := combine (merge_indices mode (map f_count data))
                     (combine (flat_map transfer_functions data) (flat_map f_labels data)) in
      st <- for_each items merge_filter_step (zrepeat None number_of_channels, zrepeat EmptyString number_of_channels) ;;
      tfs <- complete (fst st) ;;
      Ok (mk_filter tfs (snd st)))) by (subst; reflexivity).
  rewrite Hd. clear Hd. cbv zeta. clear D NE.
  rewrite Forall_forall in W.
  rewrite combine_flat by (intros d I; symmetry; apply (W d I)).
  set (g := fun d : filter K X => combine (transfer_functions d) (f_labels d)).
  assert (G : forall d, In d data -> zlen (g d) = f_count d).
  { intros d I. unfold g. rewrite zlen_combine. pose proof (W d I). unfold f_count in *. lia. }
  destruct (channel_items mode f_count g data G F1) as (order & Ar & Zo & ND & It1 & It2).
  set (N := zsum (map f_count data)) in *. assert (Nn : 0 <= N) by (rewrite <- Zo; apply zlen_nonneg).
  set (items := combine (merge_indices mode (map f_count data)) (flat_map g data)) in *.
  destruct (filter_loop N items (zrepeat None N, zrepeat EmptyString N)) as ([tfs ls] & -> & Z1 & Z2 & _ & P); cbn [fst snd] in *;
    try (rewrite zlen_repeat; lia); auto.
  { intros k x I. destruct (It1 k x I) as (o & i & d & Eo & _). pose proof (zth_range _ _ _ Eo). lia. }
  cbn [bind fst snd].
  assert (Cover : forall k o i d, zth order k = Some (o, i) -> zth data o = Some d ->
     exists t lab, zth (transfer_functions d) i = Some t /\ zth (f_labels d) i = Some lab /\ zth tfs k = Some (Some t) /\ zth ls k = Some lab).
  { intros k o i d Eo Ed. assert (Id : In d data) by (eapply zth_In; eauto).
    assert (Ii : 0 <= i < f_count d).
    { assert (Io : In (o, i) order) by (eapply zth_In; eauto). apply Ar in Io as (n & En' & I). rewrite zth_map, Ed in En'. injection En' as <-. auto. }
    destruct (zth_in (g d) i) as [x Ex]; [rewrite G; auto|].
    pose proof (It2 k o i d x Eo Ed Ex) as Iit. unfold g in Ex. rewrite zth_combine in Ex.
    destruct (zth (transfer_functions d) i) as [t|]; [|discriminate]. destruct (zth (f_labels d) i) as [lab|]; [|discriminate].
    injection Ex as <-. destruct (P k t lab Iit). exists t, lab. auto. }
  destruct (complete_ok tfs) as (ts & -> & Zts & Hts).
  { intros k Hk. rewrite Z1 in Hk. destruct (zth_in order k) as [[o i] Eo]; [lia|].
    assert (Io : In (o, i) order) by (eapply zth_In; eauto). apply Ar in Io as (n & En' & I). rewrite zth_map in En'.
    destruct (zth data o) as [d|] eqn:Ed; [|discriminate]. destruct (Cover k o i d Eo Ed) as (t & _ & _ & _ & E & _). eauto. }
  cbn [bind]. eexists; split; [reflexivity|].
  assert (El : f_labels (mk_filter ts ls) = ls) by (cbn [mk_filter f_labels]; apply sanitize_same; lia).
  split; [rewrite El; unfold f_count; cbn [mk_filter transfer_functions]; lia|].
  exists order. split; auto. split; [unfold f_count; cbn [mk_filter transfer_functions]; lia|].
  intros k o i d Eo Ed. destruct (Cover k o i d Eo Ed) as (t & lab & E1 & E2 & E3 & E4). rewrite El, E4, E2. split; auto.
  cbn [mk_filter transfer_functions]. rewrite E1. apply Hts. exact E3.
Qed.

End Filters.
